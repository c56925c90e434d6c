(* EndProofs2.v - what is answered keeps the notes and reads something (for EndProofs3.v). *)
From Coq Require Import Strings.String Strings.Byte Sorting.Permutation Lia.
From Verif Require Import Go GoLemmas DomainModel DomainSpec CardModel CardSpec PatModel PatSpec RuleModel RuleSpec RuleProofs PathModel PathSpec PathProofs LexModel LexSpec LexProofs LexProofs2 LexProofs3 OrdSpec OrdProofs EndSpec EndProofs.
Open Scope list_scope.

(* what holds of an answer; [q]: the notes stay *)
Definition par {A} (q : bool) (m : M A) (P : A -> Prop) : Prop := forall st a st', ls_pre st = false -> m st = (Ok a, st') ->
  P a /\ ls_pre st' = false /\ (q = true -> ls_rec st' = ls_rec st).
Lemma par_bind {A B} q (m : M A) (f : A -> M B) P Q : par q m P -> (forall a, P a -> par q (f a) Q) -> par q (mbind m f) Q.
Proof.
  intros Hm Hf st b st' E H. apply mbind_ok in H. destruct H as (a & s1 & H1 & H2). destruct (Hm st a s1 E H1) as (Pa & E1 & R1). destruct (Hf a Pa s1 b st' E1 H2) as (Qb & E2 & R2).
  split; [exact Qb|]. split; [exact E2|]. intros Hq. rewrite (R2 Hq). apply R1. exact Hq.
Qed.
Lemma par_ret {A} q (a : A) (P : A -> Prop) : P a -> par q (ret a) P.
Proof. intros H st b st' E R. apply ret_ok in R. destruct R; subst. auto. Qed.
Lemma par_lift {A} q (r : res A) (P : A -> Prop) : (forall a, r = Ok a -> P a) -> par q (lift r) P.
Proof. intros H st b st' E R. apply lift_ok in R. destruct R; subst. auto. Qed.
Lemma par_weak {A} q q' (m : M A) (P Q : A -> Prop) : par q m P -> (q' = true -> q = true) -> (forall a, P a -> Q a) -> par q' m Q.
Proof. intros H I J st a st' E R. destruct (H st a st' E R) as (Pa & E1 & R1). auto. Qed.

Lemma rule_loop_rec r pmax local sl : forall fuel acc s st, ls_rec (snd (rule_loop fuel r pmax local sl acc s st)) = ls_rec st.
Proof.
  induction fuel as [|n IH]; intros acc s st; [reflexivity|]. cbn [rule_loop]. destruct (to_result r s) as [x| | |]; try reflexivity. destruct (rr_matches x); [|reflexivity]. destruct (first_index x) as [i|]; [|reflexivity].
  assert (P' : ls_rec (if 0 <? i then {| ls_rec := ls_rec st; ls_pre := false; ls_tick := ls_tick st |} else st) = ls_rec st) by (destruct (0 <? i); reflexivity).
  destruct (_ && _); [exact P'|]. destruct (_ <=? _); [exact P'|]. destruct (_ <? length (rr_content x)); [exact P'|]. match goal with |- context [if ?b then (Ok _, _) else _] => destruct b end; [exact P'|]. rewrite IH. exact P'.
Qed.
Lemma rule_match_par q r k s ch : good_rule r -> par q (rule_to_match r k s ch) (fun x => rm_card x = k /\ Forall (fun x => rr_content x <> []) (rm_results x)).
Proof.
  intros G st x st' E H. split; [apply (proj2 (rule_match_fin r k s ch G st) x st' H)|].
  unfold rule_to_match in H. destruct (delimiter k) as [mn mx]. apply mbind_ok in H. destruct H as (l & s1 & H1 & H2). inversion H2; subst.
  assert (Kp := rule_loop_keeps r mx (ls_pre st && ch) (length s) (S (length s)) [] s st E). assert (Kr := rule_loop_rec r mx (ls_pre st && ch) (length s) (S (length s)) [] s st). rewrite H1 in Kp, Kr. auto.
Qed.
Section Line.
Variable f : pcontainer -> gmap element -> bytes -> bool -> bool -> M (option block).
Variable d : gmap element.
Variable q : bool.
Definition fpar (l : line) : Prop := forall c s ch nx, In (ICont c) l -> par q (f c d s ch nx) (consumes c).
Lemma line_loop_par l : fpar l -> forall s ch nx acc, par q (line_loop f l d s ch nx acc) any.
Proof.
  induction l as [|[|c] l IH]; intros Hl s ch nx acc; cbn [line_loop].
  - apply par_ret. exact I.
  - apply IH. intros c' s' ch' nx' Hi. apply Hl. right. exact Hi.
  - eapply par_bind; [apply Hl; left; reflexivity|]. intros [b|] _; [|apply par_ret; exact I]. destruct (negb (b_valid b)); [apply par_ret; exact I|]. destruct (has_prefix (b_disc b) s); [|apply par_ret; exact I].
    apply IH. intros c' s' ch' nx' Hi. apply Hl. right. exact Hi.
Qed.
Lemma line_par l s ch : fpar l -> par q (line_to_matches f l d s ch) any.
Proof. intros H. unfold line_to_matches. eapply par_bind; [apply line_loop_par; exact H|]. intros; apply par_ret; exact I. Qed.
Lemma best_loop_par ls : forall i s ch big v iv, (forall l, In l ls -> fpar l) ->
  match v with Some (i, bl) => lm_valid (LM i bl) = true /\ lm_disc (LM i bl) <> [] | None => True end ->
  match iv with Some (i, bl) => lm_valid (LM i bl) = false | None => True end ->
  par q (best_loop f ls i d s ch big v iv) (fun r => nonempty_if_valid (match r with (Some (i, bl), _) => Some (LM i bl) | (None, Some (i, bl)) => Some (LM i bl) | (None, None) => None end)).
Proof.
  induction ls as [|l ls IH]; intros i s ch big v iv Hl Hv Hi; cbn [best_loop].
  - apply par_ret. destruct v as [[j bl]|]; [intros _; apply Hv|]. destruct iv as [[j bl]|]; [|exact I]. cbn. intros V. cbn in Hi. congruence.
  - eapply par_bind; [apply line_par; apply Hl; left; reflexivity|]. intros [bl|] _; [|apply IH; [intros; apply Hl; right; assumption|exact Hv|exact Hi]].
    destruct (lm_valid (LM i bl)) eqn:V; cbn [negb].
    + destruct (big <? length (lm_disc (LM i bl))) eqn:L; apply IH; try (intros; apply Hl; right; assumption); try assumption.
      split; [exact V|]. apply Nat.ltb_lt in L. intros Z. rewrite Z in L. cbn in L. lia.
    + apply IH; [intros; apply Hl; right; assumption|exact Hv|]. destruct (0 <? length bl); [exact V|exact Hi].
Qed.
Lemma element_par e s ch : el_not e = None -> (forall l, In l (el_must e) -> fpar l) -> par q (element_to_token f e d s ch) tok_consumes.
Proof.
  intros En Hl. unfold element_to_token. eapply par_bind with (P := fun c => match c with Some (m, n) => n = None /\ (lm_valid m = true -> lm_disc m <> []) | None => True end).
  - unfold element_to_content, best_line. eapply par_bind with (P := nonempty_if_valid); [eapply par_bind; [apply best_loop_par; [exact Hl|exact I|exact I]|intros r Hr; apply par_ret; exact Hr]|]. intros [m|] Hm; [|apply par_ret; exact I]. rewrite En. apply par_ret. split; [reflexivity|exact Hm].
  - intros c Hc. apply par_lift. intros t Et. destruct (el_name e); [discriminate|]. inversion Et; subst t. intros V.
    destruct c as [[m n]|]; [|discriminate]. destruct Hc as [-> Hm]. cbn in V |- *. split; [apply Hm; exact V|]. exists m. auto.
Qed.
Definition read_all (l : list tok) : Prop := Forall (fun t => tok_valid t = true /\ tok_disc t <> []) l.
Lemma token_loop_par e pmax ch : (forall s, par q (element_to_token f e d s ch) tok_consumes) -> forall fuel acc s, read_all acc -> par q (token_loop f fuel e d pmax ch acc s) read_all.
Proof.
  intros He. induction fuel as [|n IH]; intros acc s Ha; cbn [token_loop]; [apply par_lift; discriminate|]. eapply par_bind; [apply He|]. intros t Ht.
  destruct (tok_valid t) eqn:V; cbn [negb]; [|apply par_ret; exact Ha]. destruct (Ht V) as (N & m & -> & Em).
  assert (Ha' : read_all (acc ++ [t])) by (apply Forall_app; split; [exact Ha|constructor; [split; assumption|constructor]]).
  destruct (has_prefix (lm_disc m) s); [|apply par_ret; exact Ha']. match goal with |- context [if ?b then _ else _] => destruct b end; [apply par_ret; exact Ha'|apply IH; exact Ha'].
Qed.
Lemma token_match_par fuel e sp k s ch : (forall s, par q (element_to_token f e d s ch) tok_consumes) ->
  par q (token_to_match f fuel e sp k d s ch) (fun t => tm_card t = k /\ read_all (tm_toks t)).
Proof.
  intros He. unfold token_to_match. destruct (delimiter k) as [mn mx]. eapply par_bind; [apply token_loop_par; [exact He|constructor]|].
  intros l Hl. apply par_lift. intros t Et. destruct s; [discriminate|]. destruct (forallb _ sp); [|discriminate]. inversion Et. split; [reflexivity|exact Hl].
Qed.
End Line.

Section Keep.
Variable channels : nat -> list path.
Hypothesis Hmap : same_map channels.
Hypothesis Hsimple : forall p, among channels p -> exists r, simple_channel p r.
Variable still : list bytes.
Variable depth : nat.
Variable p : path.
Hypothesis Hp : settles still depth p.

Lemma el_facts e : element_of p e -> el_not e = None /\ (listed (el_name e) still = true -> forall l, In l (el_must e) -> line_quiet still l = true) /\
  forall l, In l (el_must e) -> line_ok still (guarded (mlookup (pa_deps p)) still depth) [] l = true /\ start_ok (behind (mlookup (pa_deps p)) depth) l = true.
Proof.
  intros He. assert (H := proj1 Hp e He). unfold element_settles in H. destruct (el_not e); [discriminate|]. split; [reflexivity|]. apply andb_prop in H. destruct H as [H1 H2].
  split; [intros L; rewrite L in H1; apply forallb_forall; exact H1|]. rewrite forallb_forall in H2. intros l Hl. specialize (H2 l Hl). apply andb_prop in H2. exact H2.
Qed.
Lemma inner_el e sp k : occurs_in p (PToken e sp k) -> element_of p e.
Proof. intros H. right. right. exists sp, k. exact H. Qed.
Lemma quiet_in e l c : element_of p e -> listed (el_name e) still = true -> In l (el_must e) -> In (ICont c) l -> quiet still c = true.
Proof. intros He Hn Hl Hc. assert (H := proj1 (proj2 (el_facts e He)) Hn l Hl). unfold line_quiet in H. rewrite forallb_forall in H. apply (H (ICont c) Hc). Qed.
Lemma find_par n chs b s : (forall q, In q chs -> among channels q) -> par true (find_in_channels (cbm channels n) chs (b :: s)) (fun o => match o with Some m => lm_disc m <> [] | None => True end).
Proof.
  intros Hi st o st' E H. destruct n as [|n].
  - destruct chs as [|c chs]; [inversion H; subst; auto|]. exfalso. destruct (Hsimple c (Hi c (or_introl eq_refl))) as (r & G & Nm & Nn & k & Em & K0). cbn [find_in_channels] in H. unfold element_to_token, element_to_content, best_line in H. rewrite Em in H. discriminate.
  - destruct (find_answer channels Hsimple chs b s Hi) as [(m & Hm & Nm & _)|[Hn _]].
    + rewrite (Hm n st E) in H. inversion H; subst. auto.
    + rewrite (Hn n st E) in H. inversion H; subst. auto.
Qed.
Lemma cbm_par n : forall c s ch nx, occurs_in p c -> par (quiet still c) (cbm channels n c (pa_deps p) s ch nx) (fun o => consumes c o /\ (o = None -> (s = [] /\ may_be_absent c) \/ exists x sp k, c = PRec x sp k)).
Proof.
  induction n as [|n IH]; intros c s ch nx Oc; [apply par_lift; discriminate|]. cbn [cbm]. unfold cbm_step. destruct s as [|b s].
  - apply par_lift. intros o Eo. destruct (cont_card c) as [k| | |] eqn:Ek; cbn [bind] in Eo; try discriminate. destruct (is_valid k 0) eqn:V.
    + inversion Eo. split; [exact I|]. intros _. left. split; [reflexivity|]. exists k. split; [destruct c; cbn in Ek |- *; congruence|exact V].
    + destruct (build_next n c (pa_deps p)); cbn [bind] in Eo; try discriminate. inversion Eo. split; [intros V'; discriminate|discriminate].
  - assert (El : forall q e, element_of p e -> (q = true -> listed (el_name e) still = true) -> forall s ch, par q (element_to_token (cbm channels n) e (pa_deps p) s ch) tok_consumes).
    { intros q e He Hq s' ch'. apply element_par; [apply (el_facts e He)|]. intros l Hl c' s2 ch2 nx2 Hc. assert (Oc' : occurs_in p c') by (apply (occ_el p e); [exact He|left; exists l; auto]).
      eapply par_weak; [apply (IH c' s2 ch2 nx2 Oc')|intros ->; apply (quiet_in e l c' He (Hq eq_refl) Hl Hc)|intros o [Ho _]; exact Ho]. }
    eapply par_bind with (P := fun o => match o with Some _ => consumes c o | None => True end).
    + destruct ch; [|apply par_ret; exact I]. unfold find_channel_block. eapply par_bind.
      * intros st o st' E H. unfold range_channels in H. destruct (find_par n (channels (ls_tick st)) b s (fun q Hq => ex_intro (fun k => In q (channels k)) (ls_tick st) Hq) {| ls_rec := ls_rec st; ls_pre := ls_pre st; ls_tick := S (ls_tick st) |} o st' E H) as (Po & E1 & R1). split; [exact Po|]. split; [exact E1|]. intros _. rewrite (R1 eq_refl). reflexivity.
      * intros [m|] Hm; [|apply par_ret; exact I]. destruct (has_prefix (lm_disc m) (b :: s)); [|apply par_ret; exact I]. eapply par_bind; [apply (IH c _ nx nx Oc)|]. intros [x|] Hx; apply par_ret; [|exact I].
        intros V D. cbn [b_valid b_disc] in V, D. apply app_eq_nil in D. tauto.
    + intros [x|] Hx; [apply par_ret; split; [exact Hx|discriminate]|]. eapply par_bind with (P := fun o => match o with Some m => consumes c (Some (BCont m None)) | None => exists x sp k, c = PRec x sp k end).
      * destruct c as [e sp k|r k|nm sp k|ls]; cbn [container_to_match quiet].
        -- eapply par_bind; [apply (token_match_par (cbm channels n) (pa_deps p)); intros s0; apply (El _ e (inner_el e sp k Oc)); auto|]. intros t [Ek F]. apply par_ret. apply (token_or_skip_consumes t _ k); [reflexivity|exact Ek|exact F].
        -- eapply par_bind; [apply rule_match_par; apply (proj1 (proj2 Hp) r k Oc)|]. intros x [Ek F]. apply par_ret. apply rule_or_skip_consumes; assumption.
        -- intros st o st' E H. match type of H with context [if ?b then _ else _] => destruct b end.
           ++ inversion H; subst. split; [exists nm, sp, k; reflexivity|]. split; [exact E|discriminate].
           ++ match type of H with ?mm ?s0 = _ => assert (F : par false mm (fun o => match o with Some m => consumes (PRec nm sp k) (Some (BCont m None)) | None => exists x sp0 k0, PRec nm sp k = PRec x sp0 k0 end)) end.
              { eapply par_bind with (P := fun e => mlookup (pa_deps p) nm = Some e); [apply par_lift; unfold dep_fetch; destruct (mlookup (pa_deps p) nm); intros a X; inversion X; reflexivity|].
                intros e Ee. eapply par_bind; [apply (token_match_par (cbm channels n) (pa_deps p)); intros s0; apply (El false e (el_dep p nm e Ee)); discriminate|]. intros t [Ek F]. apply par_ret. apply (token_or_skip_consumes t _ k); [reflexivity|exact Ek|exact F]. }
              destruct (F {| ls_rec := minsert (ls_rec st) nm (b :: s); ls_pre := ls_pre st; ls_tick := ls_tick st |} o st' E H) as (F1 & F2 & _). split; [exact F1|]. split; [exact F2|discriminate].
        -- exfalso. apply (proj1 (proj2 (proj2 Hp) _ Oc) ls eq_refl).
      * intros [m|] Hm; apply par_ret; (split; [try exact Hm; exact I|]); [discriminate|]. intros _. right. exact Hm.
Qed.
End Keep.
