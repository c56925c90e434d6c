From Coq Require Import Strings.String Strings.Byte Lia.
From Verif Require Import Go GoLemmas DomainModel DomainSpec CardModel CardSpec CardProofs PatModel PatSpec PatProofs RuleModel RuleSpec RuleProofs PathModel PathSpec LexModel LexSpec.

Lemma join_concat l : join [] l = concat l.
Proof. induction l as [|a [|b l] IH]; [reflexivity|cbn; rewrite app_nil_r; reflexivity|]. change (join [] (a :: b :: l)) with (a ++ [] ++ join [] (b :: l)). rewrite IH. reflexivity. Qed.

(* ---- the monad ---- *)
Lemma mbind_ok {A B} (m : M A) (f : A -> M B) s b s' : mbind m f s = (Ok b, s') -> exists a s1, m s = (Ok a, s1) /\ f a s1 = (Ok b, s').
Proof. unfold mbind. destruct (m s) as [[a| | |] s1]; try discriminate. intros H. exists a, s1. split; [reflexivity|exact H]. Qed.
Lemma ret_ok {A} (a b : A) s s' : ret a s = (Ok b, s') -> a = b /\ s = s'.
Proof. unfold ret. intros H. inversion H. auto. Qed.
Lemma lift_ok {A} (r : res A) b s s' : lift r s = (Ok b, s') -> r = Ok b /\ s = s'.
Proof. unfold lift. intros H. inversion H. auto. Qed.
Ltac mstep := match goal with
  | H : mbind _ _ _ = (Ok _, _) |- _ => apply mbind_ok in H; destruct H as (? & ? & ? & ?)
  | H : ret _ _ = (Ok _, _) |- _ => apply ret_ok in H; destruct H
  | H : lift _ _ = (Ok _, _) |- _ => apply lift_ok in H; destruct H
  end.

(* ---- texts ---- *)
Lemma cut_app w s : cut w (w ++ s) = s.
Proof. unfold cut. rewrite skipn_app, skipn_all, Nat.sub_diag. reflexivity. Qed.
Lemma prefix_cut w s : is_prefix w s -> s = w ++ cut w s.
Proof. intros [r ->]. rewrite cut_app. reflexivity. Qed.
Lemma prefix_cut_app a b s : is_prefix (a ++ b) s <-> is_prefix a s /\ is_prefix b (cut a s).
Proof.
  split.
  - intros [r ->]. rewrite <- app_assoc, cut_app. split; [eexists; reflexivity|eexists; reflexivity].
  - intros [Ha [r Hr]]. rewrite (prefix_cut a s Ha), Hr. exists r. rewrite app_assoc. reflexivity.
Qed.
Lemma cut_cut a b s : is_prefix a s -> cut (a ++ b) s = cut b (cut a s).
Proof.
  intros [r ->]. rewrite cut_app. unfold cut. rewrite app_length.
  induction a as [|x a IH]; [reflexivity|]. cbn. exact IH.
Qed.
Lemma prefix_nil s : is_prefix [] s. Proof. exists s. reflexivity. Qed.
Lemma cut_nil s : cut [] s = s. Proof. reflexivity. Qed.

(* ---- rules ---- *)
Lemma good_rule_pattern r ps k : good_rule r -> rl_content r = RPattern ps k -> forallb pattern_ok ps = true /\ (fits k \/ exists m, snd (delimiter k) = Some m /\ (2 ^ 63 <= m < 2 ^ 64)%N).
Proof.
  intros [Hok Hm] Ec. unfold rule_ok in Hok. rewrite Ec in *. apply andb_prop in Hok. destruct Hok as [_ Hok]. cbn in Hok. apply andb_prop in Hok.
  split; [tauto|]. unfold fits. destruct (snd (delimiter k)) as [m|]; [|left; discriminate].
  destruct (N.lt_ge_cases m (2 ^ 63)) as [L|G]; [left; intros ? [= <-]; exact L|right]. exists m. split; [reflexivity|]. split; [exact G|]. apply Hm. reflexivity.
Qed.
(* one evaluation of a rule *)
Lemma to_result_cases r s x : good_rule r -> to_result r s = Ok x ->
  rr_matches x = None \/
  (exists c k, rl_content r = RConstant c /\ c <> [] /\ first_occurrence c s k /\ rr_content x = c /\ first_index x = Some k /\ rr_matches x <> None) \/
  (exists ps kd ms rest, rl_content r = RPattern ps kd /\ eats ps s ms rest /\ ms <> [] /\ at_most kd (length ms) /\ (full kd (length ms) \/ stuck ps rest) /\
     found x = ms /\ rr_content x ++ rest = s /\ rr_content x <> [] /\ first_index x = Some 0).
Proof.
  intros G E. destruct (rl_content r) as [c|ps k] eqn:Ec.
  - destruct c as [|b c].
    + left. unfold to_result in E. rewrite Ec in E. inversion E. reflexivity.
    + assert (Nc : b :: c <> []) by discriminate. destruct (proj1 (constant_rule_exact r s (b :: c) x Ec Nc) E) as (_ & [(k & Hk & Em)|(_ & Em)]); [|left; exact Em].
      right. left. exists (b :: c), k. rewrite rr_content_taken. unfold found, first_index. rewrite Em. cbn. split; [reflexivity|]. split; [discriminate|]. split; [exact Hk|].  split; [|split; [reflexivity|discriminate]].
      rewrite !app_nil_r. reflexivity.
  - destruct (good_rule_pattern r ps k G Ec) as [Hps [Hf|(m & Em & B)]].
    + destruct (proj1 (pattern_rule_exact r s ps k x (proj1 G) Ec Hf) E) as (_ & Ne & rest & He & Ha & Hs).
      destruct (found x) as [|p ms] eqn:Ef.
      * left. unfold found in Ef. destruct (rr_matches x) as [[|]|]; [congruence|discriminate|reflexivity].
      * right. right. exists ps, k, (p :: ms), rest. split; [reflexivity|]. split; [exact He|]. split; [discriminate|]. split; [exact Ha|]. split; [exact Hs|]. split; [reflexivity|].
        rewrite rr_content_taken, Ef. split; [symmetry; apply (eats_text _ _ _ _ He)|].
        inversion He as [|t t' r0 rs0 rest0 Hfh Et He']; subst. destruct (first_here_taken ps _ p Hps Hfh) as (Nt & Nk & _).
        split.
        { intros Hn. cbn [map concat] in Hn. apply app_eq_nil in Hn. tauto. }
        destruct (first_here_result ps _ p Hps Nt Hfh) as [_ Hi]. unfold first_index. unfold found in Ef. destruct (rr_matches x) as [l|]; [|discriminate]. subst l.
        unfold disc_index in Hi. destruct (r_disc p); [discriminate|]. inversion Hi. reflexivity.
    + left. rewrite (huge_maximum r s ps k m Ec Em B) in E. inversion E. reflexivity.
Qed.
Lemma to_result_answers r s : good_rule r -> exists x, to_result r s = Ok x.
Proof.
  intros G. destruct (rl_content r) as [c|ps k] eqn:Ec.
  - destruct c as [|b c]; [unfold to_result; rewrite Ec; eexists; reflexivity|]. apply (constant_rule_total r s (b :: c) Ec). discriminate.
  - destruct (good_rule_pattern r ps k G Ec) as [Hps [Hf|(m & Em & B)]].
    + apply (pattern_rule_total r s ps k (proj1 G) Ec Hf).
    + rewrite (huge_maximum r s ps k m Ec Em B). eexists; reflexivity.
Qed.
(* a result that starts at the front was taken *)
Lemma to_result_takes r s x : good_rule r -> to_result r s = Ok x -> first_index x = Some 0 ->
  is_prefix (rr_content x) s /\ rr_content x <> [] /\ rule_takes r s (cut (rr_content x) s).
Proof.
  intros G E Fi. destruct (to_result_cases r s x G E) as [N|[(c & k & Ec & Nc & Fo & Ct & Fk & _)|(ps & kd & ms & rest & Ec & He & Nm & Ha & Hs & Hf & Ht & Nt & Fk)]].
  - unfold first_index in Fi. rewrite N in Fi. discriminate.
  - rewrite Fi in Fk. inversion Fk as [Ek]; subst k. destruct Fo as (Lt & P & _). cbn [skipn] in P. rewrite Ct. split; [exact P|]. split; [exact Nc|]. rewrite (prefix_cut c s P) at 1. apply rt_const; assumption.
  - assert (Es : s = rr_content x ++ rest) by (symmetry; exact Ht). split; [exists rest; exact Es|]. split; [exact Nt|]. rewrite Es at 2. rewrite cut_app. apply (rt_pattern r ps kd s ms rest); assumption.
Qed.
Lemma to_result_index r s x : good_rule r -> to_result r s = Ok x -> rr_matches x <> None -> exists i, first_index x = Some i /\ rr_content x <> [] /\ length (rr_content x) <= length s.
Proof.
  intros G E N. destruct (to_result_cases r s x G E) as [N'|[(c & k & Ec & Nc & Fo & Ct & Fk & _)|(ps & kd & ms & rest & Ec & He & Nm & Ha & Hs & Hf & Ht & Nt & Fk)]].
  - contradiction.
  - exists k. rewrite Ct. split; [exact Fk|]. split; [exact Nc|]. destruct Fo as (_ & [z P] & _). apply (f_equal (@length _)) in P. rewrite app_length, skipn_length in P. lia.
  - exists 0. split; [exact Fk|]. split; [exact Nt|]. rewrite <- Ht, app_length. lia.
Qed.
(* content at the front of the text means index 0 *)
Lemma to_result_front r s x : good_rule r -> to_result r s = Ok x -> rr_matches x <> None -> is_prefix (rr_content x) s -> first_index x = Some 0.
Proof.
  intros G E N P. destruct (to_result_cases r s x G E) as [N'|[(c & k & Ec & Nc & Fo & Ct & Fk & _)|(ps & kd & ms & rest & Ec & He & Nm & Ha & Hs & Hf & Ht & Nt & Fk)]].
  - contradiction.
  - rewrite Ct in P. destruct Fo as (_ & _ & Mn). destruct k as [|k]; [exact Fk|]. exfalso. apply (Mn 0); [lia|exact P].
  - exact Fk.
Qed.

(* the texts found by the loop, each evaluated on what the earlier ones' lengths leave *)
Inductive rule_run (r : rule) : bytes -> list rresult -> Prop :=
| rrun_nil s : rule_run r s []
| rrun_cons s x l : to_result r s = Ok x -> rr_matches x <> None -> rule_run r (skipn (length (rr_content x)) s) l -> rule_run r s (x :: l).
Lemma rule_loop_run r pmax local sl : good_rule r -> forall fuel acc s st l st', rule_loop fuel r pmax local sl acc s st = (Ok l, st') ->
  exists l', l = acc ++ l' /\ rule_run r s l'.
Proof.
  intros G. induction fuel as [|n IH]; intros acc s st l st' H; [discriminate|]. cbn [rule_loop] in H.
  destruct (to_result r s) as [x| | |] eqn:E; try discriminate.
  - destruct (rr_matches x) as [ms|] eqn:Em.
    2:{ mstep. subst. exists []. rewrite app_nil_r. split; [reflexivity|constructor]. }
    assert (Nm : rr_matches x <> None) by congruence.
    destruct (first_index x) as [i|]; [|discriminate].
    assert (One : forall (a b : lst), (Ok (acc ++ [x]), a) = (Ok l, b) -> exists l', l = acc ++ l' /\ rule_run r s l').
    { intros ? ? Hs. inversion Hs. exists [x]. split; [reflexivity|]. apply rrun_cons; [exact E|exact Nm|constructor]. }
    destruct ((0 <? i) && negb local); [eapply One; exact H|].
    destruct (sl <=? length (rr_content x)); [eapply One; exact H|].
    destruct (length s <? length (rr_content x)); [discriminate|].
    match type of H with (if ?b then _ else _) = _ => destruct b end; [eapply One; exact H|].
    apply IH in H. destruct H as (l' & -> & Hr). exists (x :: l'). rewrite <- app_assoc. split; [reflexivity|]. apply rrun_cons; assumption.
  - mstep. subst. exists []. rewrite app_nil_r. split; [reflexivity|constructor].
Qed.
Lemma rule_run_times r s l : good_rule r -> rule_run r s l -> is_prefix (join [] (map rr_content l)) s ->
  rule_times r (length l) s (cut (join [] (map rr_content l)) s).
Proof.
  intros G H. induction H as [s|s x l E N H IH]; intros P; [constructor|].
  rewrite join_concat in *. cbn [map concat length] in *. apply prefix_cut_app in P. destruct P as [P1 P2].
  assert (F := to_result_front r s x G E N P1). destruct (to_result_takes r s x G E F) as (_ & _ & T).
  rewrite cut_cut by exact P1. apply rn_more with (s1 := cut (rr_content x) s); [exact T|].
  apply IH. exact P2.
Qed.

(* ---- soundness ---- *)
Section Sound.
Variable channels : nat -> list path.
Hypothesis Hch : forall p, among channels p -> good_path p.
Notation EL := (el_reads channels True).
Notation LINE := (line_reads channels True).
Notation SPACED := (spaced_reads channels True).
Notation CONT := (cont_reads channels True).
Notation TIMES := (el_times channels True).

Definition gives_up (c : pcontainer) (s : bytes) : Prop :=
  (s = [] /\ may_be_absent c) \/ (exists n sp k, c = PRec n sp k) \/ (exists ls, c = PLines ls).
Definition sound (f : pcontainer -> gmap element -> bytes -> bool -> bool -> M (option block)) : Prop :=
  forall c d s ch nx st o st', good_cont c -> good_deps d -> f c d s ch nx st = (Ok o, st') ->
  match o with
  | None => gives_up c s
  | Some b => b_valid b = true -> is_prefix (b_disc b) s -> SPACED d ch nx c s (cut (b_disc b) s)
  end.

Section Step.
Variable f : pcontainer -> gmap element -> bytes -> bool -> bool -> M (option block).
Hypothesis Hf : sound f.

Definition good_line (l : line) : Prop := forall c, In (ICont c) l -> good_cont c.
Lemma line_loop_sound l : forall d s ch nx acc st bl st', good_line l -> good_deps d ->
  line_loop f l d s ch nx acc st = (Ok (Some bl), st') -> forallb b_valid bl = true ->
  exists bl', bl = acc ++ bl' /\ is_prefix (concat (map b_disc bl')) s /\ LINE d ch nx l s (cut (concat (map b_disc bl')) s).
Proof.
  induction l as [|[|c] l IH]; intros d s ch nx acc st bl st' Gl Gd H V; cbn [line_loop] in H.
  - mstep. match goal with H : Some _ = Some _ |- _ => inversion H; subst end. exists []. rewrite app_nil_r. split; [reflexivity|]. split; [apply prefix_nil|]. constructor.
  - apply IH in H; [|intros c Hc; apply Gl; right; exact Hc|exact Gd|exact V]. destruct H as (bl' & -> & P & R). exists bl'. split; [reflexivity|]. split; [exact P|]. apply lr_switch. exact R.
  - apply mbind_ok in H. destruct H as (o & s1 & E & H). assert (S := Hf c d s ch nx st o s1 (Gl c (or_introl eq_refl)) Gd E).
    destruct o as [b|].
    + destruct (b_valid b) eqn:Vb; cbn [negb] in H.
      * destruct (has_prefix (b_disc b) s) eqn:Hp; [|mstep; discriminate]. apply has_prefix_is_prefix in Hp.
        apply IH in H; [|intros c' Hc; apply Gl; right; exact Hc|exact Gd|exact V]. destruct H as (bl' & -> & P & R).
        exists (b :: bl'). rewrite <- app_assoc. split; [reflexivity|]. cbn [map concat]. split; [apply prefix_cut_app; split; assumption|].
        rewrite cut_cut by exact Hp. apply lr_cont with (s1 := cut (b_disc b) s); [apply S; [exact eq_refl|exact Hp]|].
        replace (ch && nx) with (if nx then ch else false) by (destruct ch, nx; reflexivity). exact R.
      * mstep. match goal with H : Some _ = Some _ |- _ => inversion H; subst end. cbn in V. rewrite Vb in V. discriminate.
    + mstep. match goal with H : Some _ = Some _ |- _ => inversion H; subst end. exists []. rewrite app_nil_r. split; [reflexivity|]. split; [apply prefix_nil|]. apply lr_stop; [exact I|exact S].
Qed.
Lemma line_sound l d s ch st bl st' : good_line l -> good_deps d -> line_to_matches f l d s ch st = (Ok (Some bl), st') -> forallb b_valid bl = true ->
  is_prefix (concat (map b_disc bl)) s /\ LINE d ch ch l s (cut (concat (map b_disc bl)) s).
Proof.
  intros Gl Gd H V. unfold line_to_matches in H. apply mbind_ok in H. destruct H as (o & s1 & E & H). mstep. destruct o as [[|b o]|]; try discriminate.
  match goal with H : Some _ = Some _ |- _ => inversion H; subst end. apply line_loop_sound in E; [|assumption..]. destruct E as (bl' & -> & P & R). split; [exact P|exact R].
Qed.
Definition best_inv (ls : list line) d s ch (v : option (nat * list block)) : Prop :=
  match v with
  | Some (i, bl) => forallb b_valid bl = true /\ concat (map b_disc bl) <> [] /\ is_prefix (concat (map b_disc bl)) s /\
      exists l, nth_error ls i = Some l /\ LINE d ch ch l s (cut (concat (map b_disc bl)) s)
  | None => True
  end.
Lemma lm_disc_valid i bl : lm_valid (LM i bl) = true -> lm_disc (LM i bl) = concat (map b_disc bl).
Proof. intros V. cbn [lm_disc]. cbn [lm_valid] in V. rewrite V. apply join_concat. Qed.
Lemma best_loop_sound all d s ch : (forall l, In l all -> good_line l) -> good_deps d -> forall ls i big v inv st v' inv' st', (forall k, nth_error all (i + k) = nth_error ls k) -> best_inv all d s ch v ->
  match inv with Some (i, bl) => forallb b_valid bl = false | None => True end ->
  best_loop f ls i d s ch big v inv st = (Ok (v', inv'), st') -> best_inv all d s ch v' /\ match inv' with Some (i, bl) => forallb b_valid bl = false | None => True end.
Proof.
  intros Gl Gd. induction ls as [|l ls IH]; intros i big v inv st v' inv' st' Hn Hv Hi H; cbn [best_loop] in H.
  - mstep. match goal with H : (_, _) = (_, _) |- _ => inversion H; subst end. auto.
  - apply mbind_ok in H. destruct H as (o & s1 & E & H).
    assert (Hn' : forall k, nth_error all (S i + k) = nth_error ls k) by (intros k; specialize (Hn (S k)); rewrite Nat.add_succ_r in Hn; exact Hn).
    assert (Hl : nth_error all i = Some l) by (specialize (Hn 0); rewrite Nat.add_0_r in Hn; exact Hn).
    destruct o as [bl|]; [|apply IH in H; assumption].
    destruct (lm_valid (LM i bl)) eqn:V; cbn [negb] in H.
    + destruct (big <? length (lm_disc (LM i bl))) eqn:L; [|apply IH in H; assumption].
      apply IH in H; [exact H|exact Hn'| |exact Hi]. cbn [best_inv].
      destruct (line_sound l d s ch st bl s1 (Gl l (nth_error_In _ _ Hl)) Gd E V) as [P R].
      split; [exact V|]. split; [|split; [exact P|exists l; split; assumption]]. apply Nat.ltb_lt in L. rewrite lm_disc_valid in L by exact V. intros Z. rewrite Z in L. cbn in L. lia.
    + apply IH in H; [exact H|exact Hn'|exact Hv|]. destruct (0 <? length bl); [exact V|exact Hi].
Qed.
Lemma best_line_sound ls d s ch st m st' : (forall l, In l ls -> good_line l) -> good_deps d -> best_line f ls d s ch st = (Ok (Some m), st') -> lm_valid m = true ->
  lm_disc m <> [] /\ is_prefix (lm_disc m) s /\ exists l, nth_error ls (lm_index m) = Some l /\ LINE d ch ch l s (cut (lm_disc m) s).
Proof.
  intros Gl Gd H V. unfold best_line in H. apply mbind_ok in H. destruct H as ([v inv] & s1 & E & H). mstep.
  apply (best_loop_sound ls d s ch Gl Gd) in E; [|reflexivity|exact I|exact I]. destruct E as [Hv Hi].
  destruct v as [[i bl]|].
  - match goal with H : Some _ = Some _ |- _ => inversion H; subst end. destruct Hv as (Vb & N & P & l & Hl & R). rewrite lm_disc_valid by exact Vb. split; [exact N|]. split; [exact P|]. exists l. split; assumption.
  - destruct inv as [[i bl]|]; [|discriminate]. match goal with H : Some _ = Some _ |- _ => inversion H; subst end. cbn [lm_valid] in V. rewrite V in Hi. discriminate.
Qed.
Lemma invalid_disc m : lm_valid m = false -> lm_disc m = [].
Proof. destruct m as [i bl]. cbn. intros ->. reflexivity. Qed.
Lemma good_must e : good_el e -> forall l, In l (el_must e) -> good_line l.
Proof. intros G l Hl c Hc. apply G. left. exists l. auto. Qed.
Lemma element_sound e d s ch st t st' : good_el e -> good_deps d -> element_to_token f e d s ch st = (Ok t, st') -> tok_valid t = true ->
  exists m n, tok_content t = Some (m, n) /\ tok_disc t = lm_disc m /\ is_prefix (lm_disc m) s /\ EL d ch e s (cut (lm_disc m) s) /\ (el_not e = None -> lm_disc m <> []).
Proof.
  intros Ge Gd H V. unfold element_to_token in H. apply mbind_ok in H. destruct H as (c & s1 & E & H). mstep. destruct (el_name e) eqn:En; [discriminate|].
  match goal with H : Ok _ = Ok _ |- _ => inversion H; subst end. clear H. cbn [tok_valid] in V. unfold element_to_content in E. apply mbind_ok in E. destruct E as (mu & s2 & Em & E).
  destruct mu as [m|]; [|mstep; subst; discriminate].
  assert (Sd : lm_valid m = true -> lm_disc m <> [] /\ is_prefix (lm_disc m) s /\ EL d ch e s (cut (lm_disc m) s)).
  { intros Vm. destruct (best_line_sound (el_must e) d s ch st m s2 (good_must e Ge) Gd Em Vm) as (N & P & l & Hl & R). split; [exact N|]. split; [exact P|]. apply (er_line _ _ d ch e l); [apply (nth_error_In _ _ Hl)|exact R]. }
  assert (Good : lm_valid m = true -> forall n, lm_disc m = tok_disc (Tok e d (Some (m, n))) -> exists m0 n0, Some (m, n) = Some (m0, n0) /\ tok_disc (Tok e d (Some (m, n))) = lm_disc m0 /\ is_prefix (lm_disc m0) s /\ EL d ch e s (cut (lm_disc m0) s) /\ (el_not e = None -> lm_disc m0 <> [])).
  { intros Vm n Ed. destruct (Sd Vm) as (N & P & R). exists m, n. repeat split; try assumption; try reflexivity; auto. }
  destruct (el_not e) as [ls|] eqn:Enot.
  - apply mbind_ok in E. destruct E as (n & s3 & En' & E). mstep. subst. cbn [tok_content].
    destruct n as [n|]; [|apply Good; [exact V|reflexivity]].
    destruct (lm_valid n) eqn:Vn; [discriminate|]. destruct (lm_valid m) eqn:Vm; [apply Good; [exact eq_refl|cbn [tok_disc]; rewrite Vn; reflexivity]|].
    exists m, (Some n). cbn [tok_disc]. rewrite Vn. rewrite (invalid_disc m Vm). split; [reflexivity|]. split; [reflexivity|]. split; [apply prefix_nil|]. split; [|discriminate]. rewrite cut_nil. apply (er_nothing _ _ d ch e s ls I Enot).
  - mstep. subst. cbn [tok_content]. apply Good; [exact V|reflexivity].
Qed.
Lemma channels_good k : Forall good_path (channels k).
Proof. apply Forall_forall. intros p Hp. apply Hch. exists k. exact Hp. Qed.
Lemma channels_sound s : forall chs st m st', Forall good_path chs -> find_in_channels f chs s st = (Ok (Some m), st') ->
  is_prefix (lm_disc m) s /\ exists p, In p chs /\ EL (pa_deps p) false (pa_element p) s (cut (lm_disc m) s) /\ (el_not (pa_element p) = None -> lm_disc m <> []).
Proof.
  induction chs as [|p chs IH]; intros st m st' G H; cbn [find_in_channels] in H; [mstep; discriminate|]. inversion G as [|? ? Gp G']; subst.
  apply mbind_ok in H. destruct H as (t & s1 & E & H). destruct (tok_valid t) eqn:V.
  - destruct (element_sound _ _ _ _ _ _ _ (proj1 Gp) (proj2 Gp) E V) as (m' & n & Ec & _ & P & R & N). rewrite Ec in H. mstep. match goal with H : Ok _ = Ok _ |- _ => inversion H; subst end.
    split; [exact P|]. exists p. split; [left; reflexivity|]. split; [exact R|exact N].
  - destruct (IH _ _ _ G' H) as (P & q & Hq & R & N). split; [exact P|]. exists q. split; [right; exact Hq|]. split; [exact R|exact N].
Qed.
Lemma token_loop_sound e d pmax ch : good_el e -> good_deps d -> forall fuel acc s st l st', token_loop f fuel e d pmax ch acc s st = (Ok l, st') ->
  exists l', l = acc ++ l' /\ is_prefix (concat (map tok_disc l')) s /\ TIMES d ch e (length l') s (cut (concat (map tok_disc l')) s) /\ Forall (fun t => tok_valid t = true) l'.
Proof.
  intros Ge Gd. induction fuel as [|n IH]; intros acc s st l st' H; [discriminate|]. cbn [token_loop] in H.
  apply mbind_ok in H. destruct H as (t & s1 & E & H). destruct (tok_valid t) eqn:V; cbn [negb] in H.
  - destruct (element_sound _ _ _ _ _ _ _ Ge Gd E V) as (m & no & Ec & Ed & P & R & N). rewrite Ec in H. rewrite (proj2 (has_prefix_is_prefix _ _) P) in H.
    match type of H with (if ?b then _ else _) _ = _ => destruct b end.
    + mstep. subst. exists [t]. cbn [map concat length]. rewrite app_nil_r, Ed. split; [reflexivity|]. split; [exact P|]. split; [|constructor; [exact V|constructor]].
      apply et_more with (s1 := cut (lm_disc m) s); [exact R|constructor].
    + apply IH in H. destruct H as (l' & -> & P' & R' & F'). exists (t :: l'). rewrite <- app_assoc. split; [reflexivity|]. cbn [map concat length]. rewrite Ed.
      split; [apply prefix_cut_app; split; assumption|]. split; [|constructor; assumption]. rewrite cut_cut by exact P. apply et_more with (s1 := cut (lm_disc m) s); assumption.
  - mstep. subst. exists []. rewrite app_nil_r. split; [reflexivity|]. split; [apply prefix_nil|]. split; [constructor|constructor].
Qed.
Lemma token_match_sound fuel e sp k d s ch st t st' : good_el e -> good_deps d -> token_to_match f fuel e sp k d s ch st = (Ok t, st') ->
  tm_el t = e /\ tm_card t = k /\ tm_specs t = sp /\ Forall (fun t => tok_valid t = true) (tm_toks t) /\ is_prefix (tm_disc t) s /\ TIMES d ch e (length (tm_toks t)) s (cut (tm_disc t) s).
Proof.
  intros Ge Gd H. unfold token_to_match in H. destruct (delimiter k) as [mn mx]. apply mbind_ok in H. destruct H as (l & s1 & E & H). mstep.
  apply (token_loop_sound e d mx ch Ge Gd) in E. destruct E as (l' & -> & P & R & F).
  destruct s as [|b s]; [discriminate|]. destruct (forallb _ sp); [|discriminate]. match goal with H : Ok _ = Ok _ |- _ => inversion H; subst end.
  cbn [tm_el tm_card tm_specs tm_toks tm_disc]. rewrite join_concat. cbn [app] in *. repeat split; assumption.
Qed.
Lemma tm_valid_card t : tm_valid t = true -> is_valid (tm_card t) (N.of_nat (length (tm_toks t))) = true.
Proof. destruct t as [e sp i k l]. cbn. intros H. apply andb_prop in H. destruct H as [_ H]. apply andb_prop in H. tauto. Qed.
Lemma container_sound fuel c d s ch st o st' : good_cont c -> good_deps d -> s <> [] -> container_to_match f fuel c d s ch st = (Ok o, st') ->
  match o with
  | None => gives_up c s
  | Some m => m_valid m = true -> is_prefix (m_disc m) s -> CONT d ch c s (cut (m_disc m) s)
  end.
Proof.
  intros Gc Gd Ns H. destruct c as [e sp k|r k|name sp k|ls]; cbn [container_to_match] in H.
  - apply mbind_ok in H. destruct H as (t & s1 & E & H). mstep. subst o.
    assert (Ge : good_el e) by (intros c Hc r Hr; apply Gc; apply (ri_token e sp k c r Hc Hr)).
    destruct (token_match_sound _ _ _ _ _ _ _ _ _ _ Ge Gd E) as (_ & Ek & _ & _ & P & R). unfold token_or_skip. rewrite Ek.
    destruct (is_valid k 0 && negb (tm_valid t)) eqn:Sk; cbn [m_valid m_disc]; intros V _.
    + apply andb_prop in Sk. rewrite cut_nil. apply cr_absent. exists k. split; [reflexivity|tauto].
    + apply cr_token with (n := length (tm_toks t)); [exact R|]. rewrite <- Ek. apply tm_valid_card. exact V.
  - apply mbind_ok in H. destruct H as (x & s1 & E & H). mstep. subst o. unfold rule_to_match in E. destruct (delimiter k) as [mn mx] eqn:Ed. apply mbind_ok in E. destruct E as (l & s2 & E & E').
    apply rule_loop_run in E; [|apply Gc; constructor]. destruct E as (l' & -> & Rn). inversion E'; subst x. clear E'. unfold rule_or_skip. cbn [rm_card].
    match goal with |- context [if ?b then _ else _] => destruct b eqn:Sk end; cbn [m_valid m_disc]; intros V P.
    + apply andb_prop in Sk. rewrite cut_nil. apply cr_absent. exists k. split; [reflexivity|tauto].
    + unfold rm_disc in *. cbn [rm_results app] in *. apply cr_rule with (n := length l').
      * apply rule_run_times; [apply Gc; constructor|exact Rn|exact P].
      * unfold rm_valid, rm_card_valid, rm_amount in V. cbn [rm_card rm_results] in V. apply andb_prop in V. tauto.
  - match type of H with (if ?b then _ else _) = _ => destruct b eqn:G end.
    + inversion H; subst. right. left. exists name, sp, k. reflexivity.
    + apply mbind_ok in H. destruct H as (e & s1 & E & H). apply lift_ok in E. destruct E as [E Es1]; subst s1. apply mbind_ok in H. destruct H as (t & s2 & Et & H). mstep. subst o.
      unfold dep_fetch in E. destruct (mlookup d name) as [e'|] eqn:El; [|discriminate]. inversion E; subst e'. assert (Ge := Gd name e El).
      destruct (token_match_sound _ _ _ _ _ _ _ _ _ _ Ge Gd Et) as (_ & Ek & _ & _ & P & R). unfold token_or_skip. rewrite Ek.
      destruct (is_valid k 0 && negb (tm_valid t)) eqn:Sk; cbn [m_valid m_disc]; intros V _.
      * apply andb_prop in Sk. rewrite cut_nil. apply cr_absent. exists k. split; [reflexivity|tauto].
      * apply cr_rec with (e := e) (n := length (tm_toks t)); [exact El|exact R|]. rewrite <- Ek. apply tm_valid_card. exact V.
  - apply mbind_ok in H. destruct H as (m & s1 & E & H). mstep. subst o. destruct m as [m|]; [|right; right; eexists; reflexivity].
    cbn [m_valid m_disc]. intros _ _. rewrite cut_nil. apply cr_lines.
Qed.
Lemma cbm_step_sound n : sound (cbm_step channels f n).
Proof.
  intros c d s ch nx st o st' Gc Gd H. unfold cbm_step in H. destruct s as [|b s].
  - mstep. subst st'. destruct (cont_card c) as [k| | |] eqn:Ek; try discriminate. cbn [bind] in *. destruct (is_valid k 0) eqn:V.
    + match goal with H : Ok _ = Ok _ |- _ => inversion H; subst end. left. split; [reflexivity|]. exists k. split; [|exact V]. destruct c; inversion Ek; reflexivity.
    + destruct (build_next n c d); try discriminate. cbn [bind] in *. match goal with H : Ok _ = Ok _ |- _ => inversion H; subst end. discriminate.
  - apply mbind_ok in H. destruct H as (o1 & s1 & E & H).
    assert (Chan : forall bl, o1 = Some bl -> b_valid bl = true -> is_prefix (b_disc bl) (b :: s) -> SPACED d ch nx c (b :: s) (cut (b_disc bl) (b :: s))).
    { intros bl -> V P. destruct ch; [|mstep; discriminate]. unfold find_channel_block in E. apply mbind_ok in E. destruct E as (m & s2 & Em & E). destruct m as [m|]; [|mstep; discriminate].
      unfold range_channels in Em. destruct (channels_sound (b :: s) _ _ _ _ (channels_good _) Em) as (Pm & p & Hp & R & _). rewrite (proj2 (has_prefix_is_prefix _ _) Pm) in E.
      apply mbind_ok in E. destruct E as (x & s3 & Ex & E). mstep. destruct x as [x|]; [|discriminate]. match goal with H : Some _ = Some _ |- _ => inversion H; subst end.
      cbn [b_valid b_disc] in V, P |- *. apply prefix_cut_app in P. rewrite cut_cut by exact Pm. apply sr_channel with (p := p) (s1 := cut (lm_disc m) (b :: s)); [eexists; exact Hp|exact R|].
      apply (Hf c d _ nx nx _ _ _ Gc Gd Ex V). tauto. }
    destruct o1 as [bl|].
    + mstep. subst o. intros V P. apply Chan; [reflexivity|exact V|exact P].
    + apply mbind_ok in H. destruct H as (m & s2 & Em & H). mstep. subst o. apply container_sound in Em; [|assumption|assumption|discriminate].
      destruct m as [m|]; [|exact Em]. cbn [b_valid b_disc app]. intros V P. apply sr_here. apply Em; assumption.
Qed.
End Step.
Lemma cbm_sound n : sound (cbm channels n).
Proof.
  induction n as [|n IH].
  - intros c d s ch nx st o st' _ _ H. discriminate.
  - intros c d s ch nx st o st' Gc Gd H. cbn [cbm] in H. exact (cbm_step_sound (cbm channels n) IH n c d s ch nx st o st' Gc Gd H).
Qed.
Lemma to_token_sound root fuel script st t : good_path root -> fst (to_token channels fuel root script st) = Ok t -> tok_valid t = true ->
  exists rest, script = tok_disc t ++ rest /\ EL (pa_deps root) true (pa_element root) script rest /\ (el_not (pa_element root) = None -> tok_disc t <> []).
Proof.
  intros [Ge Gd] H V. unfold to_token in H. destruct (element_to_token _ _ _ _ _ _) as [r st'] eqn:E. cbn [fst] in H. subst r.
  destruct (element_sound (cbm channels fuel) (cbm_sound fuel) _ _ _ _ _ _ _ Ge Gd E V) as (m & n & Ec & Ed & P & R & N).
  exists (cut (lm_disc m) script). rewrite Ed. split; [apply prefix_cut; exact P|]. split; [exact R|exact N].
Qed.
End Sound.
