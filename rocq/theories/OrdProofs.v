From Coq Require Import Strings.String Strings.Byte Sorting.Permutation Lia.
From Verif Require Import Go GoLemmas DomainModel DomainSpec CardModel CardSpec CardProofs PatModel PatSpec PatProofs RuleModel RuleSpec RuleProofs PathModel PathSpec LexModel LexSpec LexProofs LexProofs2 LexProofs3 LexProofs4 OrdSpec.

(* ---- a rule without permission answers the same in every state ---- *)
Lemma state_pre s : ls_pre s = false -> {| ls_rec := ls_rec s; ls_pre := false; ls_tick := ls_tick s |} = s.
Proof. destruct s as [a b c]. cbn. intros ->. reflexivity. Qed.
Definition calm (Q : Prop) (st : lst) : Prop := ls_pre st = false \/ Q.
Lemma calm_keeps {A} Q (m : M A) s : keeps m -> calm Q s -> calm Q (snd (m s)).
Proof. intros H [P|P]; [left; apply H, P|right; exact P]. Qed.
Lemma rule_loop_plain r pmax sl (Q : Prop) : good_rule r -> (Q -> of_patterns r) -> forall fuel acc s, length s < fuel ->
  exists l, forall st, calm Q st -> rule_loop fuel r pmax false sl acc s st = (Ok l, st).
Proof.
  intros G Hq. induction fuel as [|n IH]; intros acc s L; [lia|]. cbn [rule_loop]. destruct (to_result_answers r s G) as [x E]. rewrite E.
  destruct (rr_matches x) as [ms|] eqn:Em; [|exists acc; reflexivity].
  destruct (to_result_index r s x G E ltac:(congruence)) as (i & Fi & Nc & Lc). rewrite Fi. cbn [negb]. rewrite andb_true_r.
  destruct (0 <? i) eqn:Ei.
  { exists (acc ++ [x]). intros st [P|P]; [rewrite (state_pre st P); reflexivity|]. exfalso. destruct (Hq P) as (ps & k & Ec). apply Nat.ltb_lt in Ei.
    destruct (to_result_cases r s x G E) as [N'|[(c & j & Ec' & _)|(ps' & kd & ms' & rest & _ & _ & _ & _ & _ & _ & _ & _ & Fk)]]; [congruence|congruence|]. rewrite Fi in Fk. inversion Fk. lia. }
  destruct (sl <=? length (rr_content x)); [exists (acc ++ [x]); reflexivity|].
  rewrite (proj2 (Nat.ltb_ge (length s) (length (rr_content x))) Lc).
  match goal with |- context [if ?b then (Ok _, _) else _] => destruct b end; [exists (acc ++ [x]); reflexivity|].
  apply IH. rewrite skipn_length. assert (length (rr_content x) <> 0) by (destruct (rr_content x); [congruence|discriminate]). lia.
Qed.
Lemma rule_match_plain r k s (Q : Prop) : good_rule r -> (Q -> of_patterns r) -> exists x, rm_card x = k /\ forall st, calm Q st -> rule_to_match r k s false st = (Ok x, st).
Proof.
  intros G Hq. unfold rule_to_match. destruct (delimiter k) as [mn mx]. destruct (rule_loop_plain r mx (length s) Q G Hq (S (length s)) [] s ltac:(lia)) as [l H].
  exists {| rm_rule := r; rm_card := k; rm_results := l; rm_prefix := false |}. split; [reflexivity|]. intros st P. unfold mbind. rewrite andb_false_r, (H st P), andb_false_r. reflexivity.
Qed.
Lemma takes_begins r s rest : rule_takes r s rest -> begins r s.
Proof.
  intros H. unfold begins. destruct H as [c rest Ec Nc|ps k s ms rest Ec He Nm _ _]; rewrite Ec.
  - split; [exact Nc|exists rest; reflexivity].
  - inversion He as [|t t' r0 rs rest0 Hf]; subst; [congruence|]. destruct Hf as (bf & p & af & Eq & Hm). exists p. split; [rewrite Eq; apply in_elt|]. destruct Hm as [(xs & rest1 & left & Hc & Nx & _) _]. inversion Hc as [| |c cs t x t1 xs0 rest2 left0 Hr Hc' E1]; subst; try congruence.
    unfold matches_here. eexists _, _, _, _. split; [symmetry; eassumption|exact Hr].
Qed.

Section Simple.
Variable Q : Prop.
Variables (f : pcontainer -> gmap element -> bytes -> bool -> bool -> M (option block)).
(* what the channel answers, in every state without permission *)
Definition outcome (p : path) (s : bytes) (o : tok) : Prop := forall st, calm Q st -> element_to_token f (pa_element p) (pa_deps p) s false st = (Ok o, st).
Lemma outcome_one p s o o' : outcome p s o -> outcome p s o' -> o = o'.
Proof. intros H H'. specialize (H (lst_init false) (or_introl eq_refl)). rewrite (H' (lst_init false) (or_introl eq_refl)) in H. congruence. Qed.
End Simple.
Section Alone.
Variable Q : Prop.
Notation outcome := (outcome Q).
Lemma simple_outcome channels n p r b s : simple_channel p r -> (Q -> of_patterns r) -> exists o, outcome (cbm channels (S n)) p (b :: s) o /\ (tok_valid o = true -> begins r (b :: s) /\ exists m, tok_content o = Some (m, None)).
Proof.
  intros (G & Nm & Nn & k & Em & K0) Hq. destruct (rule_match_plain r k (b :: s) Q G Hq) as (x & Ek & Hx).
  assert (Rs : rule_or_skip x = MRule x) by (unfold rule_or_skip; rewrite Ek, K0; reflexivity).
  exists (Tok (pa_element p) (pa_deps p) (if rm_valid x then (if has_prefix (rm_disc x) (b :: s) then (if 0 <? length (rm_disc x) then Some (LM 0 [BCont (MRule x) None], None) else None) else None) else Some (LM 0 [BCont (MRule x) None], None))).
  split.
  - intros st P. unfold element_to_token, element_to_content, best_line. rewrite Em, Nn. cbn [best_loop]. unfold line_to_matches. cbn [line_loop]. unfold mbind. cbn [cbm cbm_step ret container_to_match]. unfold mbind. cbn [ret]. rewrite (Hx st P). cbn [ret]. rewrite Rs.
    cbn [b_valid m_valid b_disc m_disc app]. destruct (rm_valid x) eqn:V; cbn [negb].
    + destruct (has_prefix (rm_disc x) (b :: s)); cbn [ret].
      * cbn [lm_valid forallb b_valid m_valid]. rewrite V. cbn [andb negb]. cbn [lm_disc forallb b_valid m_valid map b_disc m_disc join app]. rewrite V. cbn [andb].
        destruct (0 <? length (rm_disc x)); cbn [lift ret]; destruct (el_name (pa_element p)); try congruence; reflexivity.
      * cbn [lift ret]. destruct (el_name (pa_element p)); [congruence|reflexivity].
    + cbn [ret lm_valid forallb b_valid m_valid]. rewrite V. cbn [andb negb length Nat.ltb Nat.leb]. cbn [lift ret]. destruct (el_name (pa_element p)); [congruence|reflexivity].
  - destruct (rm_valid x) eqn:V.
    + destruct (has_prefix (rm_disc x) (b :: s)); [|discriminate]. destruct (0 <? length (rm_disc x)) eqn:L; [|discriminate]. intros _. split; [|eexists; reflexivity].
      specialize (Hx (lst_init false) (or_introl eq_refl)). destruct (rm_results x) as [|y l] eqn:El; [unfold rm_disc in L; rewrite El in L; discriminate|].
      assert (F0 := proj2 (rule_match_facts _ _ _ _ _ _ _ Hx) V y l El).
      unfold rule_to_match in Hx. destruct (delimiter k). apply mbind_ok in Hx. destruct Hx as (l0 & s1 & E & Hx). inversion Hx; subst x. cbn [rm_results] in El. subst l0.
      apply (rule_loop_run _ _ _ _ G) in E. destruct E as (l' & E & Hr). cbn [app] in E. subst l'. inversion Hr as [|s2 x2 l2 Et Nt Hr']; subst.
      destruct (to_result_takes r _ y G Et F0) as (_ & _ & T). apply (takes_begins _ _ _ T).
    + cbn [tok_valid lm_valid forallb b_valid m_valid]. rewrite V. discriminate.
Qed.
Lemma simple_no_fuel channels p r s st : simple_channel p r -> element_to_token (cbm channels 0) (pa_element p) (pa_deps p) s false st = (NoFuel, st).
Proof. intros (G & Nm & Nn & k & Em & K0). unfold element_to_token, element_to_content, best_line. rewrite Em. cbn [best_loop]. unfold line_to_matches. cbn [line_loop]. reflexivity. Qed.

Lemma find_simple channels n chs b s : Forall (fun p => exists r, simple_channel p r /\ (Q -> of_patterns r)) chs ->
  exists res, (forall st, calm Q st -> find_in_channels (cbm channels (S n)) chs (b :: s) st = (Ok res, st)) /\
    match res with
    | Some m => exists p r o, In p chs /\ simple_channel p r /\ begins r (b :: s) /\ outcome (cbm channels (S n)) p (b :: s) o /\ tok_valid o = true /\ tok_content o = Some (m, None)
    | None => forall p o, In p chs -> outcome (cbm channels (S n)) p (b :: s) o -> tok_valid o = false
    end.
Proof.
  induction chs as [|p chs IH]; intros F.
  - exists None. split; [reflexivity|]. intros p o [].
  - inversion F as [|? ? (r & Hp & Hq) F']; subst. destruct (IH F') as (res & Hf & Hm). destruct (simple_outcome channels n p r b s Hp Hq) as (o & Ho & Hv). destruct (tok_valid o) eqn:V.
    + destruct (Hv eq_refl) as (Hb & m & Ec). exists (Some m). split.
      * intros st P. cbn [find_in_channels]. unfold mbind. rewrite (Ho st P), V, Ec. reflexivity.
      * exists p, r, o. split; [left; reflexivity|]. auto.
    + exists res. split.
      * intros st P. cbn [find_in_channels]. unfold mbind. rewrite (Ho st P), V. apply Hf. exact P.
      * destruct res as [m|].
        -- destruct Hm as (q & r' & o' & Hi & Hm). exists q, r', o'. split; [right; exact Hi|exact Hm].
        -- intros q o' [->|Hi] Ho'; [rewrite (outcome_one _ _ _ _ _ _ Ho' Ho); exact V|apply (Hm q o' Hi Ho')].
Qed.
End Alone.
Section Order.
Variable Q : Prop.
Notation outcome := (outcome Q).
Variables channels channels' : nat -> list path.
Hypothesis Hs : reordered channels channels'.
Hypothesis Hc : forall p, among channels p -> exists r, simple_channel p r /\ (Q -> of_patterns r).
Hypothesis Hn : never_together (among channels).
Definition psame {A} (m m' : M A) : Prop := forall s, calm Q s -> m s = m' s /\ calm Q (snd (m s)).
Lemma ps_same {A} (m : M A) : keeps m -> psame m m.
Proof. intros H s P. split; [reflexivity|apply calm_keeps; assumption]. Qed.
Lemma ps_bind {A B} (m m' : M A) (f f' : A -> M B) : psame m m' -> (forall a, psame (f a) (f' a)) -> psame (mbind m f) (mbind m' f').
Proof. intros Hm Hf s P. unfold mbind. destruct (Hm s P) as [E K]. rewrite <- E. destruct (m s) as [[a| | |] s1]; cbn [snd] in *; try (split; [reflexivity|exact K]). apply Hf. exact K. Qed.
Ltac pk := apply ps_same; first [apply keeps_ret|apply keeps_lift].
Definition fsame (f g : pcontainer -> gmap element -> bytes -> bool -> bool -> M (option block)) : Prop := forall c d s ch nx, psame (f c d s ch nx) (g c d s ch nx).
Section Level.
Variables f g : pcontainer -> gmap element -> bytes -> bool -> bool -> M (option block).
Hypothesis E : fsame f g.
Lemma ps_line : forall l d s ch nx acc, psame (line_loop f l d s ch nx acc) (line_loop g l d s ch nx acc).
Proof. induction l as [|[|c] l IH]; intros d s ch nx acc; cbn [line_loop]; [pk|apply IH|]. apply ps_bind; [apply E|]. intros [b|]; [|pk]. destruct (negb _); [pk|]. destruct (has_prefix _ _); [apply IH|pk]. Qed.
Lemma ps_best ls d s ch : psame (best_line f ls d s ch) (best_line g ls d s ch).
Proof.
  apply ps_bind; [|intros a; pk]. generalize 0 at 1 3 as i. generalize 0 as big. generalize (@None (nat * list block)) at 1 3 as v. generalize (@None (nat * list block)) as iv.
  induction ls as [|l ls IH]; intros iv v big i; cbn [best_loop]; [pk|]. apply ps_bind; [apply ps_bind; [apply ps_line|intros a; pk]|]. intros [bl|]; [|apply IH]. destruct (negb _); [apply IH|]. destruct (_ <? _); apply IH.
Qed.
Lemma ps_element e d s ch : psame (element_to_token f e d s ch) (element_to_token g e d s ch).
Proof. apply ps_bind; [|intros a; pk]. apply ps_bind; [apply ps_best|]. intros [m|]; [|pk]. destruct (el_not e); [|pk]. apply ps_bind; [apply ps_best|intros a; pk]. Qed.
Lemma ps_tokens e d pmax ch : forall fuel acc s, psame (token_loop f fuel e d pmax ch acc s) (token_loop g fuel e d pmax ch acc s).
Proof.
  induction fuel as [|m IH]; intros acc s; cbn [token_loop]; [pk|]. apply ps_bind; [apply ps_element|]. intros t. destruct (negb _); [pk|]. destruct (tok_content t) as [[x y]|]; [|pk].
  destruct (has_prefix _ _); [|pk]. match goal with |- context [if ?b then _ else _] => destruct b end; [pk|apply IH].
Qed.
Lemma ps_match fuel e sp k d s ch : psame (token_to_match f fuel e sp k d s ch) (token_to_match g fuel e sp k d s ch).
Proof. unfold token_to_match. destruct (delimiter k). apply ps_bind; [apply ps_tokens|intros a; pk]. Qed.
Lemma ps_container n c d s ch : psame (container_to_match f n c d s ch) (container_to_match g n c d s ch).
Proof.
  destruct c as [e sp k|r k|nm sp k|ls]; cbn [container_to_match].
  - apply ps_bind; [apply ps_match|intros a; pk].
  - apply ps_same. apply keeps_bind; [|intros; apply keeps_ret]. intros st P. unfold rule_to_match. destruct (delimiter k).
    match goal with |- context [mbind ?m ?g st] => assert (KK : keeps (mbind m g)) end; [|apply KK; exact P]. apply keeps_bind; [apply rule_loop_keeps|]. intros l st2 P2. exact P2.
  - intros st P. match goal with |- context [if ?b then _ else _] => destruct b end; [split; [reflexivity|exact P]|].
    match goal with |- mbind ?m ?h ?st0 = mbind _ ?h' _ /\ _ => assert (KK : psame (mbind m h) (mbind m h')) end; [|apply KK; exact P]. apply ps_bind; [pk|]. intros e. apply ps_bind; [apply ps_match|intros a; pk].
  - apply ps_bind; [apply ps_best|intros a; pk].
Qed.
End Level.
Lemma all_simple k : Forall (fun p => exists r, simple_channel p r /\ (Q -> of_patterns r)) (channels k).
Proof. apply Forall_forall. intros p Hp. apply Hc. exists k. exact Hp. Qed.
Lemma all_simple' k : Forall (fun p => exists r, simple_channel p r /\ (Q -> of_patterns r)) (channels' k).
Proof. apply Forall_forall. intros p Hp. apply Hc. exists k. apply (Permutation_in p (Permutation_sym (Hs k k)) Hp). Qed.
Lemma ps_find n b s : fsame (cbm channels n) (cbm channels' n) ->
  psame (range_channels channels (fun chs => find_in_channels (cbm channels n) chs (b :: s))) (range_channels channels' (fun chs => find_in_channels (cbm channels' n) chs (b :: s))).
Proof.
  intros E st P. unfold range_channels. set (k := ls_tick st). set (st1 := {| ls_rec := ls_rec st; ls_pre := ls_pre st; ls_tick := S k |}).
  assert (P1 : calm Q st1) by exact P. assert (Pm := Hs k k). assert (F := all_simple k). assert (F' := all_simple' k). destruct n as [|n].
  - destruct (channels k) as [|p l] eqn:El.
    + apply Permutation_nil in Pm. rewrite Pm. split; [reflexivity|exact P].
    + destruct (channels' k) as [|p' l'] eqn:El'; [apply Permutation_sym, Permutation_nil in Pm; discriminate|]. inversion F as [|? ? (r & Hp & _) _]; subst. inversion F' as [|? ? (r' & Hp' & _) _]; subst.
      cbn [find_in_channels]. unfold mbind. rewrite (simple_no_fuel channels p r _ _ Hp), (simple_no_fuel channels' p' r' _ _ Hp'). split; [reflexivity|exact P].
  - destruct (find_simple Q channels n (channels k) b s F) as (res & H1 & H2). destruct (find_simple Q channels' n (channels' k) b s F') as (res' & H1' & H2'). rewrite (H1 _ P1), (H1' _ P1). split; [|exact P].
    assert (Tr : forall p o, outcome (cbm channels (S n)) p (b :: s) o <-> outcome (cbm channels' (S n)) p (b :: s) o).
    { intros p o. split; intros Ho s0 P0; specialize (Ho s0 P0); destruct (ps_element _ _ E (pa_element p) (pa_deps p) (b :: s) false s0 P0) as [Eq _]; congruence. }
    f_equal. f_equal. destruct res as [m|], res' as [m'|].
    + destruct H2 as (p & r & o & I1 & S1 & B1 & O1 & V1 & C1). destruct H2' as (p' & r' & o' & I2 & S2 & B2 & O2 & V2 & C2).
      assert (p = p') by (apply (Hn p p' r r' (b :: s)); auto; [exists k; exact I1|exists k; apply (Permutation_in p' (Permutation_sym Pm) I2)]). subst p'.
      apply Tr in O2. rewrite (outcome_one _ _ _ _ _ _ O1 O2) in C1. congruence.
    + destruct H2 as (p & r & o & I1 & S1 & B1 & O1 & V1 & C1). apply Tr in O1. rewrite (H2' p o (Permutation_in p Pm I1) O1) in V1. discriminate.
    + destruct H2' as (p & r & o & I1 & S1 & B1 & O1 & V1 & C1). apply Tr in O1. rewrite (H2 p o (Permutation_in p (Permutation_sym Pm) I1) O1) in V1. discriminate.
    + reflexivity.
Qed.
Lemma ps_cbm n : fsame (cbm channels n) (cbm channels' n).
Proof.
  induction n as [|n IH]; intros c d s ch nx; [pk|]. cbn [cbm]. unfold cbm_step. destruct s as [|b s]; [pk|]. apply ps_bind.
  - destruct ch; [|pk]. unfold find_channel_block. apply ps_bind; [apply ps_find; exact IH|]. intros [m|]; [|pk]. destruct (has_prefix _ _); [|pk]. apply ps_bind; [apply IH|intros a; pk].
  - intros [x|]; [pk|]. apply ps_bind; [apply ps_container; exact IH|intros a; pk].
Qed.
Lemma order_irrelevant root fuel script st : calm Q st -> to_token channels fuel root script st = to_token channels' fuel root script st.
Proof. intros P. unfold to_token. apply ps_element; [apply ps_cbm|exact P]. Qed.
End Order.

