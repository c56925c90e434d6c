From Coq Require Import Strings.String Strings.Byte Lia.
From Verif Require Import Go GoLemmas DomainModel DomainSpec DomainProofs CardModel CardSpec CardProofs PatModel PatSpec PatProofs RuleModel RuleSpec RuleProofs PathModel PathSpec LexModel LexSpec LexProofs LexProofs2 LexProofs3 AstModel AstSpec AstProofs.

Ltac some := match goal with H : Some _ = Some _ |- _ => inversion H; subst; clear H end.
Ltac oks := match goal with H : Ok _ = Ok _ |- _ => inversion H; subst; clear H end.

(* ---- plain grammars ---- *)
Lemma plain_good p : plain p -> good_path p.
Proof.
  intros [He Hc]. assert (G : forall c, occurs_in p c -> good_cont c).
  { intros c Ho r Hr. revert Ho. induction Hr as [r k|e sp k c r D Hr IH|ls c r D Hr IH]; intros Ho.
    - apply (Hc _ Ho).
    - apply IH. eapply oc_inner; eassumption.
    - destruct (Hc _ Ho). }
  split; [intros c Hd; apply G, oc_root, Hd|]. intros n e Hn c Hd. apply G. eapply oc_dep; eassumption.
Qed.
Lemma element_occurs p e c : element_of p e -> directly e c -> occurs_in p c.
Proof. intros [->|[(n & H)|(sp & k & H)]] D; [apply oc_root; exact D|eapply oc_dep; eassumption|eapply oc_inner; eassumption]. Qed.
Lemma element_line_occurs p e l c : element_of p e -> In l (el_must e) -> In (ICont c) l -> occurs_in p c.
Proof. intros He Hl Hc. eapply element_occurs; [exact He|]. left. exists l. auto. Qed.

(* the rule matches of the lexer are regular *)
Lemma to_result_regular r s x : good_rule r -> to_result r s = Ok x -> rr_matches x <> None ->
  exists m ms d ds, rr_matches x = Some (m :: ms) /\ r_disc m = d :: ds /\ (d_index d = 0 -> Forall (fun m' => disc_index (r_disc m') = Ok 0) ms) /\ (0 < d_index d -> d_index d <= length (r_input m) /\ r_input m = s).
Proof.
  intros G E N. destruct (rl_content r) as [c|ps k] eqn:Ec.
  - destruct c as [|b c]; [unfold to_result in E; rewrite Ec in E; inversion E; subst; contradiction|].
    destruct (proj1 (constant_rule_exact r s (b :: c) x Ec ltac:(discriminate)) E) as (_ & [(k & Hk & Em)|(_ & Em)]); [|contradiction].
    eexists _, [], _, []. split; [exact Em|]. split; [reflexivity|]. split; [intros _; constructor|]. cbn. intros _. split; [|reflexivity]. destruct Hk as (L & _). lia.
  - destruct (good_rule_pattern r ps k G Ec) as [Hps [Hf|(m & Em & B)]].
    + destruct (proj1 (pattern_rule_exact r s ps k x (proj1 G) Ec Hf) E) as (_ & Ne & rest & He & _ & _).
      unfold found in He. destruct (rr_matches x) as [[|m ms]|]; [congruence| |contradiction].
      assert (A : forall s l rest, eats ps s l rest -> Forall (fun m' => disc_index (r_disc m') = Ok 0) l).
      { clear - Hps. intros s l rest H. induction H as [t|t t' r rs rest Hr Et H IH]; constructor; [|exact IH]. destruct (first_here_taken ps t r Hps Hr) as (Nt & _). apply (first_here_result ps t r Hps Nt Hr). }
      apply A in He. inversion He as [|y z H1 H2]; subst. unfold disc_index in H1. destruct (r_disc m) as [|d ds] eqn:Ed; [discriminate|]. injection H1 as Ei.
      exists m, ms, d, ds. split; [reflexivity|]. split; [exact Ed|]. split; [intros _; exact H2|]. rewrite Ei. lia.
    + rewrite (huge_maximum r s ps k m Ec Em B) in E. inversion E; subst. contradiction.
Qed.
Lemma rule_match_regular r k s ch st x st' : good_rule r -> rule_to_match r k s ch st = (Ok x, st') -> rm_rule x = r /\ rm_card x = k /\ regular x /\ rule_run r s (rm_results x).
Proof.
  intros G H. unfold rule_to_match in H. destruct (delimiter k) as [mn mx]. apply mbind_ok in H. destruct H as (l & s1 & E & H). inversion H; subst; clear H. cbn [rm_rule rm_card rm_results].
  split; [reflexivity|]. split; [reflexivity|]. destruct (rule_loop_run _ _ _ _ G _ _ _ _ _ _ E) as (l' & El & R). cbn in El. subst l'. split; [|exact R]. split.
  - destruct G as [G _]. unfold rule_ok in G. apply andb_prop in G. destruct G as [G _]. apply andb_prop in G. destruct G as [G _]. cbn [rm_rule]. destruct (rl_name r); discriminate.
  - cbn [rm_results rm_prefix]. intros y l' ->. inversion R as [|s0 y0 l0 Er Nm R']; subst. destruct (to_result_regular r s y G Er Nm) as (m & ms & d & ds & Em & Ed & H0 & H1).
    exists m, ms, d, ds. split; [exact Em|]. split; [exact Ed|]. split; [exact H0|]. intros Hi. split; [|apply H1; exact Hi].
    destruct (rule_loop_first _ _ _ _ _ _ _ _ _ y l' E eq_refl) as (i & Fi & Hp). rewrite (first_index_is y m ms d ds Em Ed) in Fi. inversion Fi; subst i. rewrite (Hp Hi). reflexivity.
Qed.

(* ---- the answers for plain grammars are fair ---- *)
Section Fair.
Variable channels : nat -> list path.
Hypothesis Hch : forall p, among channels p -> plain p.
Lemma fairs_parts n : fair n -> (forall c, part_of c n -> fairs c) -> fairs n.
Proof. intros Hn Hc x Hx. inversion Hx; subst; [exact Hn|]. apply (Hc b); assumption. Qed.
Definition fairf (f : pcontainer -> gmap element -> bytes -> bool -> bool -> M (option block)) : Prop :=
  forall p c s ch nx st b st', plain p -> occurs_in p c -> f c (pa_deps p) s ch nx st = (Ok (Some b), st') -> fairs (NBlock b).
Section Step.
Variable f : pcontainer -> gmap element -> bytes -> bool -> bool -> M (option block).
Hypothesis Hf : fairf f.
Lemma line_loop_fair p l : plain p -> forall s ch nx acc st bl st', (forall c, In (ICont c) l -> occurs_in p c) -> line_loop f l (pa_deps p) s ch nx acc st = (Ok (Some bl), st') ->
  Forall (fun b => fairs (NBlock b)) acc -> Forall (fun b => fairs (NBlock b)) bl.
Proof.
  intros Hp. induction l as [|[|c] l IH]; intros s ch nx acc st bl st' Ho H Ha; cbn [line_loop] in H.
  - mstep. some. exact Ha.
  - eapply IH; [|exact H|exact Ha]. intros c Hc. apply Ho. right. exact Hc.
  - apply mbind_ok in H. destruct H as (o & s1 & E & H). destruct o as [b|].
    + apply Hf in E; [|exact Hp|apply Ho; left; reflexivity]. destruct (b_valid b); cbn [negb] in H.
      * destruct (has_prefix _ _); [|mstep; discriminate]. eapply IH; [|exact H|]; [intros c' Hc; apply Ho; right; exact Hc|]. apply Forall_app. split; [exact Ha|constructor; [exact E|constructor]].
      * mstep. some. constructor; [exact E|constructor].
    + mstep. some. exact Ha.
Qed.
Lemma best_line_fair p ls s ch st m st' : plain p -> (forall l c, In l ls -> In (ICont c) l -> occurs_in p c) -> best_line f ls (pa_deps p) s ch st = (Ok (Some m), st') -> fairs (NLine m).
Proof.
  intros Hp Ho H. apply best_line_chosen in H. destruct H as (outs & R & C). destruct m as [i bl].
  assert (Hn : nth_error outs i = Some (Some bl)) by (destruct C as [[[C _] _]|[_ [[C _] _]]]; exact C).
  apply fairs_parts; [exact I|]. intros c Hc. inversion Hc; subst.
  assert (F : Forall (fun o => match o with Some bl => Forall (fun b => fairs (NBlock b)) bl | None => True end) outs).
  { clear -R Hf Hp Ho. induction R as [st|l ls o outs st st1 st2 E R IH]; constructor; [|apply IH; intros l0 c Hl; apply Ho; right; exact Hl]. destruct o as [bl|]; [|exact I].
    unfold line_to_matches in E. apply mbind_ok in E. destruct E as (o & s1 & E & H). mstep. destruct o as [[|b o]|]; try discriminate. some. eapply line_loop_fair; [exact Hp| |exact E|constructor]. intros c. apply Ho. left. reflexivity. }
  rewrite Forall_forall in F. apply nth_error_In in Hn. specialize (F _ Hn). cbn in F. rewrite Forall_forall in F. apply F. assumption.
Qed.
Lemma element_fair p e s ch st t st' : plain p -> element_of p e -> element_to_token f e (pa_deps p) s ch st = (Ok t, st') -> fairs (NTok t).
Proof.
  intros Hp He H. destruct (proj1 Hp e He) as [Nn No]. unfold element_to_token in H. apply mbind_ok in H. destruct H as (c & s1 & E & H). mstep. assert (Et : t = Tok e (pa_deps p) c) by (destruct (el_name _); congruence). subst t.
  unfold element_to_content in E. rewrite No in E. apply mbind_ok in E. destruct E as (m & s2 & Em & E). destruct m as [m|]; mstep; subst c.
  - apply fairs_parts; [split; [exact Nn|reflexivity]|]. intros x Hx. inversion Hx; subst. eapply best_line_fair; [exact Hp| |exact Em]. intros l c. apply element_line_occurs. exact He.
  - apply fairs_parts; [split; [exact Nn|reflexivity]|]. intros x Hx. inversion Hx.
Qed.
Lemma find_fair s chs : (forall p, In p chs -> plain p) -> forall st m st', find_in_channels f chs s st = (Ok (Some m), st') -> fairs (NLine m).
Proof.
  induction chs as [|p chs IH]; intros Hp st m st' H; cbn [find_in_channels] in H; [mstep; discriminate|]. apply mbind_ok in H. destruct H as (t & s1 & E & H). apply element_fair in E; [|apply Hp; left; reflexivity|left; reflexivity].
  destruct (tok_valid t); [|eapply IH; [intros q Hq; apply Hp; right; exact Hq|exact H]]. mstep. destruct (tok_content t) as [[m' n]|] eqn:Ec; [|discriminate]. oks.
  destruct t as [e d c]. cbn in Ec. subst c. eapply fairs_part; [exact E|constructor].
Qed.
Lemma tokens_fair p e pmax ch : plain p -> element_of p e -> forall fuel acc s st l st', token_loop f fuel e (pa_deps p) pmax ch acc s st = (Ok l, st') -> Forall (fun t => fairs (NTok t)) acc -> Forall (fun t => fairs (NTok t)) l.
Proof.
  intros Hp He. induction fuel as [|n IH]; intros acc s st l st' H Ha; [discriminate|]. cbn [token_loop] in H. apply mbind_ok in H. destruct H as (t & s1 & E & H). apply element_fair in E; [|assumption..].
  assert (Ha' : Forall (fun t => fairs (NTok t)) (acc ++ [t])) by (apply Forall_app; split; [exact Ha|constructor; [exact E|constructor]]).
  destruct (tok_valid t); cbn [negb] in H; [|mstep; subst; exact Ha]. destruct (tok_content t) as [[m x]|]; [|mstep; discriminate].
  destruct (has_prefix _ _); [|mstep; subst; exact Ha']. match type of H with (if ?b then _ else _) _ = _ => destruct b end; [mstep; subst; exact Ha'|]. eapply IH; [exact H|exact Ha'].
Qed.
Lemma token_match_fair p fuel e sp k s ch st t st' : plain p -> element_of p e -> Forall (fun s => sp_name s <> []) sp -> token_to_match f fuel e sp k (pa_deps p) s ch st = (Ok t, st') -> fairs (NTM t).
Proof.
  intros Hp He Hs H. unfold token_to_match in H. destruct (delimiter k) as [mn mx]. apply mbind_ok in H. destruct H as (l & s1 & E & H). apply tokens_fair in E; [|assumption|assumption|constructor]. mstep.
  destruct s; [discriminate|]. destruct (forallb _ sp); [|discriminate]. oks.
  apply fairs_parts; [exact Hs|]. intros c Hc. inversion Hc; subst. rewrite Forall_forall in E. apply E. assumption.
Qed.
Lemma container_fair p fuel c s ch st m st' : plain p -> occurs_in p c -> container_to_match f fuel c (pa_deps p) s ch st = (Ok (Some m), st') -> fairs (NMatch m).
Proof.
  intros Hp Ho H. assert (Tk : forall t, fairs (NTM t) -> fairs (NMatch (token_or_skip t))).
  { intros t Ht. unfold token_or_skip. destruct (_ && _); (apply fairs_parts; [exact I|]; intros x Hx; inversion Hx; subst; exact Ht). }
  assert (Hc := proj2 Hp c Ho). destruct c as [e sp k|r k|nm sp k|ls]; cbn [container_to_match] in H; [| | |destruct Hc].
  - apply mbind_ok in H. destruct H as (t & s1 & E & H). mstep. some. apply Tk. eapply token_match_fair; [exact Hp| |exact Hc|exact E]. right. right. exists sp, k. exact Ho.
  - apply mbind_ok in H. destruct H as (x & s1 & E & H). mstep. some. apply rule_match_regular in E; [|exact Hc]. destruct E as (_ & _ & E & _).
    assert (Er : fairs (NRM x)) by (apply fairs_parts; [exact E|]; intros c Hx; inversion Hx).
    unfold rule_or_skip. destruct (_ && _); (apply fairs_parts; [exact I|]; intros y Hy; inversion Hy; subst; exact Er).
  - match type of H with (if ?b then _ else _) = _ => destruct b end; [discriminate|]. apply mbind_ok in H. destruct H as (e & s1 & Ef & H). apply mbind_ok in H. destruct H as (t & s2 & E & H). mstep. some.
    match goal with H : lift _ _ = _ |- _ => apply lift_ok in H; destruct H as [Ed _] end. unfold dep_fetch in Ed. destruct (mlookup (pa_deps p) nm) as [e'|] eqn:El; [|discriminate]. oks.
    apply Tk. eapply token_match_fair; [exact Hp| |exact Hc|exact E]. right. left. exists nm. exact El.
Qed.
Lemma cbm_step_fair n : fairf (cbm_step channels f n).
Proof.
  intros p c s ch nx st o st' Hp Ho H. unfold cbm_step in H. destruct s as [|b s].
  - mstep. destruct (cont_card c) as [k| | |]; try discriminate. cbn [bind] in *. destruct (is_valid k 0); [discriminate|].
    destruct (build_next n c (pa_deps p)); try discriminate. cbn [bind] in *. oks. apply fairs_parts; [exact I|]. intros x Hx. inversion Hx.
  - apply mbind_ok in H. destruct H as (o1 & s1 & E & H). destruct o1 as [bl|].
    + mstep. some. destruct ch; [|mstep; discriminate]. unfold find_channel_block in E. apply mbind_ok in E. destruct E as (m & s2 & Em & E). destruct m as [m|]; [|mstep; discriminate]. unfold range_channels in Em. apply find_fair in Em; [|intros q Hq; apply Hch; eexists; exact Hq].
      destruct (has_prefix _ _); [|mstep; discriminate]. apply mbind_ok in E. destruct E as (x & s3 & Ex & E). mstep. destruct x as [x|]; [|discriminate]. some. apply Hf in Ex; [|assumption..].
      apply fairs_parts; [exact I|]. intros y Hy. inversion Hy; subst; assumption.
    + apply mbind_ok in H. destruct H as (m & s2 & Em & H). mstep. destruct m as [m|]; [|discriminate]. some. apply container_fair in Em; [|assumption..]. apply fairs_parts; [exact I|]. intros y Hy. inversion Hy; subst; assumption.
Qed.
End Step.
Lemma cbm_fair n : fairf (cbm channels n).
Proof. induction n as [|n IH]; intros p c s ch nx st o st' Hp Ho H; [discriminate|]. cbn [cbm] in H. exact (cbm_step_fair (cbm channels n) IH n p c s ch nx st o st' Hp Ho H). Qed.
Lemma to_token_fair root fuel script st t : plain root -> fst (to_token channels fuel root script st) = Ok t -> fair_tree t.
Proof. intros Hp H. unfold to_token in H. destruct (element_to_token _ _ _ _ _ _) as [r st'] eqn:E. cbn in H. subst r. exact (element_fair (cbm channels fuel) (cbm_fair fuel) root _ _ _ _ _ _ Hp (or_introl eq_refl) E). Qed.
End Fair.
Lemma lexer_mistake_iff_invalid channels root fuel script st t :
  (forall p, among channels p -> plain p) -> plain root -> fst (to_token channels fuel root script st) = Ok t ->
  (to_mistake false t = Ok None <-> tok_valid t = true) /\ (tok_valid t = false -> exists m, to_mistake false t = Ok (Some m)).
Proof. intros Hc Hr H. apply mistake_iff_invalid. eapply to_token_fair; eassumption. Qed.

(* ---- the block an answer failed at ---- *)
Lemma line_loop_single f l : forall d s ch nx acc st bl st', line_loop f l d s ch nx acc st = (Ok (Some bl), st') -> forallb b_valid acc = true -> forallb b_valid bl = false -> exists b, bl = [b] /\ b_valid b = false.
Proof.
  induction l as [|[|c] l IH]; intros d s ch nx acc st bl st' H Ha V; cbn [line_loop] in H.
  - mstep. some. congruence.
  - eapply IH; eassumption.
  - apply mbind_ok in H. destruct H as (o & s1 & E & H). destruct o as [b|]; [|mstep; some; congruence]. destruct (b_valid b) eqn:Vb; cbn [negb] in H.
    + destruct (has_prefix _ _); [|mstep; discriminate]. eapply IH; [exact H| |exact V]. rewrite forallb_app, Ha. cbn. rewrite Vb. reflexivity.
    + mstep. some. exists b. auto.
Qed.
Lemma answer_single channels root fuel script st t : fst (to_token channels fuel root script st) = Ok t -> el_not (pa_element root) = None -> tok_valid t = false ->
  tok_name t = el_name (pa_element root) /\ (tok_content t = None \/ exists i b, tok_content t = Some (LM i [b], None) /\ b_valid b = false).
Proof.
  intros H Hn V. destruct (to_token_chosen channels root fuel script st t H) as (outs & st' & R & C & El). split; [unfold tok_name; rewrite El; reflexivity|].
  assert (Nt : the_not t = None).
  { unfold to_token, element_to_token, element_to_content in H. rewrite Hn in H. destruct (mbind _ _ _) as [r s'] eqn:E in H. cbn in H. subst r. apply mbind_ok in E. destruct E as (c & s1 & E & H). apply mbind_ok in E. destruct E as (m & s2 & Em & E).
    mstep. assert (Et : t = Tok (pa_element root) (pa_deps root) c) by (destruct (el_name _); congruence). subst t. destruct m as [m|]; mstep; subst c; reflexivity. }
  destruct t as [e d [[[i bl] n]|]]; [|left; reflexivity]. right. unfold the_not in Nt. cbn in Nt. subst n. cbn in V. exists i.
  assert (Hi : nth_error outs i = Some (Some bl)) by (cbn in C; destruct C as [[[C _] _]|[_ [[C _] _]]]; exact C).
  assert (K : exists b, bl = [b] /\ b_valid b = false).
  { clear C El H. revert i Hi. induction R as [st0|l ls o outs st0 st1 st2 E R IH]; intros i Hi; [destruct i; discriminate|]. destruct i as [|i]; [|apply (IH i Hi)]. cbn in Hi. inversion Hi; subst o. clear Hi.
    unfold line_to_matches in E. apply mbind_ok in E. destruct E as (o & s1 & E & H). mstep. destruct o as [[|b o]|]; try discriminate. some. eapply line_loop_single; [exact E|reflexivity|exact V]. }
  destruct K as (b & -> & Vb). exists b. split; [reflexivity|exact Vb].
Qed.
Lemma decides_none m v s o s' : decides m v -> v = true -> m s = (Ok o, s') -> o = None.
Proof. intros D V E. destruct (D s) as (o' & s2 & E2 & I2). rewrite E2 in E. inversion E; subst. apply I2. reflexivity. Qed.
(* the mistake of a failed block whose nested occurrences are valid *)
Definition after_text (k : mcontent) (w text : bytes) : bytes := match k with McSpecifier _ _ _ => text | _ => w ++ text end.
Lemma reason_inner name b o c k text : reason name b c k text -> reason name (BBlock b o) c k (after_text k (opt_text o) text).
Proof.
  intros H. destruct H; cbn [after_text].
  - apply rs_next. assumption.
  - eapply rs_no_match; eassumption.
  - eapply rs_amount_t; eassumption.
  - apply rs_amount_r; assumption.
  - rewrite app_assoc. eapply rs_prefix; eassumption.
  - eapply rs_specifier; eassumption.
Qed.
Lemma after_text_app k a b text : after_text k (a ++ b) text = after_text k a (after_text k b text).
Proof. destruct k; cbn [after_text]; try reflexivity; rewrite app_assoc; reflexivity. Qed.
Lemma mm_fail_ok c parents k s o s' : mm_fail c parents k s = (Ok o, s') -> exists m, o = Some m /\ mi_parents m = parents /\ mi_container m = c /\ mi_content m = k /\ at_position s (mi_index m) (mi_line m) (mi_column m).
Proof. unfold mm_fail. intros H. destruct (build_mistake c parents s k) as [m| | |] eqn:E; cbn [bind] in H; inversion H; subst. apply build_mistake_spec in E. exists m. tauto. Qed.
Lemma disc_taken p : disc_content (r_disc p) = taken p.
Proof. unfold disc_content, taken. apply join_concat. Qed.
Lemma first_some {A} (f : A -> MM (option mistake)) l : forall s m s', first_mistake f l s = (Ok (Some m), s') -> exists x s1 s2, In x l /\ f x s1 = (Ok (Some m), s2).
Proof.
  induction l as [|x l IH]; intros s m s' H; cbn [first_mistake] in H; [inversion H|]. unfold mm_bind in H. destruct (f x s) as [[o| | |] s1] eqn:E; try discriminate. destruct o as [m'|].
  - unfold mm_ret in H. inversion H; subst. exists x, s, s'. split; [left; reflexivity|exact E].
  - destruct (IH _ _ _ H) as (y & s2 & s3 & Hy & Ey). exists y, s2, s3. split; [right; exact Hy|exact Ey].
Qed.
Definition explained (name : bytes) (b : block) (s : bytes) (o : option mistake) : Prop :=
  exists m text, o = Some m /\ mi_parents m = [] /\ reason name b (mi_container m) (mi_content m) text /\ at_position (after_text (mi_content m) s text) (mi_index m) (mi_line m) (mi_column m).
Lemma explained_here name b w s k c o s' : mm_fail c [] k (s ++ w) = (Ok o, s') -> match k with McSpecifier _ _ _ => False | _ => True end -> reason name b c k w -> explained name b s o.
Proof.
  intros H Hk R. apply mm_fail_ok in H. destruct H as (m & -> & Hp & Hc & Hk0 & Ha). exists m, w. split; [reflexivity|]. split; [exact Hp|]. rewrite Hc, Hk0. split; [exact R|]. destruct k; try exact Ha. contradiction.
Qed.
Lemma match_reason name m ch s o s' : name <> [] -> fairs (NMatch m) -> (forall x, inside (NTM x) (NMatch m) -> Forall (fun y => tok_valid y = true) (tm_toks x)) -> m_valid m = false ->
  match_mistake false [] name m (s ++ opt_text ch) = (Ok o, s') -> explained name (BCont m ch) s o.
Proof.
  intros Nn F Hv V H. destruct m as [t|r|t|r|l]; cbn [m_valid match_mistake] in *; try discriminate.
  - destruct t as [e sp inp k toks]. assert (Ht : Forall (fun y => tok_valid y = true) toks) by (apply (Hv (TM e sp inp k toks)); eapply in_part; [apply in_self|constructor]).
    assert (Ft : fairs (NTM (TM e sp inp k toks))) by (eapply fairs_part; [exact F|constructor]).
    assert (No : o <> None).
    { intros ->. destruct (proj2 (proj2 (proj2 (proj2 dec_tree))) (TM e sp inp k toks) [] name Nn Ft (s ++ opt_text ch)) as (o2 & s2 & E2 & I2). assert (E3 := eq_trans (eq_sym H) E2). inversion E3; subst. rewrite (proj1 I2 eq_refl) in V. discriminate. }
    cbn [tm_mistake] in H. unfold mm_bind in H. destruct (is_valid k (N.of_nat (length toks))) eqn:Ev.
    + (* the specifiers *)
      match type of H with context [match ?x with (_, _) => _ end] => destruct x as [[o1| | |] s1] eqn:E1; try discriminate end.
      assert (o1 = None).
      { destruct toks as [|t toks]; [cbn in Ev; rewrite Ev in E1; inversion E1; reflexivity|]. 
        eapply decides_none with (v := forallb tok_valid (t :: toks)); [|apply forallb_forall; rewrite Forall_forall in Ht; exact Ht|exact E1].
        apply dec_first. apply Forall_forall. intros x Hx. apply (proj1 dec_tree). eapply fairs_part; [exact Ft|constructor; exact Hx]. }
      subst o1. destruct o as [m|].
      * apply first_some in H. destruct H as (x & s2 & s3 & Hx & H). unfold spec_mistake in H. destruct (specific_is_valid _ _) eqn:Es; [unfold mm_ret in H; inversion H|].
        assert (Nx : sp_name x <> []) by (assert (Fs := fairs_here _ Ft); cbn in Fs; rewrite Forall_forall in Fs; apply Fs; exact Hx).
        destruct (sp_name x) as [|c0 n0] eqn:En; [contradiction|]. rewrite <- En in *.
        apply mm_fail_ok in H. destruct H as (m0 & [= <-] & Hp & Hc & Hk & Ha). exists m, s2. split; [reflexivity|]. split; [exact Hp|]. rewrite Hc, Hk, occurrences_spec. split; [|exact Ha].
        eapply rs_specifier with (t := TM e sp inp k toks); [reflexivity|exact Ev|exact Hx|]. rewrite occurrences_spec in Es. exact Es.
      * contradiction.
    + destruct toks as [|t toks].
      * cbn in Ev. rewrite Ev in H. destruct (mm_fail _ _ _ _) as [[o1| | |] s1] eqn:E1; try discriminate. assert (X := mm_fail_ok _ _ _ _ _ _ E1). destruct X as (m & -> & _). unfold mm_ret in H. inversion H; subst.
        eapply explained_here; [exact E1|exact I|]. apply (rs_no_match name (BCont (MToken (TM e sp inp k [])) ch) (TM e sp inp k [])); [reflexivity|reflexivity|exact Ev].
      * destruct (mm_fail _ _ _ _) as [[o1| | |] s1] eqn:E1; try discriminate. assert (X := mm_fail_ok _ _ _ _ _ _ E1). destruct X as (m & -> & _). unfold mm_ret in H. inversion H; subst.
        eapply explained_here; [exact E1|exact I|]. apply (rs_amount_t name (BCont (MToken (TM e sp inp k (t :: toks))) ch) (TM e sp inp k (t :: toks))); [reflexivity|discriminate|exact Ev].
  - assert (Rg : regular r) by (apply (fairs_here (NRM r)); eapply fairs_part; [exact F|constructor]). destruct Rg as [Nr Rr].
    unfold rule_mistake in H. unfold rm_valid in V. destruct (rm_card_valid r) eqn:Ec; cbn [negb andb] in *.
    + destruct (rm_results r) as [|x l] eqn:El.
      { exfalso. unfold rm_exact in V. rewrite El in V. unfold rm_card_valid, rm_amount in Ec. rewrite El in Ec. cbn in Ec. congruence. }
      destruct (Rr x l eq_refl) as (m & ms & d & ds & Em & Ed & H0 & H1). rewrite (regular_exact r x l m ms d ds El Em Ed ltac:(apply H1)) in V.
      destruct (d_index d) as [|i] eqn:Ei; [discriminate|]. destruct (H1 ltac:(lia)) as [_ L].
      unfold result_mistake in H. rewrite Em in H. cbn [first_mistake] in H. unfold mm_bind in H. rewrite (pattern_mistake_at false [] _ m d ds _ Ed), Ei in H. cbn [negb andb] in H. change (0 <? S i) with true in H.
      destruct (length (r_input m) <? S i) eqn:Lt; [apply Nat.ltb_lt in Lt; lia|].
      destruct (firstn (S i) (r_input m)) as [|b w] eqn:Ef; [destruct (r_input m); [cbn in L; lia|discriminate]|]. rewrite <- Ef in H. rewrite disc_taken, <- app_assoc in H.
      destruct (mm_fail _ _ _ _) as [[o1| | |] s1] eqn:E1; try discriminate. assert (X := mm_fail_ok _ _ _ _ _ _ E1). destruct X as (m1 & -> & _). unfold mm_ret in H. inversion H; subst.
      eapply explained_here; [exact E1|exact I|]. eapply (rs_prefix name (BCont (MRule r) ch)); [reflexivity|unfold rm_card_valid, rm_amount in Ec; exact Ec|exact El|exact Em|rewrite Ed; cbn; rewrite Ei; reflexivity|lia].
    + eapply explained_here; [exact H|exact I|]. apply (rs_amount_r name (BCont (MRule r) ch)); [reflexivity|exact Ec].
Qed.
Lemma block_reason name b : forall s o s', name <> [] -> fairs (NBlock b) -> (forall x, inside (NTM x) (NBlock b) -> Forall (fun y => tok_valid y = true) (tm_toks x)) -> b_valid b = false ->
  block_mistake false [] name b s = (Ok o, s') -> explained name b s o.
Proof.
  induction b as [m ch|b IH ch|n ch]; intros s o s' Nn F Hv V H; cbn [block_mistake] in H; unfold mm_bind, mm_append in H; fold (opt_text ch) in H.
  - eapply match_reason; [exact Nn|eapply fairs_part; [exact F|constructor]| |exact V|exact H]. intros x Hx. apply Hv. eapply in_part; [exact Hx|constructor].
  - apply IH in H; [|exact Nn|eapply fairs_part; [exact F|constructor]|intros x Hx; apply Hv; eapply in_part; [exact Hx|constructor]|exact V].
    destruct H as (m & text & -> & Hp & R & Ha). exists m, (after_text (mi_content m) (opt_text ch) text). split; [reflexivity|]. split; [exact Hp|]. split; [apply reason_inner; exact R|]. rewrite <- after_text_app. exact Ha.
  - eapply explained_here; [exact H|exact I|]. apply (rs_next name (BNext n ch)). reflexivity.
Qed.
Lemma inside_trans a b c : inside a b -> inside b c -> inside a c.
Proof. intros H1 H2. induction H2 as [n|x y z H2 IH P]; [exact H1|]. eapply in_part; [apply IH; exact H1|exact P]. Qed.
Lemma tok_mistake_single can parents e d i b s : tok_mistake can parents (Tok e d (Some (LM i [b], None))) s = mm_bind (block_mistake can parents (el_name e) b) (fun o => match o with Some m => mm_ret (Some m) | None => mm_ret None end) [].
Proof. reflexivity. Qed.
Lemma answer_reason channels root fuel script st t :
  (forall p, among channels p -> plain p) -> plain root -> fst (to_token channels fuel root script st) = Ok t -> tok_valid t = false ->
  exists m, to_mistake false t = Ok (Some m) /\ mi_parents m = [] /\
  ((tok_content t = None /\ mi_container m = PcToken (el_name (pa_element root)) /\ mi_content m = McNoMatch /\ at_position [] (mi_index m) (mi_line m) (mi_column m)) \/
   (exists i b text, tok_content t = Some (LM i [b], None) /\ b_valid b = false /\ reason (el_name (pa_element root)) b (mi_container m) (mi_content m) text /\
      at_position text (mi_index m) (mi_line m) (mi_column m))).
Proof.
  intros Hc Hr H V. destruct (proj1 Hr _ (or_introl eq_refl)) as [Nn No]. destruct (answer_single _ _ _ _ _ _ H No V) as [Et Hs].
  assert (F := to_token_fair channels Hc root fuel script st t Hr H). destruct (proj2 (mistake_iff_invalid t F) V) as [m Em]. exists m. split; [exact Em|].
  assert (Ap := answer_parts channels root fuel script st t H). unfold to_mistake in Em. destruct t as [e d c]. cbn [tok_content] in Hs. unfold tok_name in Et. cbn [tok_el] in Et. destruct Hs as [->|(i & b & -> & Vb)].
  - cbn [tok_mistake fst] in Em. destruct (build_mistake _ _ _ _) as [m1| | |] eqn:E; cbn [bind] in Em; inversion Em; subst. apply build_mistake_spec in E. destruct E as (E1 & E2 & E3 & E4). split; [exact E2|]. left. rewrite <- Et. auto.
  - rewrite tok_mistake_single, Et in Em. unfold mm_bind in Em. destruct (block_mistake false [] (el_name (pa_element root)) b []) as [[o| | |] s1] eqn:E; try discriminate.
    assert (Ib : forall x, inside x (NBlock b) -> inside x (NTok (Tok e d (Some (LM i [b], None))))).
    { intros x Hx. eapply in_part; [|apply po_must]. eapply in_part; [exact Hx|]. apply po_block. left. reflexivity. }
    apply block_reason in E; [|exact Nn|intros x Hx; apply F, Ib, Hx| |exact Vb].
    + destruct E as (m1 & text & -> & Hp & R & Ha). unfold mm_ret in Em. inversion Em; subst. split; [exact Hp|]. right. exists i, b, text. split; [reflexivity|]. split; [exact Vb|]. split; [exact R|]. destruct (mi_content m); exact Ha.
    + intros x Hx. destruct (Ap _ (Ib _ Hx)) as [_ A]. eapply Forall_impl; [|exact A]. intros y Hy. apply Hy.
Qed.
