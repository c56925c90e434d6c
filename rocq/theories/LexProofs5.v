From Coq Require Import Strings.String Strings.Byte Lia.
From Verif Require Import Go GoLemmas DomainModel DomainSpec CardModel CardSpec CardProofs PatModel PatSpec PatProofs RuleModel RuleSpec RuleProofs PathModel PathSpec LexModel LexSpec LexProofs LexProofs2 LexProofs3.

(* ---- the announced next element ---- *)
Lemma first_container_split l c : first_container l = Some c -> exists sw r, l = sw ++ ICont c :: r /\ Forall (fun i => i = ISwitch) sw.
Proof.
  induction l as [|[|c'] l IH]; cbn; intros H; [discriminate| |].
  - destruct (IH H) as (sw & r & -> & F). exists (ISwitch :: sw), r. split; [reflexivity|constructor; [reflexivity|exact F]].
  - inversion H; subst. exists [], l. split; [reflexivity|constructor].
Qed.
Lemma next_from_rule_starts d r k n : next_from_rule r = Ok n -> starts_with d (PRule r k) n.
Proof.
  unfold next_from_rule. destruct (rl_content r) as [[|b c]|[|p ps] c] eqn:E; intros H; try discriminate; inversion H; subst.
  - apply sw_constant; [exact E|discriminate].
  - eapply sw_pattern; exact E.
Qed.
Lemma first_rule_starts d fuel : forall name r n, first_rule fuel d name = Ok r -> next_from_rule r = Ok n -> name_starts_with d name n.
Proof.
  induction fuel as [|f IH]; intros name r n H N; [discriminate|]. cbn [first_rule] in H. unfold dep_fetch in H. destruct (mlookup d name) as [e|] eqn:E; [|discriminate]. cbn [bind] in H.
  destruct (el_must e) as [|l ls] eqn:Em; [discriminate|]. destruct (first_container l) as [c|] eqn:Ec; [|discriminate]. destruct (first_container_split l c Ec) as (sw & r' & El & F).
  destruct c as [e' sp k|r0 k|nm sp k|lls]; try discriminate.
  - eapply nsw; [exact E|exact Em|exact El|exact F|]. constructor. eapply IH; eassumption.
  - inversion H; subst. eapply nsw; [exact E|exact Em|reflexivity|exact F|]. apply next_from_rule_starts. exact N.
  - eapply nsw; [exact E|exact Em|exact El|exact F|]. constructor. eapply IH; eassumption.
Qed.
Lemma build_next_starts fuel c d n : build_next fuel c d = Ok n -> starts_with d c n.
Proof.
  destruct c as [e sp k|r k|nm sp k|ls]; cbn [build_next]; intros H; try discriminate.
  - destruct (first_rule fuel d (el_name e)) as [r| | |] eqn:E; try discriminate. constructor. eapply first_rule_starts; eassumption.
  - apply next_from_rule_starts. exact H.
  - destruct (first_rule fuel d nm) as [r| | |] eqn:E; try discriminate. constructor. eapply first_rule_starts; eassumption.
Qed.

Section Announced.
Variable channels : nat -> list path.
Variable root : path.
Definition involved (p : path) : Prop := p = root \/ among channels p.
Definition announced (n : next_element) : Prop := exists p c, involved p /\ asks p c /\ needed c /\ starts_with (pa_deps p) c n.
Definition QN (n : node) : Prop := match n with NBlock (BNext x ch) => ch = None /\ announced x | _ => True end.
Definition all_next (n : node) : Prop := forall x, inside x n -> QN x.
Lemma all_next_parts n : QN n -> (forall c, part_of c n -> all_next c) -> all_next n.
Proof. intros Hn Hc x Hx. inversion Hx; subst; [exact Hn|]. apply (Hc b); assumption. Qed.
Definition onext (o : option block) : Prop := match o with Some b => all_next (NBlock b) | None => True end.
Definition okn (f : pcontainer -> gmap element -> bytes -> bool -> bool -> M (option block)) : Prop :=
  forall p c s ch nx st o st', involved p -> asks p c -> f c (pa_deps p) s ch nx st = (Ok o, st') -> onext o.
Definition element_asked (p : path) (e : element) : Prop := forall c, directly e c -> asks p c.
Section Step.
Variable f : pcontainer -> gmap element -> bytes -> bool -> bool -> M (option block).
Hypothesis Hf : okn f.
Section OnePath.
Variable p : path.
Hypothesis Hp : involved p.
Notation d := (pa_deps p).
Lemma line_loop_next l : forall s ch nx acc st bl st', (forall c, In (ICont c) l -> asks p c) -> line_loop f l d s ch nx acc st = (Ok (Some bl), st') -> Forall (fun b => all_next (NBlock b)) acc -> Forall (fun b => all_next (NBlock b)) bl.
Proof.
  induction l as [|[|c] l IH]; intros s ch nx acc st bl st' Hl H Ha; cbn [line_loop] in H.
  - mstep. match goal with H : Some _ = Some _ |- _ => inversion H; subst end. exact Ha.
  - eapply IH; [|exact H|exact Ha]. intros c Hc. apply Hl. right. exact Hc.
  - apply mbind_ok in H. destruct H as (o & s1 & E & H). apply Hf in E; [|exact Hp|apply Hl; left; reflexivity]. assert (Hl' : forall c, In (ICont c) l -> asks p c) by (intros c' Hc; apply Hl; right; exact Hc). destruct o as [b|].
    + destruct (b_valid b); cbn [negb] in H.
      * destruct (has_prefix _ _); [|mstep; discriminate]. eapply IH; [exact Hl'|exact H|]. apply Forall_app. split; [exact Ha|constructor; [exact E|constructor]].
      * mstep. match goal with H : Some _ = Some _ |- _ => inversion H; subst end. constructor; [exact E|constructor].
    + mstep. match goal with H : Some _ = Some _ |- _ => inversion H; subst end. exact Ha.
Qed.
Lemma best_line_next ls s ch st m st' : (forall c, in_lines ls c -> asks p c) -> best_line f ls d s ch st = (Ok (Some m), st') -> all_next (NLine m).
Proof.
  intros Hls H. apply best_line_chosen in H. destruct H as (outs & R & C). destruct m as [i bl].
  assert (Hn : nth_error outs i = Some (Some bl)) by (destruct C as [[[C _] _]|[_ [[C _] _]]]; exact C).
  apply all_next_parts; [exact I|]. intros c Hc. inversion Hc; subst.
  assert (F : Forall (fun o => match o with Some bl => Forall (fun b => all_next (NBlock b)) bl | None => True end) outs).
  { clear -R Hf Hp Hls. induction R as [st|l ls o outs st st1 st2 E R IH]; constructor.
    - destruct o as [bl|]; [|exact I]. unfold line_to_matches in E. apply mbind_ok in E. destruct E as (o & s1 & E & H). mstep. destruct o as [[|b o]|]; try discriminate. match goal with H : Some _ = Some _ |- _ => inversion H; subst end. eapply line_loop_next; [|exact E|constructor].
      intros c Hc. apply Hls. exists l. split; [left; reflexivity|exact Hc].
    - apply IH. intros c (l' & I1 & I2). apply Hls. exists l'. split; [right; exact I1|exact I2]. }
  rewrite Forall_forall in F. apply nth_error_In in Hn. specialize (F _ Hn). cbn in F. rewrite Forall_forall in F. apply F. assumption.
Qed.
Lemma element_next e s ch st t st' : element_asked p e -> element_to_token f e d s ch st = (Ok t, st') -> all_next (NTok t).
Proof.
  intros Ha H. unfold element_to_token in H. apply mbind_ok in H. destruct H as (c & s1 & E & H). mstep. assert (Et : t = Tok e d c) by (destruct (el_name _); congruence). subst t.
  unfold element_to_content in E. apply mbind_ok in E. destruct E as (m & s2 & Em & E).
  apply all_next_parts; [exact I|]. intros x Hx. destruct m as [m|]; [|mstep; subst c; inversion Hx].
  apply best_line_next in Em; [|intros c' Hc; apply Ha; left; exact Hc]. destruct (el_not e) as [ls|] eqn:En0.
  - apply mbind_ok in E. destruct E as (n & s3 & En & E). mstep. subst. inversion Hx; subst; [exact Em|]. apply best_line_next in En; [exact En|]. intros c' Hc. apply Ha. right. exists ls. split; [exact En0|exact Hc].
  - mstep. subst. inversion Hx; subst. exact Em.
Qed.
Lemma tokens_next e pmax ch : element_asked p e -> forall fuel acc s st l st', token_loop f fuel e d pmax ch acc s st = (Ok l, st') -> Forall (fun t => all_next (NTok t)) acc -> Forall (fun t => all_next (NTok t)) l.
Proof.
  intros He. induction fuel as [|n IH]; intros acc s st l st' H Ha; [discriminate|]. cbn [token_loop] in H. apply mbind_ok in H. destruct H as (t & s1 & E & H). apply element_next in E; [|exact He].
  assert (Ha' : Forall (fun t => all_next (NTok t)) (acc ++ [t])) by (apply Forall_app; split; [exact Ha|constructor; [exact E|constructor]]).
  destruct (tok_valid t); cbn [negb] in H; [|mstep; subst; exact Ha]. destruct (tok_content t) as [[m x]|]; [|mstep; discriminate].
  destruct (has_prefix _ _); [|mstep; subst; exact Ha']. match type of H with (if ?b then _ else _) _ = _ => destruct b end; [mstep; subst; exact Ha'|]. eapply IH; [exact H|exact Ha'].
Qed.
Lemma token_match_next fuel e sp k s ch st t st' : element_asked p e -> token_to_match f fuel e sp k d s ch st = (Ok t, st') -> all_next (NTM t).
Proof.
  intros He H. unfold token_to_match in H. destruct (delimiter k) as [mn mx]. apply mbind_ok in H. destruct H as (l & s1 & E & H). apply tokens_next in E; [|exact He|constructor]. mstep.
  destruct s; [discriminate|]. destruct (forallb _ sp); [|discriminate]. match goal with H : Ok _ = Ok _ |- _ => inversion H; subst end.
  apply all_next_parts; [exact I|]. intros c Hc. inversion Hc; subst. rewrite Forall_forall in E. apply E. assumption.
Qed.
Lemma container_next fuel c s ch st m st' : asks p c -> container_to_match f fuel c d s ch st = (Ok (Some m), st') -> all_next (NMatch m).
Proof.
  intros Hc H. assert (Tk : forall t, all_next (NTM t) -> all_next (NMatch (token_or_skip t))).
  { intros t Ht. unfold token_or_skip. destruct (_ && _); (apply all_next_parts; [exact I|]; intros x Hx; inversion Hx; subst; exact Ht). }
  destruct c as [e sp k|r k|nm sp k|ls]; cbn [container_to_match] in H.
  - apply mbind_ok in H. destruct H as (t & s1 & E & H). mstep. match goal with H : Some _ = Some _ |- _ => inversion H; subst end. apply Tk. eapply token_match_next; [|exact E]. intros c D. eapply as_inner; eassumption.
  - apply mbind_ok in H. destruct H as (x & s1 & E & H). mstep. match goal with H : Some _ = Some _ |- _ => inversion H; subst end.
    assert (Er : all_next (NRM x)) by (apply all_next_parts; [exact I|]; intros c Hc'; inversion Hc').
    unfold rule_or_skip. destruct (_ && _); (apply all_next_parts; [exact I|]; intros y Hy; inversion Hy; subst; exact Er).
  - match type of H with (if ?b then _ else _) = _ => destruct b end; [discriminate|]. apply mbind_ok in H. destruct H as (e & s1 & Ed & H). apply mbind_ok in H. destruct H as (t & s2 & E & H). mstep. match goal with H : Some _ = Some _ |- _ => inversion H; subst end. apply Tk. eapply token_match_next; [|exact E].
    unfold dep_fetch in *. destruct (mlookup d nm) as [e'|] eqn:El; [|discriminate]. cbn in Ed. inversion Ed; subst. intros c D. eapply as_dep; eassumption.
  - apply mbind_ok in H. destruct H as (o & s1 & E & H). mstep. destruct o as [l|]; [|discriminate]. match goal with H : Some _ = Some _ |- _ => inversion H; subst end. apply best_line_next in E; [|intros c D; eapply as_lines; eassumption].
    apply all_next_parts; [exact I|]; intros x Hx; inversion Hx; subst; exact E.
Qed.
End OnePath.
Lemma find_next s chs : (forall p, In p chs -> among channels p) -> forall st m st', find_in_channels f chs s st = (Ok (Some m), st') -> all_next (NLine m).
Proof.
  induction chs as [|p chs IH]; intros Hc st m st' H; cbn [find_in_channels] in H; [mstep; discriminate|]. apply mbind_ok in H. destruct H as (t & s1 & E & H). apply (element_next p) in E; [|right; apply Hc; left; reflexivity|intros c D; apply as_root; exact D].
  destruct (tok_valid t); [|eapply IH; [|exact H]; intros q Hq; apply Hc; right; exact Hq]. mstep. destruct (tok_content t) as [[m' n]|] eqn:Ec; [|discriminate]. match goal with H : Ok _ = Ok _ |- _ => inversion H; subst end.
  destruct t as [e d c]. cbn in Ec. subst c. intros x Hx. apply E. eapply in_part; [exact Hx|constructor].
Qed.
Lemma cbm_step_next n : okn (cbm_step channels f n).
Proof.
  intros p c s ch nx st o st' Hp Hc H. unfold cbm_step in H. destruct s as [|b s].
  - mstep. destruct (cont_card c) as [k| | |] eqn:Ek; try discriminate. cbn [bind] in *. destruct (is_valid k 0) eqn:Ev; [match goal with H : Ok _ = Ok _ |- _ => inversion H; subst end; exact I|].
    destruct (build_next n c (pa_deps p)) as [x| | |] eqn:Eb; try discriminate. cbn [bind] in *. match goal with H : Ok _ = Ok _ |- _ => inversion H; subst end. apply all_next_parts; [|intros y Hy; inversion Hy].
    split; [reflexivity|]. exists p, c. split; [exact Hp|]. split; [exact Hc|]. split; [|eapply build_next_starts; exact Eb]. exists k. split; [|exact Ev]. destruct c; cbn in *; try congruence.
  - apply mbind_ok in H. destruct H as (o1 & s1 & E & H). destruct o1 as [bl|].
    + mstep. subst. destruct ch; [|mstep; discriminate]. unfold find_channel_block in E. apply mbind_ok in E. destruct E as (m & s2 & Em & E). destruct m as [m|]; [|mstep; discriminate]. apply find_next in Em; [|intros q Hq; eexists; exact Hq].
      destruct (has_prefix _ _); [|mstep; discriminate]. apply mbind_ok in E. destruct E as (x & s3 & Ex & E). apply Hf in Ex; [|exact Hp|exact Hc]. mstep. destruct x as [x|]; [|discriminate]. match goal with H : Some _ = Some _ |- _ => inversion H; subst end.
      apply all_next_parts; [exact I|]. intros y Hy. inversion Hy; subst; assumption.
    + apply mbind_ok in H. destruct H as (m & s2 & Em & H). mstep. subst. destruct m as [m|]; [|exact I]. apply (container_next p) in Em; [|assumption|assumption]. apply all_next_parts; [exact I|]. intros y Hy. inversion Hy; subst; assumption.
Qed.
End Step.
Lemma cbm_next n : okn (cbm channels n).
Proof. induction n as [|n IH]; intros p c s ch nx st o st' Hp Hc H; [discriminate|]. cbn [cbm] in H. exact (cbm_step_next (cbm channels n) IH n p c s ch nx st o st' Hp Hc H). Qed.
Lemma to_token_next fuel script st t : fst (to_token channels fuel root script st) = Ok t -> all_next (NTok t).
Proof. intros H. unfold to_token in H. destruct (element_to_token _ _ _ _ _ _) as [r st'] eqn:E. cbn in H. subst r. apply (element_next (cbm channels fuel) (cbm_next fuel) root (or_introl eq_refl) _ _ _ _ _ _ ltac:(intros c D; apply as_root; exact D) E). Qed.
End Announced.

(* ---- exactness of valid answers ---- *)
Definition none_empty (n : node) : Prop := forall x, within (NTM x) n -> tm_toks x <> [].
Definition no_nots (n : node) : Prop := forall e d m k, within (NTok (Tok e d (Some (m, k)))) n -> k = None.
Lemma nn_part b c : held b c -> no_nots c -> no_nots b.
Proof. intros H N e d m k W. apply (N e d m k). eapply wi_part; eassumption. Qed.
Lemma ne_iff n (P : Prop) : (match n with NTM x => tm_toks x <> [] | _ => True end) ->
  (P <-> forall b, held b n -> none_empty b) -> (P <-> none_empty n).
Proof.
  intros Q [H1 H2]. split.
  - intros HP x W. inversion W; subst; [exact Q|]. exact (H1 HP b H0 x H).
  - intros H. apply H2. intros b Hb x W. apply H. eapply wi_part; eassumption.
Qed.
Fixpoint exact_tok (t : tok) : tok_valid t = true -> no_nots (NTok t) -> (tok_exact t = true <-> none_empty (NTok t))
with exact_lm (l : linematch) : lm_valid l = true -> no_nots (NLine l) -> (lm_exact l = true <-> none_empty (NLine l))
with exact_b (b : block) : b_valid b = true -> no_nots (NBlock b) -> (b_exact b = true <-> none_empty (NBlock b))
with exact_m (m : mtch) : m_valid m = true -> no_nots (NMatch m) -> (m_exact m = true <-> none_empty (NMatch m))
with exact_tm (t : tokmatch) : tm_valid t = true -> no_nots (NTM t) -> (tm_exact t = true <-> none_empty (NTM t)).
Proof.
  - destruct t as [e d [[m [n|]]|]]; intros V N.
    + specialize (N e d m (Some n) (wi_self _)). discriminate.
    + cbn in V. cbn [tok_exact]. apply ne_iff; [exact I|]. rewrite (exact_lm m V); [|eapply nn_part; [|exact N]; constructor]. split; [intros H b Hb; inversion Hb; subst; exact H|intros H; apply H; constructor].
    + discriminate.
  - destruct l as [i bl]; intros V N. cbn [lm_valid] in V. cbn [lm_exact]. apply ne_iff; [exact I|].
    assert (K : forall b, In b bl -> (b_exact b = true <-> none_empty (NBlock b))).
    { assert (NB : forall b, In b bl -> no_nots (NBlock b)) by (intros b Hb; eapply nn_part; [|exact N]; constructor; exact Hb). clear N.
      induction bl as [|b bl IH]; intros x [].
      - subst x. cbn in V. apply andb_prop in V. apply exact_b; [apply V|apply NB; left; reflexivity].
      - apply IH; [cbn in V; apply andb_prop in V; apply V|intros y Hy; apply NB; right; exact Hy|assumption]. }
    rewrite forallb_forall. split.
    + intros H b Hb. inversion Hb; subst. apply K; auto.
    + intros H b Hb. apply K; [exact Hb|]. apply H. constructor. exact Hb.
  - destruct b as [m ch|b ch|n ch]; intros V N; cbn in V; [| |discriminate]; cbn [b_exact]; (apply ne_iff; [exact I|]).
    + rewrite (exact_m m V); [|eapply nn_part; [|exact N]; constructor]. split; [intros H b Hb; inversion Hb; subst; exact H|intros H; apply H; constructor].
    + rewrite (exact_b b V); [|eapply nn_part; [|exact N]; constructor]. split; [intros H b' Hb; inversion Hb; subst; exact H|intros H; apply H; constructor].
  - destruct m as [t|r|t|r|l]; intros V N; cbn in V; cbn [m_exact]; (apply ne_iff; [exact I|]).
    + rewrite (exact_tm t V); [|eapply nn_part; [|exact N]; constructor]. split; [intros H b Hb; inversion Hb; subst; exact H|intros H; apply H; constructor].
    + apply andb_prop in V. destruct V as [_ V]. split; [|intros _; exact V]. intros _ b Hb. inversion Hb; subst. intros x W. inversion W; subst. match goal with H : held _ (NRM _) |- _ => inversion H end.
    + split; [intros _ b Hb; inversion Hb|reflexivity].
    + split; [intros _ b Hb; inversion Hb|reflexivity].
    + split; [intros _ b Hb; inversion Hb|reflexivity].
  - destruct t as [e sp i k toks]; intros V N. cbn [tm_valid] in V. apply andb_prop in V. destruct V as [_ V]. apply andb_prop in V. destruct V as [_ V].
    assert (K : forall t, In t toks -> (tok_exact t = true <-> none_empty (NTok t))).
    { assert (NB : forall t, In t toks -> no_nots (NTok t)) by (intros t Ht; eapply nn_part; [|exact N]; constructor; exact Ht). clear N.
      induction toks as [|t toks IH]; intros x [].
      - subst x. cbn in V. apply andb_prop in V. apply exact_tok; [apply V|apply NB; left; reflexivity].
      - apply IH; [cbn in V; apply andb_prop in V; apply V|intros y Hy; apply NB; right; exact Hy|assumption]. }
    destruct toks as [|t0 toks]; cbn [tm_exact].
    + split; [discriminate|]. intros H. exfalso. apply (H _ (wi_self _)). reflexivity.
    + apply ne_iff; [discriminate|]. rewrite forallb_forall. split.
      * intros H b Hb. inversion Hb; subst. apply K; auto.
      * intros H b Hb. apply K; [exact Hb|]. apply H. constructor. exact Hb.
Qed.
