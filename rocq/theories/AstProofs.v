From Coq Require Import Strings.String Strings.Byte Lia.
From Verif Require Import Go GoLemmas DomainModel DomainSpec DomainProofs CardModel CardSpec CardProofs PatModel PatSpec PatProofs RuleModel RuleSpec RuleProofs PathModel PathSpec LexModel LexSpec LexProofs LexProofs2 LexProofs3 AstModel AstSpec.

(* ---- positions ---- *)
Lemma newlines_app a b : newlines (a ++ b) = newlines a + newlines b.
Proof. unfold newlines. rewrite filter_app, app_length. reflexivity. Qed.
Lemma byte_eqb_true (a b : byte) : Byte.eqb a b = true <-> a = b.
Proof. split; [apply Byte.byte_dec_bl|apply Byte.byte_dec_lb]. Qed.
Lemma newlines_none s : ~ In x0a s -> newlines s = 0.
Proof.
  induction s as [|c s IH]; intros H; [reflexivity|]. unfold newlines in *. cbn [filter]. destruct (Byte.eqb x0a c) eqn:E.
  - apply byte_eqb_true in E. subst c. exfalso. apply H. left. reflexivity.
  - apply IH. intros X. apply H. right. exact X.
Qed.
Lemma newline_ne : newline <> []. Proof. unfold newline. discriminate. Qed.
Lemma split_newline s : exists l last, strsplit newline s = l ++ [last] /\ exists before, s = before ++ last /\ (before = [] \/ exists b, before = b ++ [x0a]) /\
  ~ In x0a last /\ length l = newlines s.
Proof.
  remember (length s) as n eqn:En. revert s En. induction n as [n IH] using lt_wf_ind. intros s En. subst n.
  destruct (strsplit newline s) as [|x rest] eqn:E.
  { destruct (join_split_go newline [] s newline_ne) as (x & l & E1 & _). unfold strsplit in E. congruence. }
  assert (P1 : forall c s, has_prefix newline (c :: s) = false <-> c <> x0a).
  { intros c r. destruct (has_prefix newline (c :: r)) eqn:Hp.
    - apply has_prefix_spec in Hp. destruct Hp as (z & Ez). unfold newline in Ez. inversion Ez. split; [intros X; discriminate X|]. intros X. contradiction.
    - split; [|reflexivity]. intros _ X. subst c. assert (Y := has_prefix_app newline r). unfold newline in Y, Hp. cbn [app] in Y. congruence. }
  assert (No : forall p r, (forall i, i < length p -> has_prefix newline (skipn i (p ++ r)) = false) -> ~ In x0a p).
  { intros p r Hn Hi. apply in_split in Hi. destruct Hi as (a & b & ->). specialize (Hn (length a)). rewrite app_length in Hn. cbn [length] in Hn. specialize (Hn ltac:(lia)).
    rewrite <- app_assoc, skipn_app, skipn_all, Nat.sub_diag in Hn. cbn [skipn app] in Hn. apply P1 in Hn. contradiction. }
  destruct (split_go_inv newline s newline_ne [] x rest E) as (p & -> & [(-> & -> & Hn)|(r & -> & Hn & Er)]).
  - cbn [rev app] in *. assert (Hp : ~ In x0a p) by (apply (No p []); rewrite app_nil_r; exact Hn). exists [], p. split; [reflexivity|]. exists []. split; [reflexivity|]. split; [left; reflexivity|]. split; [exact Hp|]. rewrite newlines_none; [reflexivity|exact Hp].
  - cbn [rev app] in *. assert (Hp : ~ In x0a p) by (apply (No p (newline ++ r)); exact Hn).
    destruct (IH (length r)) with (s := r) as (l & last & El & before & -> & Hb & Hl & Hn'); [rewrite !app_length; unfold newline; cbn; lia|reflexivity|].
    exists (p :: l), last. unfold strsplit in El. rewrite Er, El. split; [reflexivity|]. exists (p ++ newline ++ before). split; [rewrite <- !app_assoc; reflexivity|]. split.
    { right. destruct Hb as [->|(b & ->)]; [exists p; rewrite app_nil_r; reflexivity|]. exists (p ++ newline ++ b). rewrite <- !app_assoc. reflexivity. }
    split; [exact Hl|]. rewrite newlines_app, (newlines_none p Hp). cbn [length]. rewrite Hn'. change (newlines (newline ++ before ++ last)) with (S (newlines (before ++ last))). reflexivity.
Qed.
Lemma position_at s : let '(i, l, c) := position s in at_position s i l c.
Proof.
  destruct (split_newline s) as (l & last & E & before & Es & Hb & Hl & Hn). unfold position. rewrite E, app_length. cbn [length]. rewrite Nat.add_comm. cbn [Nat.add].
  rewrite app_nth2, Nat.sub_diag by lia. cbn [nth].
  assert (K : at_position s (length s) (length l) (length last - 1)) by (exists before, last; repeat (split; [assumption|]); split; [reflexivity|split; [exact Hn|reflexivity]]).
  destruct (length last) as [|n]; [exact K|]. cbn [Nat.sub] in K. rewrite Nat.sub_0_r in K. exact K.
Qed.
Lemma last_line_unique b l b' l' : b ++ l = b' ++ l' -> (b = [] \/ exists x, b = x ++ [x0a]) -> (b' = [] \/ exists x, b' = x ++ [x0a]) -> ~ In x0a l -> ~ In x0a l' -> l = l'.
Proof.
  assert (K : forall b l b' l', b ++ l = b' ++ l' -> (b' = [] \/ exists x, b' = x ++ [x0a]) -> ~ In x0a l -> length l <= length l').
  { clear. intros b l b' l' E Hb Hl. destruct (le_lt_dec (length l) (length l')) as [L|L]; [exact L|]. exfalso.
    assert (Lb : length b < length b') by (apply (f_equal (@length _)) in E; rewrite !app_length in E; lia).
    assert (E2 : b' = b ++ firstn (length b' - length b) l).
    { apply (f_equal (firstn (length b'))) in E. rewrite firstn_app, firstn_all2 in E by lia. rewrite firstn_app, firstn_all, Nat.sub_diag in E. cbn [firstn] in E. rewrite app_nil_r in E. symmetry. exact E. }
    destruct Hb as [->|(x & ->)]; [cbn in Lb; lia|]. apply Hl. rewrite <- (firstn_skipn (length (x ++ [x0a]) - length b) l). apply in_or_app. left.
    remember (firstn (length (x ++ [x0a]) - length b) l) as f eqn:Ef. destruct f as [|c f] using rev_ind; [rewrite app_nil_r in E2; rewrite E2 in Lb; lia|].
    rewrite app_assoc in E2. apply app_inj_tail in E2. destruct E2 as [_ <-]. apply in_or_app. right. left. reflexivity. }
  intros E Hb Hb' Hl Hl'. assert (L := K _ _ _ _ E Hb' Hl). assert (L' := K _ _ _ _ (eq_sym E) Hb Hl').
  assert (Lb : length b = length b') by (apply (f_equal (@length _)) in E; rewrite !app_length in E; lia). apply app_inj_len in E; [tauto|exact Lb].
Qed.
Lemma position_exact s i l c : position s = (i, l, c) <-> at_position s i l c.
Proof.
  assert (P := position_at s). destruct (position s) as [[i' l'] c']. split.
  - intros [= <- <- <-]. exact P.
  - destruct P as (b & t & E & Hb & Ht & -> & -> & ->). intros (b' & t' & E' & Hb' & Ht' & -> & -> & ->). rewrite (last_line_unique b t b' t'); [reflexivity|congruence|assumption..].
Qed.
Lemma build_mistake_spec c parents s content m : build_mistake c parents s content = Ok m ->
  mi_container m = c /\ mi_parents m = parents /\ mi_content m = content /\ at_position s (mi_index m) (mi_line m) (mi_column m).
Proof.
  intros H. assert (P := position_at s). unfold build_mistake in H. destruct (position s) as [[i l] col].
  destruct c as [[|]|[|]]; try discriminate; inversion H; subst; cbn; auto.
Qed.
Lemma build_mistake_ok c parents s content : match c with PcRule n => n <> [] | PcToken n => n <> [] end -> exists m, build_mistake c parents s content = Ok m.
Proof. intros H. unfold build_mistake. destruct (position s) as [[i l] col]. destruct c as [[|]|[|]]; try contradiction; eexists; reflexivity. Qed.

(* ---- induction on trees ---- *)
Section TreeInd.
Variables (PT : tok -> Prop) (PL : linematch -> Prop) (PB : block -> Prop) (PM : mtch -> Prop) (PK : tokmatch -> Prop).
Hypothesis HTn : forall e d, PT (Tok e d None).
Hypothesis HTs : forall e d m, PL m -> PT (Tok e d (Some (m, None))).
Hypothesis HTb : forall e d m n, PL m -> PL n -> PT (Tok e d (Some (m, Some n))).
Hypothesis HL : forall i bl, Forall PB bl -> PL (LM i bl).
Definition opt_line (o : option linematch) : Prop := match o with Some c => PL c | None => True end.
Hypothesis HBc : forall m o, PM m -> opt_line o -> PB (BCont m o).
Hypothesis HBb : forall b o, PB b -> opt_line o -> PB (BBlock b o).
Hypothesis HBn : forall n o, opt_line o -> PB (BNext n o).
Hypothesis HMt : forall t, PK t -> PM (MToken t).
Hypothesis HMr : forall r, PM (MRule r).
Hypothesis HMst : forall t, PK t -> PM (MSkipT t).
Hypothesis HMsr : forall r, PM (MSkipR r).
Hypothesis HMl : forall l, PL l -> PM (MLine l).
Hypothesis HK : forall e sp i k toks, Forall PT toks -> PK (TM e sp i k toks).
Fixpoint tok_tree (t : tok) : PT t :=
  match t with
  | Tok e d None => HTn e d
  | Tok e d (Some (m, None)) => HTs e d m (line_tree m)
  | Tok e d (Some (m, Some n)) => HTb e d m n (line_tree m) (line_tree n)
  end
with line_tree (l : linematch) : PL l :=
  match l with LM i bl => HL i bl ((fix go (l : list block) : Forall PB l := match l with [] => Forall_nil _ | x :: r => Forall_cons _ (block_tree x) (go r) end) bl) end
with block_tree (b : block) : PB b :=
  match b with
  | BCont m o => HBc m o (match_tree m) (match o with Some c => line_tree c | None => I end)
  | BBlock b o => HBb b o (block_tree b) (match o with Some c => line_tree c | None => I end)
  | BNext n o => HBn n o (match o with Some c => line_tree c | None => I end)
  end
with match_tree (m : mtch) : PM m :=
  match m with
  | MToken t => HMt t (tm_tree t)
  | MRule r => HMr r
  | MSkipT t => HMst t (tm_tree t)
  | MSkipR r => HMsr r
  | MLine l => HMl l (line_tree l)
  end
with tm_tree (t : tokmatch) : PK t :=
  match t with TM e sp i k toks => HK e sp i k toks ((fix go (l : list tok) : Forall PT l := match l with [] => Forall_nil _ | x :: r => Forall_cons _ (tok_tree x) (go r) end) toks) end.
Lemma tree_ind : (forall t, PT t) /\ (forall l, PL l) /\ (forall b, PB b) /\ (forall m, PM m) /\ (forall t, PK t).
Proof. repeat split; [exact tok_tree|exact line_tree|exact block_tree|exact match_tree|exact tm_tree]. Qed.
End TreeInd.

(* ---- every mistake carries the position of some text ---- *)
Definition mark {A} (m : MM A) (P : A -> Prop) : Prop := forall s a s', m s = (Ok a, s') -> P a.
Definition positioned (o : option mistake) : Prop := match o with Some m => exists text, at_position text (mi_index m) (mi_line m) (mi_column m) | None => True end.
Lemma mark_bind {A B} (m : MM A) (f : A -> MM B) P Q : mark m P -> (forall a, P a -> mark (f a) Q) -> mark (mm_bind m f) Q.
Proof. intros Hm Hf s b s' H. unfold mm_bind in H. destruct (m s) as [[a| | |] s1] eqn:E; try discriminate. apply (Hf a (Hm s a s1 E) _ _ _ H). Qed.
Lemma mark_any {A} (m : MM A) : mark m (fun _ => True). Proof. intros s a s' _. exact I. Qed.
Lemma mark_ret {A} (a : A) (P : A -> Prop) : P a -> mark (mm_ret a) P.
Proof. intros H s b s' E. inversion E; subst. exact H. Qed.
Lemma mark_fail c parents content : mark (mm_fail c parents content) positioned.
Proof.
  intros s a s' H. unfold mm_fail in H. destruct (build_mistake c parents s content) as [m| | |] eqn:E; cbn [bind] in H; inversion H; subst.
  apply build_mistake_spec in E. exists s'. apply E.
Qed.
Lemma mark_first {A} (f : A -> MM (option mistake)) l : Forall (fun x => mark (f x) positioned) l -> mark (first_mistake f l) positioned.
Proof.
  induction 1 as [|x l Hx Hl IH]; cbn [first_mistake]; [apply mark_ret; exact I|]. eapply mark_bind; [exact Hx|]. intros [m|] Hm; [apply mark_ret; exact Hm|exact IH].
Qed.
Lemma mark_bad {A} (r : res A) P : match r with Ok _ => False | _ => True end -> mark (fun s => (r, s)) P.
Proof. intros H s a s' E. inversion E; subst. contradiction. Qed.
Lemma mark_rule can parents r : mark (rule_mistake can parents r) positioned.
Proof.
  unfold rule_mistake. destruct (negb _); [apply mark_fail|]. destruct (rm_results r) as [|x l]; [apply mark_ret; exact I|]. unfold result_mistake. destruct (rr_matches x) as [ms|]; [|apply mark_ret; exact I].
  apply mark_first. apply Forall_forall. intros p _. unfold pattern_mistake. eapply mark_bind; [apply mark_any|]. intros _ _. eapply mark_bind; [apply mark_any|]. intros i _.
  destruct (_ && _); [|apply mark_ret; exact I]. destruct (_ <? _); [apply mark_bad; exact I|]. destruct (firstn _ _); [apply mark_bad; exact I|apply mark_fail].
Qed.
Lemma mark_tree can :
  (forall t parents, mark (tok_mistake can parents t) positioned) /\ (forall l parents name, mark (line_mistake can parents name l) positioned) /\
  (forall b parents name, mark (block_mistake can parents name b) positioned) /\ (forall m parents name, mark (match_mistake can parents name m) positioned) /\
  (forall t parents name, mark (tm_mistake can parents name t) positioned).
Proof.
  apply tree_ind.
  - intros e d parents s a s' H. cbn [tok_mistake] in H. destruct (build_mistake _ _ _ _) as [m| | |] eqn:E; cbn [bind] in H; inversion H; subst. apply build_mistake_spec in E. exists []. apply E.
  - intros e d m Hm parents. cbn [tok_mistake]. eapply mark_bind; [apply mark_any|]. intros _ _. apply Hm.
  - intros e d m n Hm Hn parents. cbn [tok_mistake]. eapply mark_bind; [apply mark_any|]. intros _ _. eapply mark_bind; [apply Hn|]. intros [x|] _; [|apply mark_fail]. eapply mark_bind; [apply mark_any|]. intros _ _. apply Hm.
  - intros i bl H parents name. cbn [line_mistake]. apply mark_first. eapply Forall_impl; [|exact H]. intros b Hb. apply Hb.
  - intros m o Hm Ho parents name. cbn [block_mistake]. eapply mark_bind; [apply mark_any|]. intros _ _. apply Hm.
  - intros b o Hb Ho parents name. cbn [block_mistake]. eapply mark_bind; [apply mark_any|]. intros _ _. apply Hb.
  - intros n o Ho parents name. cbn [block_mistake]. eapply mark_bind; [apply mark_any|]. intros _ _. apply mark_fail.
  - intros t Ht parents name. apply Ht.
  - intros r parents name. apply mark_rule.
  - intros t _ parents name. apply mark_ret. exact I.
  - intros r parents name. apply mark_ret. exact I.
  - intros l Hl parents name. apply Hl.
  - intros e sp i k toks H parents name. cbn [tm_mistake]. eapply mark_bind with (P := positioned).
    + destruct toks as [|t toks]; [destruct (is_valid k 0); [apply mark_ret; exact I|apply mark_fail]|]. destruct (is_valid k _); [|apply mark_fail]. apply mark_first. eapply Forall_impl; [|exact H]. intros x Hx. apply Hx.
    + intros [m|] Hm; [apply mark_ret; exact Hm|]. apply mark_first. apply Forall_forall. intros x _. unfold spec_mistake. destruct (specific_is_valid _ _); [apply mark_ret; exact I|]. destruct (sp_name x); [apply mark_bad; exact I|apply mark_fail].
Qed.
Lemma mistake_positioned can t m : to_mistake can t = Ok (Some m) -> exists text, at_position text (mi_index m) (mi_line m) (mi_column m).
Proof.
  unfold to_mistake. intros H. destruct (tok_mistake can [] t []) as [r s'] eqn:E. cbn in H. subst r. apply (proj1 (mark_tree can) t [] _ _ _ E).
Qed.

(* ---- mistakes and validity ---- *)
Definition decides (m : MM (option mistake)) (v : bool) : Prop := forall s, exists o s', m s = (Ok o, s') /\ (o = None <-> v = true).
Lemma dec_ret_none : decides (mm_ret None) true.
Proof. intros s. eexists _, _. split; [reflexivity|]. tauto. Qed.
Lemma dec_fail c parents content : match c with PcRule n => n <> [] | PcToken n => n <> [] end -> decides (mm_fail c parents content) false.
Proof. intros H s. destruct (build_mistake_ok c parents s content H) as [m E]. unfold mm_fail. rewrite E. eexists _, _. split; [reflexivity|]. split; discriminate. Qed.
Lemma dec_first {A} (f : A -> MM (option mistake)) v l : Forall (fun x => decides (f x) (v x)) l -> decides (first_mistake f l) (forallb v l).
Proof.
  induction 1 as [|x l Hx Hl IH]; intros s; cbn [first_mistake forallb]; [apply dec_ret_none|]. destruct (Hx s) as (o & s1 & E & I1). unfold mm_bind. rewrite E. destruct o as [m|].
  - exists (Some m), s1. split; [reflexivity|]. destruct (v x); [|split; discriminate]. split; [discriminate|]. intros _. apply I1. reflexivity.
  - rewrite (proj1 I1 eq_refl). cbn [andb]. apply IH.
Qed.
Lemma dec_after w m v : decides m v -> decides (mm_bind (mm_append w) (fun _ => m)) v.
Proof. intros H s. unfold mm_bind, mm_append. apply H. Qed.
Lemma dec_reset m v : decides m v -> decides (mm_bind mm_reset (fun _ => m)) v.
Proof. intros H s. unfold mm_bind, mm_reset. apply H. Qed.
Lemma dec_then m1 m2 v1 v2 : decides m1 v1 -> decides m2 v2 -> decides (mm_bind m1 (fun o => match o with Some m => mm_ret (Some m) | None => m2 end)) (v1 && v2).
Proof.
  intros D1 D2 s. destruct (D1 s) as (o & s1 & E1 & I1). unfold mm_bind. rewrite E1. destruct o as [m|].
  - exists (Some m), s1. split; [reflexivity|]. split; [discriminate|]. intros X. apply andb_prop in X. destruct X as [X _]. apply I1 in X. discriminate.
  - rewrite (proj1 I1 eq_refl). apply D2.
Qed.
Lemma dec_eq m v v' : decides m v -> v = v' -> decides m v'.
Proof. intros H <-. exact H. Qed.
Lemma first_index_is x m ms d ds : rr_matches x = Some (m :: ms) -> r_disc m = d :: ds -> first_index x = Some (d_index d).
Proof. intros E1 E2. unfold first_index. rewrite E1, E2. reflexivity. Qed.
Lemma regular_exact r x l m ms d ds : rm_results r = x :: l -> rr_matches x = Some (m :: ms) -> r_disc m = d :: ds -> (0 < d_index d -> rm_prefix r = false) -> rm_exact r = (d_index d =? 0).
Proof.
  intros E Em Ed Hp. unfold rm_exact. rewrite E, (first_index_is x m ms d ds Em Ed). destruct (d_index d) as [|i]; [destruct (rm_prefix r); reflexivity|]. rewrite Hp by lia. reflexivity.
Qed.
Lemma pattern_mistake_at can parents name p d ds s : r_disc p = d :: ds -> pattern_mistake can parents name p s =
  (if negb can && (0 <? d_index d)
   then if length (r_input p) <? d_index d then (fun s => (Panic, s))
        else match firstn (d_index d) (r_input p) with [] => (fun s => (Err, s)) | pre => mm_fail (PcRule name) parents (McPrefix pre) end
   else mm_ret None) (s ++ disc_content (r_disc p)).
Proof. intros E. unfold pattern_mistake, mm_bind, mm_append. rewrite E. reflexivity. Qed.
Lemma dec_rule parents r : regular r -> decides (rule_mistake false parents r) (rm_valid r).
Proof.
  intros [Hn Hr]. unfold rule_mistake, rm_valid. destruct (rm_card_valid r) eqn:Ec; cbn [negb andb]; [|apply dec_fail; exact Hn].
  destruct (rm_results r) as [|x l] eqn:E.
  - eapply dec_eq; [apply dec_ret_none|]. unfold rm_exact. rewrite E. unfold rm_card_valid, rm_amount in Ec. rewrite E in Ec. symmetry. exact Ec.
  - destruct (Hr x l eq_refl) as (m & ms & d & ds & Em & Ed & H0 & H1). rewrite (regular_exact r x l m ms d ds E Em Ed ltac:(apply H1)).
    unfold result_mistake. rewrite Em. cbn [first_mistake]. intros s. unfold mm_bind. rewrite (pattern_mistake_at false parents _ m d ds s Ed). cbn [negb andb].
    destruct (d_index d) as [|i] eqn:Ei.
    + change (0 <? 0) with false. cbn [Nat.eqb]. unfold mm_ret at 1.
      refine (dec_eq _ _ true (dec_first (pattern_mistake false parents (rl_name (rm_rule r))) (fun _ => true) ms _) _ _).
      * specialize (H0 eq_refl). eapply Forall_impl; [|exact H0]. intros p Hp s0. unfold pattern_mistake, mm_bind, mm_append. rewrite Hp. cbn. eexists _, _. split; [reflexivity|]. tauto.
      * clear. induction ms as [|x l IH]; [reflexivity|exact IH].
    + change (0 <? S i) with true. cbn [Nat.eqb]. destruct (H1 ltac:(lia)) as [_ L]. destruct (length (r_input m) <? S i) eqn:Lt; [apply Nat.ltb_lt in Lt; lia|].
      destruct (firstn (S i) (r_input m)) as [|b w] eqn:Ef; [destruct (r_input m); [cbn in L; lia|discriminate]|].
      match goal with |- context [mm_fail ?c ?p ?k ?s1] => destruct (dec_fail c p k Hn s1) as (o & s2 & E2 & I2) end. rewrite E2. destruct o as [mi|]; [|destruct I2 as [I2 _]; specialize (I2 eq_refl); discriminate]. eexists _, _. split; [reflexivity|]. split; discriminate.
Qed.
Definition fairs (n : node) : Prop := forall x, inside x n -> fair x.
Lemma fairs_part c n : fairs n -> part_of c n -> fairs c.
Proof. intros H P x Hx. apply H. eapply in_part; eassumption. Qed.
Lemma fairs_here n : fairs n -> fair n. Proof. intros H. apply H. constructor. Qed.
Lemma dec_tree :
  (forall t parents, fairs (NTok t) -> decides (tok_mistake false parents t) (tok_valid t)) /\
  (forall l parents name, name <> [] -> fairs (NLine l) -> decides (line_mistake false parents name l) (lm_valid l)) /\
  (forall b parents name, name <> [] -> fairs (NBlock b) -> decides (block_mistake false parents name b) (b_valid b)) /\
  (forall m parents name, name <> [] -> fairs (NMatch m) -> decides (match_mistake false parents name m) (m_valid m)) /\
  (forall t parents name, name <> [] -> fairs (NTM t) -> decides (tm_mistake false parents name t) (tm_valid t)).
Proof.
  apply tree_ind.
  - intros e d parents F s. cbn [tok_mistake tok_valid]. destruct (fairs_here _ F) as [Hn _]. destruct (build_mistake_ok (PcToken (el_name e)) parents [] McNoMatch Hn) as [m E]. rewrite E. eexists _, _. split; [reflexivity|]. split; discriminate.
  - intros e d m Hm parents F. cbn [tok_mistake tok_valid]. apply dec_reset. apply Hm; [apply (fairs_here _ F)|]. eapply fairs_part; [exact F|constructor].
  - intros e d m n _ _ parents F. destruct (fairs_here _ F) as [_ Hn]. discriminate.
  - intros i bl H parents name Nn F. cbn [line_mistake lm_valid]. apply dec_first. rewrite Forall_forall in H |- *. intros b Hb. apply H; [exact Hb|exact Nn|]. eapply fairs_part; [exact F|constructor; exact Hb].
  - intros m o Hm Ho parents name Nn F. cbn [block_mistake b_valid]. apply dec_after. apply Hm; [exact Nn|]. eapply fairs_part; [exact F|constructor].
  - intros b o Hb Ho parents name Nn F. cbn [block_mistake b_valid]. apply dec_after. apply Hb; [exact Nn|]. eapply fairs_part; [exact F|constructor].
  - intros n o Ho parents name Nn F. cbn [block_mistake b_valid]. apply dec_after. apply dec_fail. exact Nn.
  - intros t Ht parents name Nn F. cbn [match_mistake m_valid]. apply Ht; [exact Nn|]. eapply fairs_part; [exact F|constructor].
  - intros r parents name Nn F. cbn [match_mistake m_valid]. apply dec_rule. apply (fairs_here (NRM r)). eapply fairs_part; [exact F|constructor].
  - intros t _ parents name Nn F. apply dec_ret_none.
  - intros r parents name Nn F. apply dec_ret_none.
  - intros l _ parents name Nn F. destruct (fairs_here _ F).
  - intros e sp i k toks H parents name Nn F. cbn [tm_mistake].
    assert (D1 : decides (match toks with [] => if is_valid k 0 then mm_ret None else mm_fail (PcToken name) parents McNoMatch
       | _ :: _ => if is_valid k (N.of_nat (length toks)) then first_mistake (tok_mistake false (parents ++ [name])) toks else mm_fail (PcToken name) parents (McCardinality k (length toks)) end)
       (is_valid k (N.of_nat (length toks)) && forallb tok_valid toks)).
    { assert (Fa : Forall (fun x => decides (tok_mistake false (parents ++ [name]) x) (tok_valid x)) toks).
      { rewrite Forall_forall in H |- *. intros x Hx. apply H; [exact Hx|]. eapply fairs_part; [exact F|constructor; exact Hx]. }
      destruct toks as [|t toks].
      - cbn [length N.of_nat forallb]. rewrite andb_true_r. destruct (is_valid k 0); [apply dec_ret_none|apply dec_fail; exact Nn].
      - destruct (is_valid k _); cbn [andb]; [|apply dec_fail; exact Nn]. apply dec_first. exact Fa. }
    assert (D2 : decides (first_mistake (spec_mistake parents name toks) sp) (forallb (fun s => specific_is_valid (sp_card s) (N.of_nat (spec_amount (sp_name s) toks))) sp)).
    { apply dec_first. assert (Fs := fairs_here _ F). cbn [fair tm_specs] in Fs. eapply Forall_impl; [|exact Fs]. intros s Hs. unfold spec_mistake. destruct (specific_is_valid _ _); [apply dec_ret_none|]. destruct (sp_name s) eqn:En; [contradiction|]. apply dec_fail. exact Nn. }
    change (tm_valid (TM e sp i k toks)) with (forallb (fun s => specific_is_valid (sp_card s) (N.of_nat (spec_amount (sp_name s) toks))) sp && (is_valid k (N.of_nat (length toks)) && forallb tok_valid toks)).
    rewrite andb_comm. exact (dec_then _ _ _ _ D1 D2).
Qed.
Lemma mistake_iff_invalid t : fair_tree t -> (to_mistake false t = Ok None <-> tok_valid t = true) /\ (tok_valid t = false -> exists m, to_mistake false t = Ok (Some m)).
Proof.
  intros F. destruct (proj1 dec_tree t [] F []) as (o & s' & E & Io). unfold to_mistake. rewrite E. cbn [fst]. split.
  - split; [intros [= ->]; apply Io; reflexivity|intros V; f_equal; apply Io; exact V].
  - intros V. destruct o as [m|]; [exists m; reflexivity|]. rewrite (proj1 Io eq_refl) in V. discriminate.
Qed.
