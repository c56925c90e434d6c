(* TextProofs5.v - Rules: exactly what a text of rules means. *)
From Coq Require Import Strings.String Strings.Byte Lia.
From Verif Require Import Go GoLemmas DomainModel CardModel CardProofs PatModel RuleModel RuleProofs PathModel SigProofs2 Regex RegexProofs TextModel TextBytes Utf8Spec TrimProofs TextSpec TextProofs TextProofs2 TextProofs3 TextProofs4.
Open Scope list_scope.
Local Arguments in_class : simpl never.

(* ---- spaces ---- *)
Lemma rule_name_trim n : rule_name n -> trim_space n = n.
Proof.
  intros [Ne F]. rewrite Forall_forall in F. apply trim_space_id. intros b Hb. assert (K := F b Hb). clear F Hb. unfold plain_byte, is_space. destruct (_ || _)%bool eqn:E; [|split; [|reflexivity]]; chars.
Qed.
(* ---- quotes ---- *)
Lemma show_replace s : forall n, length s <= n -> replace_all escape_code [dq] s = show_quotes s.
Proof.
  intros n. revert s. induction n as [|n IH]; intros s L.
  - destruct s; [reflexivity|cbn in L; lia].
  - destruct s as [|a [|b [|c r]]]; [reflexivity| | |].
    + unfold replace_all. change escape_code with ["#"; "#"; "#"]%byte. cbn [replace_go has_prefix]. rewrite !andb_false_r. reflexivity.
    + unfold replace_all. change escape_code with ["#"; "#"; "#"]%byte. cbn [replace_go has_prefix]. rewrite !andb_false_r. reflexivity.
    + unfold replace_all. cbn [replace_go]. change (show_quotes (a :: b :: c :: r)) with (if bytes_eqb [a; b; c] escape_code then dq :: show_quotes r else a :: show_quotes (b :: c :: r)).
      assert (E : has_prefix escape_code (a :: b :: c :: r) = bytes_eqb [a; b; c] escape_code).
      { destruct (bytes_eqb [a; b; c] escape_code) eqn:E; [apply bytes_eqb_eq in E; injection E as -> -> ->; reflexivity|]. destruct (has_prefix escape_code (a :: b :: c :: r)) eqn:H; [|reflexivity]. exfalso.
        change escape_code with ["#"; "#"; "#"]%byte in H. cbn [has_prefix] in H. rewrite !andb_true_iff in H. destruct H as (H1 & H2 & H3 & _). apply Byte.byte_dec_bl in H1, H2, H3. subst. discriminate. }
      rewrite E. destruct (bytes_eqb [a; b; c] escape_code).
      * cbn [app]. f_equal. change (length escape_code - 1) with 2. cbn [replace_go]. apply IH. cbn in L. lia.
      * f_equal. apply (IH (b :: c :: r)). cbn in *. lia.
Qed.
Lemma show_replace' s : replace_all escape_code [dq] s = show_quotes s.
Proof. apply (show_replace s (length s)). lia. Qed.
Lemma show_empty s : show_quotes s = [] <-> s = [].
Proof. split; [|intros ->; reflexivity]. destruct s as [|a [|b [|c r]]]; try discriminate; [reflexivity|]. change (show_quotes (a :: b :: c :: r)) with (if bytes_eqb [a; b; c] escape_code then dq :: show_quotes r else a :: show_quotes (b :: c :: r)). destruct (bytes_eqb [a; b; c] escape_code); discriminate. Qed.
(* ---- the element ---- *)
Lemma c_element : compile element_text =
  RSeq (ROpt (RCap 1 (RSeq (RStar true (but dq)) REps))) (RSeq (ROpt (RCap 2 (RSeq (ROne (of_ranges [(dq, dq)])) (RSeq (RCap 3 (RSeq (RStar true (but dq)) REps)) (RSeq (ROne (of_ranges [(dq, dq)])) REps))))) REps).
Proof. vm_compute. reflexivity. Qed.
Lemma in_dec_byte (x : byte) (s : bytes) : In x s \/ ~ In x s.
Proof. destruct (in_dec Byte.byte_eq_dec x s); auto. Qed.
Lemma quote_cut (x : byte) (s : bytes) : (~ In x s) \/ exists p r, s = p ++ x :: r /\ ~ In x p.
Proof.
  induction s as [|b s IH]; [left; intros []|]. destruct (Byte.byte_eq_dec b x) as [->|N]; [right; exists [], s; split; [reflexivity|intros []]|].
  destruct IH as [IH|(p & r & -> & Np)]; [left; intros [K|K]; [exact (N K)|exact (IH K)]|]. right. exists (b :: p), r. split; [reflexivity|]. intros [K|K]; [exact (N K)|exact (Np K)].
Qed.
Lemma but_all x s : ~ In x s -> takec (but x) s = s.
Proof. intros N. assert (E := take_drop (but x) s). rewrite (but_none x s N), app_nil_r in E. symmetry. exact E. Qed.
Definition elem_tail : re := ROpt (RCap 2 (RSeq (ROne (of_ranges [(dq, dq)])) (RSeq (RCap 3 (RSeq (RStar true (but dq)) REps)) (RSeq (ROne (of_ranges [(dq, dq)])) REps)))).
Lemma elem_tail_none {A} (k : bytes -> caps -> option A) s cs : total k -> (forall c rest, s <> dq :: c ++ dq :: rest) -> exec elem_tail s cs k = k s cs.
Proof.
  intros T H. unfold elem_tail. cbn [exec].
  match goal with |- match ?e with Some _ => _ | None => _ end = _ => assert (E : e = None) end; [|rewrite E; reflexivity].
  destruct s as [|b s]; [reflexivity|]. destruct (in_class _ b) eqn:Eb; [|reflexivity]. apply in_lit in Eb. subst b.
  rewrite (star_but dq). 2:{ intros b t Nb. cbn. destruct (in_class _ b) eqn:Eb; [apply in_lit in Eb; contradiction|reflexivity]. }
  rewrite but_none; [reflexivity|]. intros K. apply in_split in K. destruct K as (c & rest & ->). exact (H c rest eq_refl).
Qed.
Lemma elem_tail_some {A} (k : bytes -> caps -> option A) c rest cs : total k -> ~ In dq c -> exec elem_tail (dq :: c ++ dq :: rest) cs k = k rest ((2, dq :: c ++ [dq]) :: (3, c) :: cs).
Proof.
  intros T N. unfold elem_tail. cbn [exec].
  match goal with |- match ?e with Some _ => _ | None => _ end = _ => assert (E : e = k rest ((2, dq :: c ++ [dq]) :: (3, c) :: cs)) end; [|rewrite E; destruct (k rest _) eqn:K; [reflexivity|exfalso; exact (T _ _ K)]].
  replace (in_class (of_ranges [(dq, dq)]) dq) with true by reflexivity.
  rewrite (star_but dq). 2:{ intros b t Nb. cbn. destruct (in_class _ b) eqn:Eb; [apply in_lit in Eb; contradiction|reflexivity]. }
  destruct (span_but dq c rest N) as [_ ->]. replace (in_class (of_ranges [(dq, dq)]) dq) with true by reflexivity.
  do 3 f_equal.
  - apply (firstn_name (dq :: c ++ [dq]) rest). cbn. rewrite <- app_assoc. reflexivity.
  - f_equal. apply (firstn_name c (dq :: rest)). reflexivity.
Qed.
Lemma elem_at s (p r : bytes) : s = p ++ r -> ~ In dq p -> (r = [] \/ exists r', r = dq :: r') ->
  ((forall c rest, r <> dq :: c ++ dq :: rest) -> find_first (compile element_text) s = Some {| m_text := p; m_caps := [(1, p)] |}) /\
  (forall c rest, r = dq :: c ++ dq :: rest -> ~ In dq c -> find_first (compile element_text) s = Some {| m_text := p ++ dq :: c ++ [dq]; m_caps := [(2, dq :: c ++ [dq]); (3, c); (1, p)] |}).
Proof.
  intros E Np Hr. assert (D : dropc (but dq) s = r). { rewrite E. destruct Hr as [->|[r' ->]]; [rewrite app_nil_r; apply but_none; exact Np|apply span_but; exact Np]. }
  assert (F1 : firstn (length s - length r) s = p) by (apply firstn_name; exact E).
  assert (M : forall o, exec elem_tail r [(1, p)] (fun t cs => Some {| m_text := firstn (length s - length t) s; m_caps := cs |}) = Some o -> match_at (compile element_text) s = Some o).
  { intros o H. rewrite c_element. unfold match_at.
    change (match star_greedy (but dq) (fun t => exec elem_tail t [(1, firstn (length s - length t) s)] (fun t cs => Some {| m_text := firstn (length s - length t) s; m_caps := cs |})) s with Some x => Some x | None => exec elem_tail s [] (fun t cs => Some {| m_text := firstn (length s - length t) s; m_caps := cs |}) end = Some o).
    rewrite star_greedy_all; rewrite D; cbv beta; rewrite F1; [exact (f_equal (fun y : option rmatch => match y with Some x => Some x | None => _ end) H)|intros X; exact (eq_ind None (fun y => match y with None => True | Some _ => False end) I (Some o) (eq_trans (eq_sym X) H))]. }
  assert (T : forall o, match_at (compile element_text) s = Some o -> find_first (compile element_text) s = Some o).
  { intros o H. destruct s; cbn [find_first]; rewrite H; reflexivity. }
  split.
  - intros H. apply T, M. rewrite elem_tail_none; [|intros t cs; discriminate|exact H]. rewrite F1. reflexivity.
  - intros c rest -> Nc. apply T, M. rewrite elem_tail_some; [|intros t cs; discriminate|exact Nc]. do 2 f_equal. apply firstn_name. rewrite E. rewrite <- !app_assoc. cbn. rewrite <- !app_assoc. reflexivity.
Qed.
(* ---- the brackets ---- *)
Definition lb : byte := "["%byte.
Definition rb : byte := "]"%byte.
Definition br_body : re := RSeq (RCap 1 (RSeq (RStar true (but rb)) REps)) (RSeq (RStar true c_ws) (RSeq (ROne (of_ranges [(rb, rb)])) REps)).
Lemma c_bracket : compile bracket_text = RSeq (ROne (of_ranges [(lb, lb)])) (RSeq (RStar true c_ws) br_body).
Proof. vm_compute. reflexivity. Qed.
Lemma br_body_none {A} (k : bytes -> caps -> option A) s cs : ~ In rb s -> exec br_body s cs k = None.
Proof.
  intros N. unfold br_body. cbn [exec]. apply (greedy_fail _ _ _ (fun t => ~ In rb t)); [exact N|intros b t H K; apply H; right; exact K|].
  intros t Ht. apply (greedy_fail _ _ _ (fun t => ~ In rb t)); [exact Ht|intros b u H K; apply H; right; exact K|].
  intros u Hu. destruct u as [|b u]; [reflexivity|]. destruct (in_class _ b) eqn:E; [|reflexivity]. apply in_lit in E. subst b. exfalso. apply Hu. left. reflexivity.
Qed.
Lemma br_body_some {A} (k : bytes -> caps -> option A) n z cs : total k -> ~ In rb n -> exec br_body (n ++ rb :: z) cs k = k z ((1, n) :: cs).
Proof.
  intros T N. unfold br_body. cbn [exec]. destruct (span_but rb n z N) as [_ D].
  assert (W : forall cs', star_greedy c_ws (fun t => match t with [] => None | b :: t' => if in_class (of_ranges [(rb, rb)]) b then k t' cs' else None end) (rb :: z) = k z cs').
  { intros cs'. cbn [star_greedy]. replace (in_class c_ws rb) with false by reflexivity. replace (in_class (of_ranges [(rb, rb)]) rb) with true by reflexivity. reflexivity. }
  assert (F : firstn (length (n ++ rb :: z) - length (rb :: z)) (n ++ rb :: z) = n) by (apply firstn_diff).
  rewrite star_greedy_all; rewrite D, W, F; [reflexivity|apply T].
Qed.
Lemma bracket_none s : ~ In rb s -> match_at (compile bracket_text) (lb :: s) = None.
Proof.
  intros N. rewrite c_bracket. unfold match_at. 
  change (star_greedy c_ws (fun t => exec br_body t [] (fun t0 cs => Some {| m_text := firstn (length (lb :: s) - length t0) (lb :: s); m_caps := cs |})) s = None).
  apply (greedy_fail _ _ _ (fun t => ~ In rb t)); [exact N|intros b t H K; apply H; right; exact K|]. intros t Ht. apply br_body_none. exact Ht.
Qed.
Lemma bracket_some w n z : Forall blank w -> (forall b r, n = b :: r -> ~ blank b) -> ~ In rb n ->
  match_at (compile bracket_text) (lb :: w ++ n ++ rb :: z) = Some {| m_text := lb :: w ++ n ++ [rb]; m_caps := [(1, n)] |}.
Proof.
  intros B Hn Nn. rewrite c_bracket. unfold match_at. set (s := lb :: w ++ n ++ rb :: z).
  change (star_greedy c_ws (fun t => exec br_body t [] (fun t0 cs => Some {| m_text := firstn (length s - length t0) s; m_caps := cs |})) (w ++ n ++ rb :: z) = Some {| m_text := lb :: w ++ n ++ [rb]; m_caps := [(1, n)] |}).
  assert (D : dropc c_ws (w ++ n ++ rb :: z) = n ++ rb :: z).
  { apply span_unique; [apply (all_iff c_ws blank w in_ws); exact B|]. destruct n as [|b n]; [reflexivity|]. cbn. specialize (Hn b n eq_refl). rewrite <- in_ws in Hn. destruct (in_class c_ws b); [contradiction|reflexivity]. }
  rewrite star_greedy_all; rewrite D, br_body_some; try exact Nn; try discriminate; try (intros t cs; discriminate).
  do 2 f_equal. apply firstn_name. unfold s. cbn. rewrite <- !app_assoc. reflexivity.
Qed.
Lemma bracket_skip b s : b <> lb -> match_at (compile bracket_text) (b :: s) = None.
Proof.
  intros N. rewrite c_bracket. unfold match_at. cbn [exec]. destruct (in_class _ b) eqn:E; [apply in_lit in E; contradiction|reflexivity].
Qed.
Lemma bracket_find s : (exists names around m, bracketed s names around /\ find_first (compile bracket_text) s = Some m /\ m_cap m 1 = names /\ replace_first (m_text m) s = around) \/
  (find_first (compile bracket_text) s = None /\ forall a b z, s <> a ++ lb :: b ++ rb :: z).
Proof.
  induction s as [|b s IH].
  - right. split; [rewrite c_bracket; reflexivity|]. intros a b z E. destruct a; discriminate.
  - destruct (Byte.byte_eq_dec b lb) as [->|Nb].
    + destruct (quote_cut rb s) as [N|(p & z & -> & Np)].
      * right. split; [cbn [find_first]; rewrite (bracket_none s N)|].
        -- clear - N. induction s as [|b s IH]; [rewrite c_bracket; reflexivity|]. cbn [find_first]. assert (N' : ~ In rb s) by (intros K; apply N; right; exact K). destruct (Byte.byte_eq_dec b lb) as [->|Nb]; [rewrite (bracket_none s N')|rewrite (bracket_skip b s Nb)]; exact (IH N').
        -- intros a b z E. assert (K : In rb (lb :: s)) by (rewrite E; apply in_or_app; right; right; apply in_or_app; right; left; reflexivity). destruct K as [K|K]; [discriminate|exact (N K)].
      * left. set (w := takec c_ws p). set (n := dropc c_ws p). assert (Ep : p = w ++ n) by apply take_drop.
        assert (Bw : Forall blank w) by (apply (all_iff c_ws blank w in_ws); apply takec_all).
        assert (Hn : forall b r, n = b :: r -> ~ blank b). { intros b r E. assert (S := dropc_stops c_ws p). fold n in S. rewrite E in S. cbn in S. rewrite <- in_ws. congruence. }
        assert (Nn : ~ In rb n) by (intros K; apply Np; rewrite Ep; apply in_or_app; right; exact K).
        exists n, z, {| m_text := lb :: w ++ n ++ [rb]; m_caps := [(1, n)] |}. rewrite Ep, <- app_assoc. split; [|split; [|split]].
        -- exists [], w, z. split; [reflexivity|]. split; [reflexivity|]. split; [intros []|]. split; [exact Bw|]. split; [exact Nn|exact Hn].
        -- cbn [find_first]. rewrite (bracket_some w n z Bw Hn Nn). reflexivity.
        -- reflexivity.
        -- cbn [m_text]. replace (lb :: w ++ n ++ rb :: z) with ((lb :: w ++ n ++ [rb]) ++ z) by (cbn; rewrite <- !app_assoc; reflexivity).
           change ((lb :: w ++ n ++ [rb]) ++ z) with (lb :: (w ++ n ++ [rb]) ++ z). cbn [replace_first]. change (lb :: (w ++ n ++ [rb]) ++ z) with ((lb :: w ++ n ++ [rb]) ++ z).
           assert (H : forall (u v : bytes), has_prefix u (u ++ v) = true) by (induction u; intros v; cbn; [reflexivity|rewrite eqb_refl; apply IHu]). rewrite H.
           rewrite skipn_app, Nat.sub_diag, skipn_all. reflexivity.
    + destruct IH as [(names & around & m & (a & w & z & Es & Ea & H) & Hf & Hc & Hr)|[Hf Hn]].
      * left. exists names, (b :: around), m. split; [|split; [|split]].
        -- exists (b :: a), w, z. split; [cbn; rewrite Es; reflexivity|]. split; [cbn; rewrite Ea; reflexivity|]. destruct H as (H1 & H2). split; [|exact H2]. intros [K|K]; [exact (Nb K)|exact (H1 K)].
        -- cbn [find_first]. rewrite (bracket_skip b s Nb). exact Hf.
        -- exact Hc.
        -- cbn [replace_first]. assert (Hp : exists v, m_text m = lb :: v).
           { clear - Hf. induction s as [|c s IH]; cbn [find_first] in Hf.
             - rewrite c_bracket in Hf. discriminate.
             - destruct (match_at (compile bracket_text) (c :: s)) as [m'|] eqn:E; [|exact (IH Hf)]. injection Hf as ->. rewrite c_bracket in E. unfold match_at in E. cbn [exec] in E. destruct (in_class _ c) eqn:Ec; [|discriminate]. apply in_lit in Ec. subst c.
               destruct (quote_cut rb s) as [N|(p & z & -> & Np)].
               + assert (Z := bracket_none s N). rewrite c_bracket in Z. unfold match_at in Z. cbn [exec] in Z. replace (in_class (of_ranges [(lb, lb)]) lb) with true in Z by reflexivity. rewrite Z in E. discriminate.
               + set (w := takec c_ws p). set (n := dropc c_ws p). assert (Ep : p = w ++ n) by apply take_drop.
                 assert (Z := bracket_some w n z). rewrite Ep, <- app_assoc in E. rewrite c_bracket in Z. unfold match_at in Z. cbn [exec] in Z. replace (in_class (of_ranges [(lb, lb)]) lb) with true in Z by reflexivity.
                 rewrite Z in E; [injection E as <-; eexists; reflexivity| | |].
                 * apply (all_iff c_ws blank w in_ws); apply takec_all.
                 * intros b r En. assert (S := dropc_stops c_ws p). fold n in S. rewrite En in S. cbn in S. rewrite <- in_ws. congruence.
                 * intros K. apply Np. rewrite Ep. apply in_or_app. right. exact K. }
           destruct Hp as [v Hv]. rewrite Hv in *. cbn [has_prefix]. rewrite (eqb_ne lb b) by (intros K; apply Nb; symmetry; exact K). cbn [andb]. f_equal. exact Hr.
      * right. split; [cbn [find_first]; rewrite (bracket_skip b s Nb); exact Hf|]. intros a c z E. destruct a as [|x a]; [injection E as E _; contradiction|]. injection E as _ E. exact (Hn a c z E).
Qed.
Lemma bracketed_fun p n a n' a' : bracketed p n a -> bracketed p n' a' -> n = n' /\ a = a'.
Proof.
  intros (x & w & z & E & -> & N1 & B & N2 & H) (x' & w' & z' & E' & -> & N1' & B' & N2' & H'). rewrite E in E'.
  assert (K : x = x' /\ w ++ n ++ rb :: z = w' ++ n' ++ rb :: z').
  { clear - E' N1 N1'. revert x' E' N1'. induction x as [|b x IH]; intros [|b' x'] E' N1'; cbn in E'; [injection E' as E2; auto|injection E' as E1 E2; exfalso; apply N1'; left; symmetry; exact E1|injection E' as E1 E2; exfalso; apply N1; left; exact E1|injection E' as E1 E2]. subst b'. destruct (IH (fun K => N1 (or_intror K)) x' E2 (fun K => N1' (or_intror K))) as [-> K]. auto. }
  destruct K as [<- K].
  assert (W : forall w n (z : bytes), Forall blank w -> (forall b r, n = b :: r -> ~ blank b) -> dropc c_ws (w ++ n ++ rb :: z) = n ++ rb :: z).
  { intros v m y Bv Hm. apply span_unique; [apply (all_iff c_ws blank v in_ws); exact Bv|]. destruct m as [|b m]; [reflexivity|]. cbn. specialize (Hm b m eq_refl). rewrite <- in_ws in Hm. destruct (in_class c_ws b); [contradiction|reflexivity]. }
  assert (D := f_equal (dropc c_ws) K). rewrite !W in D by assumption.
  assert (T := f_equal (takec (but rb)) D). assert (R := f_equal (dropc (but rb)) D). destruct (span_but rb n z N2) as [T1 R1], (span_but rb n' z' N2') as [T2 R2]. rewrite T1, T2 in T. rewrite R1, R2 in R. injection R as ->. auto.
Qed.
(* ---- the content of a rule ---- *)
Lemma until_quote_exists body : exists p r, body = p ++ r /\ ~ In dq p /\ (r = [] \/ exists r', r = dq :: r').
Proof.
  destruct (quote_cut dq body) as [N|(p & r & -> & N)]; [exists body, []; rewrite app_nil_r; auto|exists p, (dq :: r); eauto].
Qed.
Lemma until_quote_fun p r p' r' : p ++ r = p' ++ r' -> ~ In dq p -> ~ In dq p' -> (r = [] \/ exists x, r = dq :: x) -> (r' = [] \/ exists x, r' = dq :: x) -> p = p' /\ r = r'.
Proof.
  intros E N N' H H'. assert (D : forall p r, ~ In dq p -> (r = [] \/ exists x, r = dq :: x) -> takec (but dq) (p ++ r) = p /\ dropc (but dq) (p ++ r) = r).
  { intros q s Nq [->|[x ->]]; [rewrite app_nil_r; split; [apply but_all|apply but_none]; exact Nq|apply span_but; exact Nq]. }
  destruct (D p r N H) as [A B], (D p' r' N' H') as [A' B']. rewrite E in A, B. split; congruence.
Qed.
Section Contents.
Variable patterns : option (table pattern).
Definition find_pattern (n : bytes) (q : pattern) : Prop := exists t, patterns = Some t /\ table_find t n = Ok q.
Let lookup (n : bytes) : res pattern := match patterns with None => Err | Some t => table_find t n end.
Lemma lookup_iff n q : lookup n = Ok q <-> find_pattern n q.
Proof. unfold lookup, find_pattern. destruct patterns as [t|]; split; [eauto|intros (t' & [= <-] & H); exact H|discriminate|intros (t' & H & _); discriminate]. Qed.
Lemma lookup_tame n : tame (lookup n). Proof. unfold lookup. destruct patterns; [apply table_find_tame|apply tame_err]. Qed.
Lemma lookups_iff names ps : mapM lookup names = Ok ps <-> Forall2 find_pattern names ps.
Proof. rewrite mapM_iff. apply Forall2_iff. intros a b _. apply lookup_iff. Qed.
Lemma sp_tame b : tame (sp_now b).
Proof. unfold sp_now. destruct (spb_amount b) as [n|]; [destruct (n <=? 0)%N; split; discriminate|]. destruct (spb_range b) as [[? ?]|]; split; discriminate. Qed.
Lemma cb_tame b : tame (cb_now b).
Proof. unfold cb_now. destruct (cb_opt b), (cb_man b), (cb_non b), (cb_zero b), (cb_spec b); split; discriminate. Qed.
Lemma to_specific_tame s : tame (to_specific s).
Proof.
  unfold to_specific. cbv zeta. destruct (strsplit _ _) as [|a [|b [|? ?]]]; try apply sp_tame.
  - destruct (atoi a); [apply sp_tame|apply tame_err].
  - destruct (atoi a); [|apply tame_err]. destruct (trim_space b); [apply tame_bind; [apply tame_ok|intros; apply sp_tame]|]. destruct (atoi _); [|apply tame_err]. apply tame_bind; [apply tame_ok|intros; apply sp_tame].
Qed.
Lemma to_card_tame s : tame (to_cardinality s).
Proof.
  unfold to_cardinality. cbv zeta. repeat match goal with |- context [if ?b then _ else _] => destruct b end; try apply cb_tame. apply tame_bind; [apply to_specific_tame|intros; apply cb_tame].
Qed.
Lemma read_pattern_iff p :
  (forall x, read_rule_pattern p patterns = Ok x <-> exists ns around names ps c, bracketed p ns around /\ parted " "%byte ns names /\ Forall2 find_pattern names ps /\ to_cardinality around = Ok c /\ x = RPattern ps c) /\
  (read_rule_pattern p patterns = Panic <-> forall a b z, p <> a ++ "["%byte :: b ++ "]"%byte :: z) /\ read_rule_pattern p patterns <> NoFuel.
Proof.
  unfold read_rule_pattern. rewrite first_bracket. destruct (bracket_find p) as [(ns & around & m & B & -> & Hc & Hr)|[-> Hn]].
  - rewrite Hc, Hr. fold lookup. change (bs " ") with [" "%byte]. split; [|split].
    + intros x. split.
      * intros H. apply bind_ok in H. destruct H as (c & H1 & H). apply bind_ok in H. destruct H as (ps & H2 & H). apply bind_ok in H. destruct H as (t & H3 & H). apply last_table_iff in H3. destruct H3 as [Ne ->]. injection H as <-.
        exists ns, around, (strsplit [" "%byte] ns), ps, c. split; [exact B|]. split; [apply parted_iff; reflexivity|]. split; [apply lookups_iff; exact H2|]. auto.
      * intros (ns' & around' & names & ps & c & B' & P & F & C & ->). destruct (bracketed_fun _ _ _ _ _ B B') as [<- <-]. rewrite C. cbn [bind]. apply parted_iff in P. subst names. assert (F' := F). apply lookups_iff in F. rewrite F. cbn [bind].
        assert (Ne : ps <> []). { intros ->. inversion F'. assert (P := proj2 (parted_iff " "%byte ns _) eq_refl). destruct P as [P _]. apply P. symmetry. assumption. }
        rewrite (proj2 (last_table_iff p_name ps (ps, fold_left (fun m x => minsert m (p_name x) x) ps [])) (conj Ne eq_refl)). reflexivity.
    + assert (T : tame (let* c := to_cardinality around in let* l := mapM lookup (strsplit [" "%byte] ns) in let* t := last_table_now p_name (Some l) in Ok (RPattern (table_all t) c))).
      { apply tame_bind; [apply to_card_tame|]. intros c _. apply tame_bind; [apply tame_mapM; intros; apply lookup_tame|]. intros l _. apply tame_bind; [apply last_table_tame|]. intros; apply tame_ok. }
      split; [intros H; exfalso; exact (proj1 T H)|]. intros H. exfalso. destruct B as (a & w & z & E & _). apply (H a (w ++ ns) z). rewrite E, <- app_assoc. reflexivity.
    + assert (T : tame (let* c := to_cardinality around in let* l := mapM lookup (strsplit [" "%byte] ns) in let* t := last_table_now p_name (Some l) in Ok (RPattern (table_all t) c))).
      { apply tame_bind; [apply to_card_tame|]. intros c _. apply tame_bind; [apply tame_mapM; intros; apply lookup_tame|]. intros l _. apply tame_bind; [apply last_table_tame|]. intros; apply tame_ok. }
      exact (proj2 T).
  - split; [|split; [split; [intros _; exact Hn|reflexivity]|discriminate]]. intros x. split; [discriminate|]. intros (ns & around & names & ps & c & (a & w & z & E & _) & _). exfalso. apply (Hn a (w ++ ns) z). rewrite E, <- app_assoc. reflexivity.
Qed.
Lemma before_byte (x : byte) (a b sec rest : bytes) : a ++ b = sec ++ x :: rest -> ~ In x a -> exists b', sec = a ++ b' /\ b = b' ++ x :: rest.
Proof.
  revert sec. induction a as [|y a IH]; intros sec E N; [exists sec; split; [reflexivity|exact E]|].
  destruct sec as [|z sec]; cbn in E; injection E as E1 E2; [exfalso; apply N; left; exact E1|]. subst z.
  destruct (IH sec E2 ltac:(intros H; apply N; right; exact H)) as (b' & -> & Hb). exists b'. split; [reflexivity|exact Hb].
Qed.
Lemma inner_brackets q1 t q2 a b z : q1 ++ t ++ q2 = a ++ lb :: b ++ rb :: z -> white_text q1 -> white_text q2 -> exists a' z', t = a' ++ lb :: b ++ rb :: z'.
Proof.
  intros E S1 S2. destruct (before_byte lb q1 (t ++ q2) a _ E) as (a' & _ & E1). { apply (notin _ _ (white_text_bytes _ S1)). unfold lb. intros [K|K]; [discriminate|cbn in K; lia]. }
  apply (f_equal (@rev byte)) in E1. rewrite rev_app_distr in E1. replace (a' ++ lb :: b ++ rb :: z) with ((a' ++ lb :: b) ++ rb :: z) in E1 by (rewrite <- app_assoc; reflexivity). rewrite rev_app_distr in E1. cbn [rev] in E1. rewrite <- app_assoc in E1. cbn [app] in E1.
  destruct (before_byte rb (rev q2) (rev t) (rev z) _ E1) as (z' & _ & E2). { apply (notin (P := white_byte)); [apply Forall_rev; apply white_text_bytes; exact S2|]. unfold rb. intros [K|K]; [discriminate|cbn in K; lia]. }
  apply (f_equal (@rev byte)) in E2. rewrite rev_involutive, rev_app_distr in E2. cbn [rev] in E2. rewrite rev_involutive in E2. exists a', (rev z'). rewrite E2, <- !app_assoc. reflexivity.
Qed.
Lemma space_no_dq p : white_text p -> ~ In dq p.
Proof. intros S. apply (notin _ _ (white_text_bytes _ S)). unfold dq. intros [K|K]; [discriminate|cbn in K; lia]. Qed.
(* a prefix that is not blank *)
Lemma pattern_branch body p t0 t : until_quote body p -> trim_space p = t0 :: t ->
  (forall x, read_rule_pattern (t0 :: t) patterns = Ok x <-> content_of find_pattern body x) /\
  (read_rule_pattern (t0 :: t) patterns = Panic <-> unbracketed body) /\ read_rule_pattern (t0 :: t) patterns <> NoFuel.
Proof.
  intros U Et. assert (Uf : forall p', until_quote body p' -> p' = p). { destruct U as (r & E & Np & Hr). intros p' (r' & E' & N' & H'). rewrite E in E'. symmetry. exact (proj1 (until_quote_fun _ _ _ _ E' Np N' Hr H')). }
  assert (NS : ~ white_text p) by (intros S; apply trim_blank in S; congruence). assert (Tp : trimmed p (t0 :: t)) by (apply trim_space_iff; exact Et).
  destruct (read_pattern_iff (t0 :: t)) as (R1 & R2 & R3). split; [|split; [|exact R3]].
  - intros x. split.
    + intros H. apply R1 in H. destruct H as (ns & around & names & ps & c & B' & P' & F' & C' & ->). apply to_cardinality_exact in C'. eapply content_pattern; try eassumption. discriminate.
    + intros H. destruct H as [p' c rest E' S' N'|p' U' S' Ne Hno|p' t' ns around names ps c U' T' Ne B' P' F' C'].
      * exfalso. apply NS. rewrite <- (Uf p'); [exact S'|]. exists (dq :: c ++ dq :: rest). split; [exact E'|]. split; [apply space_no_dq; exact S'|right; eauto].
      * exfalso. rewrite (Uf _ U') in S'. contradiction.
      * rewrite (Uf _ U') in T'. apply trim_space_iff in T'. rewrite Et in T'. subst t'. apply to_cardinality_exact in C'. apply R1. exists ns, around, names, ps, c. split; [exact B'|]. split; [exact P'|]. split; [exact F'|]. split; [exact C'|reflexivity].
  - rewrite R2. split.
    + intros H. exists p. split; [exact U|]. split; [exact NS|]. intros a b z Ea. destruct Tp as (q1 & q2 & Eq & S1 & S2 & _). destruct (inner_brackets q1 (t0 :: t) q2 a b z) as (a' & z' & E'); [exact (eq_trans (eq_sym Eq) Ea)|exact S1|exact S2|]. exact (H a' b z' E').
    + intros (p' & U' & _ & Hno) a b z Ea. rewrite (Uf _ U') in Hno. destruct Tp as (q1 & q2 & Eq & _). apply (Hno (q1 ++ a) b (z ++ q2)). rewrite Eq, Ea. cbn. rewrite <- !app_assoc. cbn. rewrite <- !app_assoc. reflexivity.
Qed.
Lemma read_element_iff body :
  (forall x, read_element body patterns = Ok x <-> content_of find_pattern (hide_quotes body) x) /\
  (read_element body patterns = Panic <-> unbracketed (hide_quotes body)) /\ read_element body patterns <> NoFuel.
Proof.
  unfold read_element. rewrite first_element, hide_replace'. generalize (hide_quotes body). clear body. intros body.
  destruct (until_quote_exists body) as (p & r & E & Np & Hr). destruct (elem_at body p r E Np Hr) as [A B].
  assert (U : until_quote body p) by (exists r; auto).
  assert (Uf : forall p', until_quote body p' -> p' = p). { intros p' (r' & E' & N' & H'). rewrite E in E'. symmetry. exact (proj1 (until_quote_fun _ _ _ _ E' Np N' Hr H')). }
  assert (K : exists m, find_first (compile element_text) body = Some m /\ m_cap m 1 = p /\ (p <> [] -> m_text m <> []) /\
    ((m_text m = p /\ m_cap m 3 = [] /\ (forall p' c rest, white_text p' -> body <> p' ++ dq :: c ++ dq :: rest)) \/
     (exists rest, m_text m <> [] /\ body = p ++ dq :: m_cap m 3 ++ dq :: rest /\ ~ In dq (m_cap m 3)))).
  { destruct (quote_cut dq (match r with [] => [] | _ :: t => t end)) as [Nr|(c & rest & Er & Nc)].
    - assert (H0 : forall c rest, r <> dq :: c ++ dq :: rest). { intros c rest ->. apply Nr. apply in_or_app. right. left. reflexivity. }
      eexists. split; [exact (A H0)|]. split; [reflexivity|]. split; [auto|]. left. split; [reflexivity|]. split; [reflexivity|].
      intros p' c rest S' E'. rewrite E in E'. destruct (until_quote_fun _ _ _ _ E' Np (space_no_dq p' S') Hr (or_intror (ex_intro _ _ eq_refl))) as [_ Er]. exact (H0 c rest Er).
    - assert (Er' : r = dq :: c ++ dq :: rest). { destruct Hr as [->|[r' ->]]; [destruct c; discriminate|]. rewrite Er. reflexivity. }
      eexists. split; [exact (B c rest Er' Nc)|]. split; [reflexivity|]. split; [intros _; destruct p; discriminate|]. right. exists rest. split; [destruct p; discriminate|]. split; [rewrite E, Er'; reflexivity|exact Nc]. }
  destruct K as (m & -> & -> & Hne & K). destruct (trim_space p) as [|t0 t] eqn:Et.
  - assert (S : white_text p) by (apply trim_blank; exact Et). rewrite !show_replace'.
    assert (NU : ~ unbracketed body) by (intros (p' & U' & NS & _); rewrite (Uf _ U') in NS; contradiction).
    destruct K as [(Em & Ec & Hno)|(rest & Em & Eb & Nc)].
    + rewrite Em, Ec. split; [|split].
      * intros x. split.
        -- destruct (show_quotes p) eqn:Es; [discriminate|]. intros [= <-]. apply (content_blank _ _ p); [exact U|exact S| |].
           ++ intros ->. discriminate.
           ++ intros c rest. apply Hno. exact S.
        -- intros H. destruct H as [p' c rest E' S' N'|p' U' S' Ne _|p' t' ns around names ps c U' T' Ne B' P' F' C'].
           ++ exfalso. exact (Hno p' c rest S' E').
           ++ rewrite (Uf _ U') in Ne. destruct (show_quotes p) eqn:Es; [apply (proj1 (show_empty _)) in Es; exfalso; exact (Ne Es)|]. reflexivity.
           ++ exfalso. rewrite (Uf _ U') in T'. apply trim_space_iff in T'. congruence.
      * split; [destruct (show_quotes p); discriminate|]. intros H. contradiction.
      * destruct (show_quotes p); discriminate.
    + assert (Es : exists y ys, show_quotes (m_text m) = y :: ys). { destruct (show_quotes (m_text m)) eqn:Es; [apply (proj1 (show_empty _)) in Es; exfalso; exact (Em Es)|eauto]. } destruct Es as (y & ys & ->). split; [|split].
      * intros x. split.
        -- intros [= <-]. eapply content_constant; eassumption.
        -- intros H. destruct H as [p' c rest' E' S' N'|p' U' S' Ne Hno|p' t' ns around names ps c U' T' Ne B' P' F' C'].
           ++ do 2 f_equal. rewrite Eb in E'. destruct (until_quote_fun _ _ _ _ E' Np (space_no_dq p' S') (or_intror (ex_intro _ _ eq_refl)) (or_intror (ex_intro _ _ eq_refl))) as [_ E2]. injection E2 as E2.
              assert (E3 := f_equal (takec (but dq)) E2). rewrite (proj1 (span_but dq _ rest Nc)), (proj1 (span_but dq _ rest' N')) in E3. exact (f_equal show_quotes E3).
           ++ exfalso. rewrite (Uf _ U') in Hno. exact (Hno _ _ Eb).
           ++ exfalso. rewrite (Uf _ U') in T'. apply trim_space_iff in T'. congruence.
      * split; [discriminate|]. intros H. contradiction.
      * discriminate.
  - destruct (pattern_branch body p t0 t U Et) as (R1 & R2 & R3). assert (Nm : m_text m <> []) by (apply Hne; intros ->; discriminate). destruct (m_text m) as [|y ys]; [contradiction|].
    assert (Eb : (let* x := read_rule_pattern (t0 :: t) patterns in Ok x) = read_rule_pattern (t0 :: t) patterns) by (destruct (read_rule_pattern (t0 :: t) patterns); reflexivity).
    rewrite Eb. auto.
Qed.
End Contents.

(* ---- the declarations ---- *)
Definition rule_re : re := RSeq (RCap 1 (n_plus c_upper_)) (RSeq (ROne (of_ranges [(colon, colon)])) (RSeq body_re end_re)).
Lemma c_rule : compile rule_text = rule_re. Proof. vm_compute. reflexivity. Qed.
Lemma body_end {A} (k : bytes -> caps -> option A) body t cs : total k -> ~ In semi body -> exec (RSeq body_re end_re) (body ++ semi :: t) cs k = k t ((2, body) :: cs).
Proof.
  intros T N. unfold body_re. cbn [exec]. rewrite (star_but semi).
  - destruct (span_but semi body t N) as [_ ->]. rewrite (end_at _ t _). do 2 f_equal. f_equal. apply firstn_diff.
  - intros b u Nb. cbn. unfold end_re. cbn [exec]. destruct (in_class _ b) eqn:E; [apply in_lit in E; contradiction|reflexivity].
Qed.
Lemma body_end_none {A} (k : bytes -> caps -> option A) s cs : ~ In semi s -> exec (RSeq body_re end_re) s cs k = None.
Proof.
  intros N. unfold body_re. cbn [exec]. rewrite (star_but semi).
  - rewrite (but_none semi s N). reflexivity.
  - intros b u Nb. cbn. unfold end_re. cbn [exec]. destruct (in_class _ b) eqn:E; [apply in_lit in E; contradiction|reflexivity].
Qed.
Lemma rule_match s : match_at rule_re s =
  match heads [c_upper_] c_upper_ s with
  | Some (n, b :: t) => if Byte.eqb b colon then exec (RSeq body_re end_re) t [(1, n)] (fun t0 cs => Some {| m_text := firstn (length s - length t0) s; m_caps := cs |}) else None
  | _ => None
  end.
Proof.
  unfold match_at, rule_re.
  change (exec (n_plus c_upper_) s [] (fun t cs => exec (RSeq (ROne (of_ranges [(colon, colon)])) (RSeq body_re end_re)) t ((1, firstn (length s - length t) s) :: cs) (fun t0 cs => Some {| m_text := firstn (length s - length t0) s; m_caps := cs |})) =
    match heads [c_upper_] c_upper_ s with
    | Some (n, b :: t) => if Byte.eqb b colon then exec (RSeq body_re end_re) t [(1, n)] (fun t0 cs => Some {| m_text := firstn (length s - length t0) s; m_caps := cs |}) else None
    | _ => None
    end).
  rewrite (plus_re c_upper_).
  - destruct (heads [c_upper_] c_upper_ s) as [[n u]|] eqn:E; [|reflexivity]. apply heads_some in E. destruct E as (Es & _). rewrite (firstn_name n u s Es).
    change (exec (ROne (of_ranges [(colon, colon)])) u [(1, n)] (fun t cs => exec (RSeq body_re end_re) t cs (fun t0 cs => Some {| m_text := firstn (length s - length t0) s; m_caps := cs |})) =
      match u with b :: t => if Byte.eqb b colon then exec (RSeq body_re end_re) t [(1, n)] (fun t0 cs => Some {| m_text := firstn (length s - length t0) s; m_caps := cs |}) else None | [] => None end).
    rewrite one_lit. reflexivity.
  - intros b t cs' H. cbn [exec]. destruct (in_class (of_ranges [(colon, colon)]) b) eqn:E; [apply in_lit in E; subst b; discriminate|reflexivity].
Qed.
Lemma rule_decl_some sec rest m : ~ In semi sec ->
  (match_at (compile rule_text) (sec ++ semi :: rest) = Some m <-> exists x, opens_tight rule_name sec x /\ m = {| m_text := sec ++ [semi]; m_caps := mk2 x |}).
Proof.
  intros N. rewrite c_rule, rule_match. split.
  - destruct (heads [c_upper_] c_upper_ (sec ++ semi :: rest)) as [[n [|b t]]|] eqn:E; try discriminate. destruct (Byte.eqb b colon) eqn:Eb; [|discriminate]. apply Byte.byte_dec_bl in Eb. subst b.
    apply heads_some in E. destruct E as (Es & Hn & _). apply is_rule_name in Hn.
    destruct (before_byte semi (n ++ [colon]) t sec rest) as (body & -> & ->).
    + rewrite <- app_assoc. symmetry. exact Es.
    + rewrite in_app_iff. intros [K|[K|[]]]; [|discriminate]. destruct Hn as [_ F]. rewrite Forall_forall in F. apply F in K. unfold semi in K. chars.
    + assert (Nb : ~ In semi body) by (intros K; apply N; apply in_or_app; right; exact K). rewrite body_end; [|intros ? ?; discriminate|exact Nb]. intros [= <-]. exists (n, body). split; [split; [cbn; rewrite <- app_assoc; reflexivity|exact Hn]|]. unfold mk2. cbn [fst snd]. f_equal.
      apply firstn_name. rewrite <- !app_assoc. reflexivity.
  - intros ([n body] & [-> Hn] & ->). cbn [fst snd] in *. assert (Nb : ~ In semi body) by (intros K; apply N; apply in_or_app; right; right; exact K).
    rewrite (proj2 (heads_some [c_upper_] c_upper_ ((n ++ colon :: body) ++ semi :: rest) n (colon :: body ++ semi :: rest))).
    + rewrite eqb_refl. rewrite body_end; [|intros ? ?; discriminate|exact Nb]. unfold mk2. cbn [fst snd]. do 2 f_equal. apply firstn_name. rewrite <- !app_assoc. reflexivity.
    + split; [rewrite <- app_assoc; reflexivity|]. split; [apply is_rule_name; exact Hn|reflexivity].
Qed.
Lemma rule_decl_none s : ~ In semi s -> match_at (compile rule_text) s = None.
Proof.
  intros N. rewrite c_rule, rule_match. destruct (heads [c_upper_] c_upper_ s) as [[n [|b t]]|] eqn:E; try reflexivity. destruct (Byte.eqb b colon); [|reflexivity]. apply heads_some in E. destruct E as (-> & _). apply body_end_none. intros K. apply N. apply in_or_app. right. right. exact K.
Qed.
Lemma fun_rule u x x' : ~ In semi u -> opens_tight rule_name u x -> opens_tight rule_name u x' -> x = x'.
Proof. apply (fun_of_match (compile rule_text) mk2 _ mk2_inj rule_decl_some). Qed.
Lemma find_declared_text {X} (P : bytes -> X -> Prop) (r : re) (mk : X -> caps) (text : X -> bytes) s :
  (forall sec rest m, ~ In semi sec -> (match_at r (sec ++ semi :: rest) = Some m <-> exists x, P sec x /\ m = {| m_text := sec ++ [semi]; m_caps := mk x |})) ->
  (forall s, ~ In semi s -> match_at r s = None) -> (forall u x, P u x -> text x = u ++ [semi]) ->
  exists xs, declares_all P s xs /\ find_all r s = map (fun x => {| m_text := text x; m_caps := mk x |}) xs.
Proof.
  intros Hs Hn Ht. destruct (cut_exists semi s) as (secs & tail & E & Fs & Ft).
  destruct (find_sections_text r P mk semi Hs Hn text secs tail false Ht Fs Ft) as (xs & R & F). exists xs. split.
  - exists secs, tail. split; [split; [exact E|split; assumption]|]. clear - R. induction R; [apply declared_nil|apply declared_skip; assumption|apply declared_take; assumption].
  - unfold find_all. rewrite E. exact F.
Qed.
Definition rule_match_of (d : bytes * bytes) : rmatch := {| m_text := fst d ++ colon :: snd d ++ [semi]; m_caps := mk2 d |}.
Lemma rules_found text : exists rd, declares_all (opens_tight rule_name) text rd /\ find_all (compile rule_text) text = map rule_match_of rd.
Proof.
  apply (find_declared_text (opens_tight rule_name) (compile rule_text) mk2 (fun d => fst d ++ colon :: snd d ++ [semi]) text rule_decl_some rule_decl_none).
  intros u x [-> _]. rewrite <- app_assoc. reflexivity.
Qed.
Lemma declares_all_sound {X} (P : bytes -> X -> Prop) (Q : X -> Prop) text xs : (forall u x, P u x -> Q x) -> declares_all P text xs -> Forall Q xs.
Proof.
  intros H (secs & tail & _ & D). induction D as [|s l xs N D IH|s l x xs Dx D IH]; [constructor|exact IH|]. constructor; [|exact IH]. destruct Dx as (a & u & _ & Hu & _). exact (H u x Hu).
Qed.
Section RuleTexts.
Variable patterns : option (table pattern).
Lemma read_rule_iff d : rule_name (fst d) ->
  (forall r, read_rule patterns (rule_match_of d) = Ok r <-> rule_of (find_pattern patterns) d r) /\
  (read_rule patterns (rule_match_of d) = Panic <-> unbracketed (hide_quotes (snd d))) /\ read_rule patterns (rule_match_of d) <> NoFuel.
Proof.
  intros Hn. unfold read_rule, rule_match_of, m_cap. cbn [m_caps m_text mk2 cap Nat.eqb fst snd]. rewrite (rule_name_trim _ Hn). destruct d as [n body]. cbn [fst snd] in *. destruct n as [|n0 n]; [destruct Hn; contradiction|]. cbn [app].
  destruct (read_element_iff patterns body) as (R1 & R2 & R3). split; [|split].
  - intros r. split.
    + intros H. apply bind_ok in H. destruct H as (c & H & [= <-]). apply R1 in H. split; [reflexivity|]. split; [reflexivity|exact H].
    + intros (E1 & E2 & H). apply R1 in H. rewrite H. cbn [bind]. destruct r as [rn rc rr]. cbn in *. subst. reflexivity.
  - rewrite <- R2. destruct (read_element body patterns); cbn; split; congruence.
  - destruct (read_element body patterns); cbn; congruence.
Qed.
Lemma mapM_panic {A B} (f : A -> res B) l : (forall x, In x l -> f x <> NoFuel) -> (mapM f l = Panic <-> exists a x b, l = a ++ x :: b /\ Forall (fun y => exists z, f y = Ok z) a /\ f x = Panic) /\ mapM f l <> NoFuel.
Proof.
  induction l as [|x l IH]; intros H.
  - split; [|discriminate]. split; [discriminate|]. intros (a & x & b & E & _). destruct a; discriminate.
  - destruct (IH (fun y Hy => H y (or_intror Hy))) as [IH1 IH2]. cbn [mapM]. assert (Nx := H x (or_introl eq_refl)). destruct (f x) as [y| | |] eqn:E; cbn [bind]; [| | |contradiction].
    + split.
      * assert (K : (let* zs := mapM f l in Ok (y :: zs)) = Panic <-> mapM f l = Panic) by (destruct (mapM f l); cbn; split; congruence).
        rewrite K, IH1. split.
        -- intros (a & z & b & -> & F & P). exists (x :: a), z, b. split; [reflexivity|]. split; [constructor; [eauto|exact F]|exact P].
        -- intros (a & z & b & El & F & P). destruct a as [|a0 a]; [injection El as -> ->; congruence|]. injection El as -> ->. inversion F; subst. eauto 10.
      * destruct (mapM f l); cbn; try discriminate. contradiction.
    + split; [|discriminate]. split; [discriminate|]. intros (a & z & b & El & F & P). destruct a as [|a0 a]; [injection El as -> ->; congruence|]. injection El as -> ->. inversion F as [|? ? [w Hw]]; subst. congruence.
    + split; [|discriminate]. split; [|reflexivity]. intros _. exists [], x, l. split; [reflexivity|]. split; [constructor|exact E].
Qed.
Lemma unique_now_iff {A} (name : A -> bytes) l t : unique_table_now name (Some l) = Ok t -> l <> [] /\ NoDup (map name l) /\ table_all t = l /\ forall k y, table_find t k = Ok y <-> In y l /\ name y = k.
Proof.
  intros H. assert (H' : unique_table_now name (run list_step None [LWithList (Some l)]) = Ok t) by exact H. apply unique_table_exact in H'. destruct H' as (E & Ne & Nd & F). cbn in E. injection E as E. rewrite <- E in *. auto.
Qed.
Lemma unique_now_ok {A} (name : A -> bytes) l : l <> [] -> NoDup (map name l) -> exists t, unique_table_now name (Some l) = Ok t.
Proof.
  intros Ne Nd. unfold unique_table_now. destruct l as [|x l]; [contradiction|]. cbn [norm_list]. destruct (proj2 (fill_unique_spec name (x :: l) [])) as [m' Em]; [split; [exact Nd|intros; reflexivity]|]. rewrite Em. cbn. eauto.
Qed.
Lemma unique_now_tame {A} (name : A -> bytes) s : tame (unique_table_now name s).
Proof. destruct (unique_now_err_or_ok name s) as [[t ->]| ->]; split; discriminate. Qed.
Lemma to_rules_exact text rs : (exists t, to_rules text patterns = Ok t /\ table_all t = rs) <-> means_rules (find_pattern patterns) text rs.
Proof.
  destruct (rules_found text) as (rd & D & E). unfold to_rules. rewrite all_rule, E.
  assert (Q : Forall (fun d => rule_name (fst d)) rd) by (apply (declares_all_sound (opens_tight rule_name) _ text rd (fun u x H => proj2 H) D)). rewrite Forall_forall in Q.
  assert (M : mapM (read_rule patterns) (map rule_match_of rd) = Ok rs <-> Forall2 (rule_of (find_pattern patterns)) rd rs).
  { rewrite mapM_iff, Forall2_map_l. apply Forall2_iff. intros d r I. apply read_rule_iff. exact (Q d I). }
  split.
  - intros (t & H & Et). apply bind_ok in H. destruct H as (l & Hl & H). apply unique_now_iff in H. destruct H as (Ne & Nd & Ea & _). assert (El := eq_trans (eq_sym Ea) Et). rewrite El in Hl, Ne, Nd. exists rd. split; [exact D|]. split; [apply M; exact Hl|]. auto.
  - intros (rd' & D' & F & Ne & Nd). rewrite (declares_all_fun _ fun_rule _ _ _ D' D) in F. apply M in F. rewrite F. cbn [bind]. destruct (unique_now_ok rl_name rs Ne Nd) as [t Ht]. exists t. split; [exact Ht|]. apply unique_now_iff in Ht. tauto.
Qed.
Lemma to_rules_find text t : to_rules text patterns = Ok t -> forall k r, table_find t k = Ok r <-> In r (table_all t) /\ rl_name r = k.
Proof. unfold to_rules. intros H. apply bind_ok in H. destruct H as (l & _ & H). apply unique_now_iff in H. destruct H as (_ & _ & -> & F). exact F. Qed.
Lemma to_rules_panic text : (to_rules text patterns = Panic <-> exists before d after, declares_all (opens_tight rule_name) text (before ++ d :: after) /\
    Forall (fun x => exists r, rule_of (find_pattern patterns) x r) before /\ unbracketed (hide_quotes (snd d))) /\ to_rules text patterns <> NoFuel.
Proof.
  destruct (rules_found text) as (rd & D & E). unfold to_rules. rewrite all_rule, E.
  assert (Q : Forall (fun d => rule_name (fst d)) rd) by (apply (declares_all_sound (opens_tight rule_name) _ text rd (fun u x H => proj2 H) D)). rewrite Forall_forall in Q.
  destruct (mapM_panic (read_rule patterns) (map rule_match_of rd)) as [M1 M2]. { intros m Hm. apply in_map_iff in Hm. destruct Hm as (d & <- & I). apply (read_rule_iff d (Q d I)). }
  split.
  - assert (K : (let* l := mapM (read_rule patterns) (map rule_match_of rd) in unique_table_now rl_name (Some l)) = Panic <-> mapM (read_rule patterns) (map rule_match_of rd) = Panic).
    { destruct (mapM (read_rule patterns) (map rule_match_of rd)) as [l| | |]; cbn [bind]; try (split; congruence). split; [intros H; exfalso; exact (proj1 (unique_now_tame rl_name (Some l)) H)|discriminate]. }
    rewrite K, M1. split.
    + intros (a & x & b & Em & F & P). apply map_eq_app in Em. destruct Em as (rd1 & rd2 & -> & <- & Em). destruct rd2 as [|d rd2]; [discriminate|]. injection Em as <- <-. exists rd1, d, rd2. split; [exact D|]. split.
      * apply Forall_forall. intros x Hx. rewrite Forall_forall in F. destruct (F (rule_match_of x) (in_map _ _ _ Hx)) as [r Hr]. exists r. apply (read_rule_iff x (Q x ltac:(apply in_or_app; left; exact Hx))). exact Hr.
      * apply (read_rule_iff d (Q d ltac:(apply in_or_app; right; left; reflexivity))). exact P.
    + intros (rd1 & d & rd2 & D' & F & P). assert (Er := declares_all_fun _ fun_rule _ _ _ D D'). subst rd. exists (map rule_match_of rd1), (rule_match_of d), (map rule_match_of rd2). split; [rewrite map_app; reflexivity|]. split.
      * apply Forall_forall. intros m Hm. apply in_map_iff in Hm. destruct Hm as (x & <- & I). rewrite Forall_forall in F. destruct (F x I) as [r Hr]. exists r. apply (read_rule_iff x (Q x ltac:(apply in_or_app; left; exact I))). exact Hr.
      * apply (read_rule_iff d (Q d ltac:(apply in_or_app; right; left; reflexivity))). exact P.
  - destruct (mapM (read_rule patterns) (map rule_match_of rd)) as [l| | |]; cbn [bind]; try congruence. exact (proj2 (unique_now_tame rl_name (Some l))).
Qed.
End RuleTexts.
(* ---- what a constant cannot contain ---- *)
Lemma hide_no x s : ~ In x s -> x <> "#"%byte -> ~ In x (hide_quotes s).
Proof.
  assert (K : forall n s, length s <= n -> ~ In x s -> x <> "#"%byte -> ~ In x (hide_quotes s)).
  { induction n as [|n IH]; intros t L N Nh.
    - destruct t; [exact N|cbn in L; lia].
    - destruct t as [|a [|b r]]; [exact N|exact N|].
      change (hide_quotes (a :: b :: r)) with (if Byte.eqb a backslash && Byte.eqb b dq then escape_code ++ hide_quotes r else a :: hide_quotes (b :: r)). destruct (Byte.eqb a backslash && Byte.eqb b dq).
      + rewrite in_app_iff. intros [[H|[H|[H|[]]]]|H]; try (apply Nh; symmetry; exact H). revert H. apply IH; [cbn in L; lia| |exact Nh]. intros K. apply N. right. right. exact K.
      + intros [H|H]; [apply N; left; exact H|]. revert H. apply IH; [cbn in *; lia| |exact Nh]. intros K. apply N. right. exact K. }
  apply (K (length s)). lia.
Qed.
Lemma show_cons s : s <> [] -> exists b t, show_quotes s = b :: show_quotes t /\ length t < length s /\ ((b = dq /\ s = escape_code ++ t) \/ (s = b :: t /\ forall r, s <> escape_code ++ r)) /\ (forall x, In x t -> In x s).
Proof.
  destruct s as [|a [|b [|c r]]]; intros N; [contradiction| | |].
  - exists a, []. split; [reflexivity|]. split; [cbn; lia|]. split; [|intros x []]. right. split; [reflexivity|]. intros r E. discriminate.
  - exists a, [b]. split; [reflexivity|]. split; [cbn; lia|]. split; [|intros x [H|[]]; right; left; exact H]. right. split; [reflexivity|]. intros r E. discriminate.
  - change (show_quotes (a :: b :: c :: r)) with (if bytes_eqb [a; b; c] escape_code then dq :: show_quotes r else a :: show_quotes (b :: c :: r)). destruct (bytes_eqb [a; b; c] escape_code) eqn:E.
    + apply bytes_eqb_eq in E. exists dq, r. split; [reflexivity|]. split; [cbn; lia|]. split; [|intros x H; right; right; right; exact H]. left. split; [reflexivity|]. change (a :: b :: c :: r) with ([a; b; c] ++ r). rewrite E. reflexivity.
    + exists a, (b :: c :: r). split; [reflexivity|]. split; [cbn; lia|]. split; [|intros x H; right; exact H]. right. split; [reflexivity|]. intros t Et. injection Et as -> -> -> _. discriminate.
Qed.
Lemma show_no x s : ~ In x s -> x <> dq -> ~ In x (show_quotes s).
Proof.
  assert (K : forall n s, length s <= n -> ~ In x s -> x <> dq -> ~ In x (show_quotes s)).
  { induction n as [|n IH]; intros t L N Nd; (destruct (list_eq_dec Byte.byte_eq_dec t []) as [->|Ne]; [intros []|]).
    - destruct t; [contradiction|cbn in L; lia].
    - destruct (show_cons t Ne) as (b & u & -> & Lu & Hb & Hi). intros [H|H].
      + subst b. destruct Hb as [[-> _]|[-> _]]; [contradiction|]. apply N. left. reflexivity.
      + revert H. apply IH; [lia| |exact Nd]. intros H. apply N. apply Hi. exact H. }
  apply (K (length s)). lia.
Qed.
Lemma show_hash s r : show_quotes s = "#"%byte :: r -> exists t, s = "#"%byte :: t /\ r = show_quotes t /\ forall z, s <> escape_code ++ z.
Proof.
  intros E. assert (Ne : s <> []) by (intros ->; discriminate). destruct (show_cons s Ne) as (b & t & E' & _ & [[-> _]|[Hs Hz]] & _); rewrite E' in E; [discriminate|]. injection E as -> <-. eauto.
Qed.
Lemma show_no_code s a b : show_quotes s <> a ++ escape_code ++ b.
Proof.
  assert (K : forall n s a, length s <= n -> show_quotes s <> a ++ escape_code ++ b).
  { induction n as [|n IH]; intros t a0 L E.
    - destruct t; [destruct a0; discriminate|cbn in L; lia].
    - assert (Ne : t <> []) by (intros ->; destruct a0; discriminate). destruct a0 as [|x a0].
      + cbn in E. destruct (show_hash t _ E) as (t1 & -> & E1 & Hz). symmetry in E1. destruct (show_hash t1 _ E1) as (t2 & -> & E2 & _). symmetry in E2. destruct (show_hash t2 _ E2) as (t3 & -> & _). exact (Hz t3 eq_refl).
      + destruct (show_cons t Ne) as (c & u & E' & Lu & _). rewrite E' in E. injection E as _ E. exact (IH u a0 ltac:(lia) E). }
  apply (K (length s)). lia.
Qed.
Lemma declared_no_semi is_name text rd : declares_all (opens_tight is_name) text rd -> Forall (fun d => ~ In semi (snd d)) rd.
Proof.
  intros (secs & tail & (_ & F & _) & D). induction D as [|s l xs N D IH|s l x xs Dx D IH]; [constructor|apply IH; inversion F; assumption|]. inversion F as [|? ? Ns F']; subst. constructor; [|apply IH; assumption].
  destruct Dx as (a & u & -> & [-> _] & _). intros K. apply Ns. apply in_or_app. right. apply in_or_app. right. right. exact K.
Qed.
Lemma rules_constants patterns text t r v : to_rules text patterns = Ok t -> In r (table_all t) -> rl_content r = RConstant v -> ~ In semi v /\ forall a b, v <> a ++ escape_code ++ b.
Proof.
  intros H I C. destruct (proj1 (to_rules_exact patterns text (table_all t)) (ex_intro _ t (conj H eq_refl))) as (rd & D & F & _). apply declared_no_semi in D.
  assert (exists d, In d rd /\ rule_of (find_pattern patterns) d r) as (d & Id & _ & _ & K). { clear - F I. induction F as [|d r' rd rs Hd F IH]; [destruct I|]. destruct I as [->|I]; [exists d; split; [left; reflexivity|exact Hd]|]. destruct (IH I) as (d' & I' & K). exists d'. split; [right; exact I'|exact K]. }
  rewrite Forall_forall in D. specialize (D d Id). assert (N : ~ In semi (hide_quotes (snd d))) by (apply hide_no; [exact D|discriminate]). rewrite C in K. inversion K as [p c rest E S Nc Ev|p U S Ne Hno Ev|]; subst.
  - split; [|intros a b; apply show_no_code]. apply show_no; [|discriminate]. intros X. apply N. rewrite E. apply in_or_app. right. right. apply in_or_app. left. exact X.
  - split; [intros []|]. intros a b E. destruct a; discriminate.
Qed.
