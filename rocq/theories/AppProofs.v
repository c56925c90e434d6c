(* AppProofs.v - the tables an application makes of texts are well-formed. *)
From Coq Require Import Strings.String Strings.Byte Lia.
From Verif Require Import Go GoLemmas DomainModel DomainSpec DomainProofs CardModel PatModel RuleModel RuleProofs PathModel PathSpec PathProofs Regex TextModel TextSpec TextProofs TextProofs2 TextProofs3 TextProofs4 TextProofs5 SuiteModel SuiteSpec AppModel.
Open Scope list_scope.

Lemma mapM_Forall {A B} (P : B -> Prop) (f : A -> res B) l ys : (forall x y, In x l -> f x = Ok y -> P y) -> mapM f l = Ok ys -> Forall P ys.
Proof.
  revert ys. induction l as [|x l IH]; intros ys H E; cbn in E; [injection E as <-; constructor|].
  destruct (f x) as [y| | |] eqn:E1; try discriminate. cbn in E. destruct (mapM f l) as [zs| | |] eqn:E2; try discriminate. injection E as <-.
  constructor; [apply (H x y); [left; reflexivity|exact E1]|]. apply IH; [|reflexivity]. intros x' y' I. apply H. right. exact I.
Qed.
Lemma bytes_nonempty (s : bytes) : s <> [] -> non_empty s = true. Proof. destruct s; [contradiction|reflexivity]. Qed.
Lemma split_nonempty sep s : non_empty (strsplit sep s) = true.
Proof.
  unfold strsplit. generalize 0 (@nil byte). induction s as [|c s IH]; intros k cur; cbn; [reflexivity|].
  destruct k; [destruct (has_prefix sep (c :: s)); [reflexivity|apply IH]|apply IH].
Qed.
Lemma table_find_in {A} (name : A -> bytes) l k (x : A) : table_find (l, fold_left (fun m x => minsert m (name x) x) l []) k = Ok x -> In x l /\ name x = k.
Proof. intros H. apply last_find in H. destruct H as (a & b & -> & N & _). split; [apply in_or_app; right; left; reflexivity|exact N]. Qed.
Lemma last_now_in {A} (name : A -> bytes) o t k (x : A) : last_table_now name o = Ok t -> table_find t k = Ok x -> In x (table_all t).
Proof.
  unfold last_table_now. destruct (norm_list o) as [l|]; [|discriminate]. intros [= <-] H. apply table_find_in in H. exact (proj1 H).
Qed.
Lemma last_now_all {A} (name : A -> bytes) o t : last_table_now name o = Ok t -> o = Some (table_all t) /\ non_empty (table_all t) = true.
Proof. unfold last_table_now. destruct o as [[|x l]|]; cbn; try discriminate. intros [= <-]. split; reflexivity. Qed.
Lemma group_name_ne n : group_name n -> n <> []. Proof. intros (w & -> & _). discriminate. Qed.
Lemma serie_name_ne n : serie_name n -> n <> []. Proof. intros (b & w & -> & _). discriminate. Qed.
Lemma pattern_name_ne n : pattern_name n -> n <> []. Proof. intros (b & w & -> & _). discriminate. Qed.
Lemma naming_ok is_name (l : list (bytes * bytes)) r : naming is_name l r -> Forall (fun d => fst d <> []) l -> Forall (fun d => fst d <> [] /\ snd d <> []) r.
Proof. induction 1; intros F; [constructor|inversion F; auto|]. inversion F; subst. constructor; [split; assumption|auto]. Qed.
Lemma Forall2_Forall_r {A B} (R : A -> B -> Prop) (P : A -> Prop) (Q : B -> Prop) l r : (forall x y, R x y -> P x -> Q y) -> Forall2 R l r -> Forall P l -> Forall Q r.
Proof. intros H F. induction F; intros G; inversion G; subst; constructor; eauto. Qed.
Lemma Forall2_ne {A B} (R : A -> B -> Prop) l r : Forall2 R l r -> l <> [] -> non_empty r = true.
Proof. intros F. destruct F; [contradiction|reflexivity]. Qed.
Lemma forallb_In {A} (f : A -> bool) l : (forall x, In x l -> f x = true) -> forallb f l = true. Proof. intros H. apply forallb_forall. exact H. Qed.
Lemma last_named_in {A} (name : A -> bytes) l k x : last_named name l k x -> In x l /\ name x = k.
Proof. intros (a & b & -> & N & _). split; [apply in_or_app; right; left; reflexivity|exact N]. Qed.
Lemma means_patterns_ok text ps : means_patterns text ps -> Forall (fun p => pattern_ok p = true) ps.
Proof.
  intros (gd & groups & sd & sn & series & pd & pn & D1 & F1 & _ & D2 & N2 & F2 & D3 & N3 & F3 & _).
  assert (Q1 : Forall (fun d : bytes * bytes => fst d <> []) gd) by (apply (declares_all_sound _ _ _ gd (fun u (x : bytes * bytes) H => match H with ex_intro _ _ (ex_intro _ _ (ex_intro _ _ (conj _ (conj K _)))) => group_name_ne _ K end) D1)).
  assert (Q2 : Forall (fun d : bytes * bytes => fst d <> []) sd) by (apply (declares_all_sound _ _ _ sd (fun u (x : bytes * bytes) H => match H with ex_intro _ _ (conj _ (conj K _)) => serie_name_ne _ K end) D2)).
  assert (Q3 : Forall (fun d : bytes * bytes => fst d <> []) pd) by (apply (declares_all_sound _ _ _ pd (fun u (x : bytes * bytes) H => match H with ex_intro _ _ (conj _ (conj K _)) => pattern_name_ne _ K end) D3)).
  assert (G : Forall (fun g => group_ok g = true) groups).
  { refine (Forall2_Forall_r _ _ _ _ _ _ F1 Q1). intros d g (Hn & os & (Hp & _) & Ho) Hd. unfold group_ok. apply andb_true_intro. split; [apply bytes_nonempty; rewrite Hn; exact Hd|apply (Forall2_ne _ _ _ Ho Hp)]. }
  assert (S : Forall (fun s => serie_ok s = true) series).
  { refine (Forall2_Forall_r _ _ _ _ _ _ F2 (naming_ok _ _ _ N2 Q2)). intros d s (Hn & Hl) (Hd & He). unfold serie_ok. apply andb_true_intro. split; [apply andb_true_intro; split; [apply bytes_nonempty; rewrite Hn; exact Hd|apply (Forall2_ne _ _ _ Hl He)]|]. apply forallb_In. intros g Hg.
    rewrite Forall_forall in G. clear - Hl Hg G. induction Hl as [|k x ks xs H F IH]; [destruct Hg|]. destruct Hg as [<-|Hg]; [apply G, (last_named_in _ _ _ _ H)|auto]. }
  refine (Forall2_Forall_r _ _ _ _ _ _ F3 (naming_ok _ _ _ N3 Q3)). intros d p (Hn & Hl) (Hd & He). unfold pattern_ok. apply andb_true_intro. split; [apply andb_true_intro; split; [apply bytes_nonempty; rewrite Hn; exact Hd|apply (Forall2_ne _ _ _ Hl He)]|]. apply forallb_In. intros c Hc.
  rewrite Forall_forall in S. clear - Hl Hc S. induction Hl as [|k x ks xs H F IH]; [destruct Hc|]. destruct Hc as [<-|Hc]; [|auto].
  destruct H as [(_ & _ & H)|(_ & m & _ & H)]; apply S, (last_named_in _ _ _ _ H).
Qed.
Lemma to_patterns_ok text t : to_patterns text = Ok t -> Forall (fun p => pattern_ok p = true) (table_all t).
Proof. intros H. apply to_patterns_exact in H. destruct H as (ps & M & ->). apply (means_patterns_ok text). exact M. Qed.
Lemma patterns_find_ok text t k p : to_patterns text = Ok t -> table_find t k = Ok p -> pattern_ok p = true.
Proof. intros H F. assert (G := to_patterns_ok _ _ H). rewrite Forall_forall in G. apply G. apply to_patterns_exact in H. destruct H as (ps & _ & ->). apply table_find_in in F. apply F. Qed.

Lemma read_rule_ok pt patterns m r : to_patterns pt = Ok patterns -> read_rule (Some patterns) m = Ok r -> rule_ok r = true.
Proof.
  intros Hp. unfold read_rule. intros H. apply bind_ok in H. destruct H as (c & Hc & H).
  destruct (trim_space (m_cap m 1)) as [|n0 n] eqn:En; [discriminate|]. destruct (m_text m) as [|t0 t] eqn:Et; [discriminate|]. injection H as <-. unfold rule_ok. cbn [rl_name rl_code rl_content non_empty andb].
  unfold read_element in Hc. destruct (find_submatch _ _) as [x|]; [|discriminate]. destruct (trim_space (m_cap x 1)) as [|p0 p].
  - destruct (replace_all escape_code [dq] (m_text x)); [discriminate|]. injection Hc as <-. reflexivity.
  - apply bind_ok in Hc. destruct Hc as (y & Hy & Hc). destruct (m_text x); [discriminate|]. injection Hc as <-. unfold read_rule_pattern in Hy.
    destruct (find_submatch _ _) as [z|]; [|discriminate]. apply bind_ok in Hy. destruct Hy as (cc & _ & Hy). apply bind_ok in Hy. destruct Hy as (l & Hl & Hy). apply bind_ok in Hy. destruct Hy as (tb & Ht & Hy). injection Hy as <-.
    apply last_now_all in Ht. destruct Ht as ([= ->] & Ne). cbn. rewrite Ne. apply forallb_forall. apply Forall_forall. refine (mapM_Forall _ _ _ _ _ Hl). intros nq q _ Hq. apply (patterns_find_ok _ _ _ _ Hp Hq).
Qed.
Lemma to_rules_ok pt patterns text t : to_patterns pt = Ok patterns -> to_rules text (Some patterns) = Ok t -> Forall (fun r => rule_ok r = true) (table_all t).
Proof.
  intros Hp H. unfold to_rules in H. apply bind_ok in H. destruct H as (l & Hl & H). apply unique_now_iff in H. destruct H as (_ & _ & E & _). rewrite E. refine (mapM_Forall _ _ _ _ _ Hl). intros x r _ Hr. apply (read_rule_ok _ _ _ _ Hp Hr).
Qed.
Lemma rules_find_ok pt patterns text t k r : to_patterns pt = Ok patterns -> to_rules text (Some patterns) = Ok t -> table_find t k = Ok r -> rule_ok r = true.
Proof. intros Hp H F. assert (G := to_rules_ok _ _ _ _ Hp H). rewrite Forall_forall in G. apply G. apply (to_rules_find _ _ _ H) in F. apply F. Qed.

Section Tokens.
Variable rules : table rule.
Hypothesis Hr : forall k r, table_find rules k = Ok r -> rule_ok r = true.
Lemma rule_ok_name r : rule_ok r = true -> non_empty (rl_name r) = true.
Proof. unfold rule_ok. intros H. apply andb_prop in H. destruct H as [H _]. apply andb_prop in H. apply H. Qed.
Lemma read_specifier_ok m s : read_specifier rules m = Ok s -> tspec_ok s = true.
Proof.
  unfold read_specifier. cbn [bind]. intros H. apply bind_ok in H. destruct H as (n & Hn & H). apply bind_ok in H. destruct H as (c & _ & H).
  destruct (m_cap m 1) as [|a0 a] eqn:E1, (m_cap m 2) as [|b0 b] eqn:E2; try discriminate; destruct c; try discriminate; injection H as <-; unfold tspec_ok; cbn [ts_name].
  - apply bind_ok in Hn. destruct Hn as (r & Hf & [= <-]). apply rule_ok_name, (Hr _ _ Hf).
  - injection Hn as <-. reflexivity.
  - apply bind_ok in Hn. destruct Hn as (r & Hf & [= <-]). apply rule_ok_name, (Hr _ _ Hf).
Qed.
Lemma read_specifiers_ok text o : read_specifiers rules text = Ok o -> match o with Some l => non_empty l && forallb tspec_ok l | None => true end = true.
Proof.
  unfold read_specifiers. destruct (trim_space text) as [|c t]; [intros [= <-]; reflexivity|]. intros H. apply bind_ok in H. destruct H as (l & Hl & H). apply bind_ok in H. destruct H as (x & Hx & [= <-]).
  apply last_now_all in Hx. destruct Hx as ([= ->] & ->). cbn [andb]. apply forallb_forall, Forall_forall. refine (mapM_Forall _ _ _ _ _ Hl). intros y s _. apply read_specifier_ok.
Qed.
Lemma read_instruction_ok m l : read_instruction rules m = Ok l -> forallb tinstr_ok l = true.
Proof.
  unfold read_instruction. cbv zeta. intros H. apply bind_ok in H. destruct H as (a & Ha & H). apply bind_ok in H. destruct H as (b & Hb & [= <-]). rewrite !forallb_app. apply andb_true_intro. split; [destruct (bytes_eqb _ _); reflexivity|].
  apply andb_true_intro. split.
  - destruct (m_cap m 1); [injection Ha as <-; reflexivity|]. apply bind_ok in Ha. destruct Ha as (x & Hx & [= <-]). unfold read_token_element in Hx. apply bind_ok in Hx. destruct Hx as (s & Hs & Hx). destruct (m_cap m 2) as [|n0 n] eqn:En; [discriminate|].
    apply bind_ok in Hx. destruct Hx as (c & _ & [= <-]). cbn. unfold tref_ok. cbn [tr_name tr_specs non_empty andb]. rewrite andb_true_r. apply (read_specifiers_ok _ _ Hs).
  - destruct (m_cap m 12); [injection Hb as <-; reflexivity|]. apply bind_ok in Hb. destruct Hb as (x & Hx & [= <-]). unfold read_rule_element in Hx. apply bind_ok in Hx. destruct Hx as (r & Hf & Hx). apply bind_ok in Hx. destruct Hx as (c & _ & [= <-]). cbn.
    rewrite (Hr _ _ Hf). reflexivity.
Qed.
Lemma read_instructions_ok l x : read_instructions rules l = Ok x -> forallb tinstr_ok x = true.
Proof.
  revert x. induction l as [|m l IH]; intros x H; cbn in H; [injection H as <-; reflexivity|]. apply bind_ok in H. destruct H as (a & Ha & H). apply bind_ok in H. destruct H as (b & Hb & [= <-]).
  rewrite forallb_app, (read_instruction_ok _ _ Ha), (IH _ Hb). reflexivity.
Qed.
Lemma read_line_ok text l : read_line rules text = Ok l -> tline_ok l = true.
Proof.
  unfold read_line. intros H. apply bind_ok in H. destruct H as (x & Hx & H). destruct x as [|i x]; [discriminate|]. injection H as <-. unfold tline_ok. cbn [non_empty]. apply (read_instructions_ok _ _ Hx).
Qed.
Lemma read_lines_ok text l : read_lines rules text = Ok l -> non_empty l = true /\ forallb tline_ok l = true.
Proof.
  unfold read_lines. intros H. split.
  - assert (N := split_nonempty (bs "|") text). destruct (strsplit _ text); [discriminate|]. cbn in H. apply bind_ok in H. destruct H as (a & _ & H). apply bind_ok in H. destruct H as (bb & _ & [= <-]). reflexivity.
  - apply forallb_forall, Forall_forall. refine (mapM_Forall _ _ _ _ _ H). intros x y _. apply read_line_ok.
Qed.
Lemma read_block_ok text b : read_block rules text = Ok b -> non_empty (fst b) = true /\ forallb tline_ok (fst b) = true /\ match snd b with Some l => non_empty l && forallb tline_ok l | None => true end = true.
Proof.
  unfold read_block. destruct (strsplit _ text) as [|a [|c r]]; [discriminate| |]; intros H; apply bind_ok in H; destruct H as (m & Hm & H); destruct (read_lines_ok _ _ Hm) as [H1 H2].
  - injection H as <-. auto.
  - apply bind_ok in H. destruct H as (t & _ & H). apply bind_ok in H. destruct H as (n & Hn & [= <-]). cbn [fst snd]. destruct (read_lines_ok _ _ Hn) as [-> ->]. auto.
Qed.
Lemma read_token_ok m x : read_token rules m = Ok x -> token_ok (fst x) = true.
Proof.
  unfold read_token. intros H. apply bind_ok in H. destruct H as (s & _ & H). apply bind_ok in H. destruct H as (b & Hb & H). destruct (m_cap m 2) as [|n0 n]; [discriminate|]. injection H as <-.
  destruct (read_block_ok _ _ Hb) as (H1 & H2 & H3). unfold token_ok. cbn [fst t_name t_must t_not non_empty andb]. rewrite H1, H2, H3. reflexivity.
Qed.
Lemma read_token_tests m x l : read_token rules m = Ok x -> snd x = Some l -> l <> [] /\ Forall (fun t => t <> []) l.
Proof.
  unfold read_token. intros H. apply bind_ok in H. destruct H as (s & Hs & H). apply bind_ok in H. destruct H as (b & _ & H). destruct (m_cap m 2) as [|n0 n]; [discriminate|]. injection H as <-. cbn [snd]. intros E.
  unfold read_suite in Hs. destruct (strsplit _ _) as [|a [|c r]]; [discriminate|injection Hs as <-; discriminate|]. apply bind_ok in Hs. destruct Hs as (t & _ & Hs).
  destruct (filter _ _) as [|y ys] eqn:F; [discriminate|]. injection Hs as <-. cbn in E. injection E as <-. split; [discriminate|]. rewrite <- F. apply Forall_forall. intros z Hz. apply filter_In in Hz. destruct Hz as [_ Hz]. destruct z; [discriminate|]. discriminate.
Qed.
Lemma to_tokens_good text r : to_tokens rules text = Ok r -> good_table (fst r).
Proof.
  unfold to_tokens. intros H. apply bind_ok in H. destruct H as (l & Hl & H). apply bind_ok in H. destruct H as (t & Ht & [= <-]). cbn [fst]. split.
  - exists [LWithList (Some (map fst l))]. exact Ht.
  - apply unique_now_iff in Ht. destruct Ht as (_ & _ & -> & _). apply Forall_forall. intros y Hy. apply in_map_iff in Hy. destruct Hy as (x & <- & Hx).
    assert (F := mapM_Forall (fun x => token_ok (fst x) = true) _ _ _ (fun m y _ => read_token_ok m y) Hl). rewrite Forall_forall in F. apply F. exact Hx.
Qed.
Lemma to_tokens_tests text r n l : to_tokens rules text = Ok r -> tests_of (snd r) n = Some l -> l <> [] /\ Forall (fun t => t <> []) l.
Proof.
  unfold to_tokens. intros H. apply bind_ok in H. destruct H as (xs & Hl & H). apply bind_ok in H. destruct H as (t & Ht & [= <-]). cbn [snd]. unfold tests_of.
  destruct (find _ _) as [[k o]|] eqn:F; [|discriminate]. intros ->. apply find_some in F. destruct F as [F _]. apply in_map_iff in F. destruct F as (x & [= _ E] & Hx).
  assert (G := mapM_Forall (fun x => forall l, snd x = Some l -> l <> [] /\ Forall (fun t => t <> []) l) _ _ _ (fun m y _ Hy l => read_token_tests m y l Hy) Hl). rewrite Forall_forall in G. apply (G x Hx). exact E.
Qed.
End Tokens.
