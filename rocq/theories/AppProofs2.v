(* AppProofs2.v - the calls of the lexer application. *)
From Coq Require Import Strings.String Strings.Byte Lia.
From Verif Require Import Go GoLemmas DomainModel DomainSpec DomainProofs CardModel PatModel RuleModel RuleProofs PathModel PathSpec PathProofs LexModel AstModel RootModel SuiteModel SuiteSpec SuiteProofs Regex TextModel TextSpec TextTokSpec TextRefSpec TextProofs TextProofs2 TextProofs3 TextProofs4 TextProofs5 TextTokProofs5 TextRefProofs3 AppModel AppSpec AppProofs.
Open Scope list_scope.

(* ---- an include is never read ---- *)
Lemma link_fails rf tf sub l m : link_to_path rf tf sub l m = (Err, m).
Proof. unfold link_to_path. destruct (rf _) as [a|]; [|reflexivity]. destruct (tf _) as [b|]; reflexivity. Qed.
Lemma not_found_paths rf tf sub l out m : fetch_not_found_paths rf tf sub l out m = match l with [] => (Ok out, m) | _ => (Err, m) end.
Proof. destruct l as [|x l]; cbn [fetch_not_found_paths]; [reflexivity|]. rewrite link_fails. reflexivity. Qed.

(* the same, without the includes *)
Definition bind_state {A B} (r : res A * replacements) (f : A -> replacements -> res B * replacements) : res B * replacements :=
  match r with (Ok a, m) => f a m | (Err, m) => (Err, m) | (Panic, m) => (Panic, m) | (NoFuel, m) => (NoFuel, m) end.
Definition local_path (c : texts) (refs : bool) (name : bytes) (m : replacements) : res path :=
  let* x := create_root_token name c [] in
  if refs then Err else fst (to_path (snd (fst x)) none (replacing m) pstate_init (fst (fst x))).
Definition has_refs (refs : references) : bool := match links_list (rf_references refs) with [] => false | _ => true end.
Lemma not_found_none : fetch_not_found_fn [] = none. Proof. reflexivity. Qed.
Lemma path_skip_is rf tf sub c name m refs : to_references (ct_tokens c) = Ok refs ->
  path_skip rf tf sub {| rt_root := name; rt_rest := c |} m = (local_path c (has_refs refs) name m, m).
Proof.
  intros E. unfold path_skip, local_path, has_refs. cbn [rt_root rt_rest]. rewrite E. destruct (create_root_token name c []) as [[[t T] o]| | |]; cbn [bind]; try reflexivity.
  rewrite not_found_paths. destruct (links_list _); reflexivity.
Qed.
Fixpoint replace_all_paths (c : texts) (refs : bool) (l : list link) (m : replacements) : res unit * replacements :=
  match l with
  | [] => (Ok tt, m)
  | x :: r =>
    match (if bytes_eqb (lk_local x) [] then Err else local_path c refs (lk_local x) m) with
    | Ok p => replace_all_paths c refs r (minsert m (lk_reference x) p)
    | Err => (Err, m) | Panic => (Panic, m) | NoFuel => (NoFuel, m)
    end
  end.
Lemma replacement_paths rf tf sub c refs : to_references (ct_tokens c) = Ok refs -> forall l m,
  fetch_replacement_paths rf tf sub l c m = replace_all_paths c (has_refs refs) l m.
Proof.
  intros E. induction l as [|x l IH]; intros m; cbn [fetch_replacement_paths replace_all_paths]; [reflexivity|].
  unfold rt_now. cbn. destruct (lk_local x) as [|n0 n] eqn:En; [reflexivity|]. cbn [bytes_eqb]. rewrite (path_skip_is _ _ _ _ _ _ _ E). destruct (local_path c (has_refs refs) (n0 :: n) m); try reflexivity. apply IH.
Qed.
(* what a call does, without the includes *)
Definition plainly {A B} (made : res A) (c : texts) (m : replacements) (k : A -> (bytes -> option (PathModel.element * list PathModel.element)) -> res B) : res B * replacements :=
  match (let* x := made in let* refs := to_references (ct_tokens c) in Ok (x, refs)) with
  | Ok (x, refs) =>
    match replace_all_paths c (has_refs refs) (links_list (rf_replacements refs)) m with
    | (Ok _, m') => (if has_refs refs then Err else k x (replacing m'), m')
    | (Err, m') => (Err, m') | (Panic, m') => (Panic, m') | (NoFuel, m') => (NoFuel, m')
    end
  | Err => (Err, m) | Panic => (Panic, m) | NoFuel => (NoFuel, m)
  end.
Lemma with_functions_is rf tf sub A B (made : res A) c m (k : A -> _ -> _ -> res B) :
  with_functions rf tf sub made c m k = plainly made c m (fun x => k x none).
Proof.
  unfold with_functions, plainly. destruct made as [x| | |]; cbn [bind]; try reflexivity. destruct (to_references (ct_tokens c)) as [refs| | |] eqn:E; cbn [bind]; try reflexivity.
  unfold create_functions. rewrite (replacement_paths _ _ _ _ _ E). destruct (replace_all_paths _ _ _ m) as [[u| | |] m']; try reflexivity. rewrite not_found_paths. unfold has_refs. destruct (links_list (rf_references refs)); reflexivity.
Qed.
Definition call_path (m : replacements) (r : path_resource) : res path * replacements :=
  plainly (create_root_token (rt_root r) (rt_rest r) []) (rt_rest r) m (fun x rp => fst (to_path (snd (fst x)) none rp pstate_init (fst (fst x)))).
Lemma app_path_is rf tf n m r : app_path rf tf (S n) m r = call_path m r.
Proof. cbn [app_path]. unfold path_with. rewrite with_functions_is. unfold call_path, plainly. destruct (create_root_token _ _ _) as [[[t T] o]| | |]; try reflexivity. cbn [bind]. destruct (to_references _) as [refs| | |]; reflexivity. Qed.
Definition call_ast order lex_fuel (m : replacements) (r : single) (x : text_content) : res ast * replacements :=
  let c := mu_container (rt_rest r) in
  plainly (create_root_token (rt_root r) c (mu_channels (rt_rest r))) c m (fun y rp => lexer_says (snd (fst y)) rp (snd y) order lex_fuel (fst (fst y)) x).
Lemma app_ast_is rf tf order lf n m r x : app_ast rf tf order lf n m r x = call_ast order lf m r x.
Proof.
  unfold app_ast. cbv zeta. rewrite with_functions_is. unfold call_ast, plainly. cbv zeta. destruct (create_root_token _ _ _) as [[[t T] o]| | |]; try reflexivity. cbn [bind]. destruct (to_references _) as [refs| | |]; try reflexivity. cbn [bind].
  destruct (replace_all_paths _ _ _ m) as [[u| | |] m']; try reflexivity. destruct (has_refs refs); [reflexivity|]. cbn [fst snd]. unfold lexer_says. destruct (new_lexer T none (replacing m') t o) as [[p mm]| | |]; reflexivity.
Qed.
Definition call_tests order lex_fuel (m : replacements) (r : multiple) : res (list suite) * replacements :=
  plainly (create_tokens (mu_container r) (mu_channels r)) (mu_container r) m (fun x rp => execute_suites (fst (fst x)) (tests_of (snd (fst x))) (snd x) none rp order lex_fuel).
Lemma app_tests_is rf tf order lf n m r : app_tests rf tf order lf n m r = call_tests order lf m r.
Proof. unfold app_tests. rewrite with_functions_is. reflexivity. Qed.

(* ---- what the texts mean ---- *)
Lemma F2_impl {A B} (R S : A -> B -> Prop) l r : (forall x y, R x y -> S x y) -> Forall2 R l r -> Forall2 S l r.
Proof. intros H F. induction F; constructor; auto. Qed.
Lemma content_mono (P Q : bytes -> pattern -> Prop) body c : (forall n x, P n x -> Q n x) -> content_of P body c -> content_of Q body c.
Proof.
  intros H K. destruct K; [eapply content_constant; eassumption|eapply content_blank; eassumption|]. eapply content_pattern; try eassumption. eapply F2_impl; [|eassumption]. exact H.
Qed.
Lemma means_rules_mono (P Q : bytes -> pattern -> Prop) text rs : (forall n x, P n x -> Q n x) -> means_rules P text rs -> means_rules Q text rs.
Proof.
  intros H (rd & D & F & R). exists rd. split; [exact D|]. split; [|exact R]. eapply F2_impl; [|exact F]. intros d r (A & B & C). split; [exact A|]. split; [exact B|]. apply (content_mono P); assumption.
Qed.
Section Mono.
Variable P Q : bytes -> rule -> Prop.
Hypothesis H : forall n x, P n x -> Q n x.
Lemma spec_mono x y : spec_means P x y -> spec_means Q x y.
Proof. intros (A & B). split; [|exact B]. destruct (sf_rule x); [|exact A]. destruct A as (r & A & E). exists r. split; [apply H; exact A|exact E]. Qed.
Lemma token_mono e i : token_means P e i -> token_means Q e i.
Proof. intros K. destruct K as [e c l C S]. constructor; [exact C|]. unfold specs_mean in *. destruct (el_specs e); [|exact S]. destruct l; [|exact S]. destruct S as (N & xs & R & F). split; [exact N|]. exists xs. split; [exact R|]. eapply F2_impl; [|exact F]. apply spec_mono. Qed.
Lemma rulee_mono e i : rule_means P e i -> rule_means Q e i.
Proof. intros K. destruct K as [e r c F C]. constructor; [apply H; exact F|exact C]. Qed.
Lemma piece_mono p l : piece_means P p l -> piece_means Q p l.
Proof. intros K. destruct K; constructor; auto using token_mono, rulee_mono. Qed.
Lemma line_mono t l : line_means P t l -> line_means Q t l.
Proof. intros (N & u & ps & ls & A & B & F & E). split; [exact N|]. exists u, ps, ls. split; [exact A|]. split; [exact B|]. split; [|exact E]. eapply F2_impl; [|exact F]. apply piece_mono. Qed.
Lemma lines_mono t l : lines_mean P t l -> lines_mean Q t l.
Proof. intros (ts & A & F). exists ts. split; [exact A|]. eapply F2_impl; [|exact F]. apply line_mono. Qed.
Lemma block_mono t m n : block_means P t m n -> block_means Q t m n.
Proof.
  intros (u & ts & A & B & C). exists u, ts. split; [exact A|]. split; [apply lines_mono; exact B|]. destruct ts, n; try exact C. destruct C as (v & C & D). exists v. split; [exact C|]. apply lines_mono. exact D.
Qed.
Lemma means_tokens_mono text l : means_tokens P text l -> means_tokens Q text l.
Proof.
  intros (ds & D & F & R). exists ds. split; [exact D|]. split; [|exact R]. eapply F2_impl; [|exact F]. intros d x (A & b & B & C). split; [exact A|]. exists b. split; [exact B|]. apply block_mono. exact C.
Qed.
End Mono.
Lemma rules_of_texts c (tp : table pattern) (tr : table rule) : to_patterns (ct_patterns c) = Ok tp -> to_rules (ct_rules c) (Some tp) = Ok tr -> means_rules_of c (table_all tr).
Proof.
  intros Hp Hr. assert (Hp' := Hp). apply to_patterns_exact in Hp. destruct Hp as (ps & M & ->). exists ps. split; [exact M|].
  assert (K := proj1 (to_rules_exact _ _ _) (ex_intro _ tr (conj Hr eq_refl))). refine (means_rules_mono _ _ _ _ _ K). intros n x (t & [= <-] & F). apply last_find. exact F.
Qed.
Lemma texts_of_rules c rs : means_rules_of c rs -> exists tp tr, to_patterns (ct_patterns c) = Ok tp /\ to_rules (ct_rules c) (Some tp) = Ok tr /\ table_all tr = rs.
Proof.
  intros (ps & M & R). assert (E := proj2 (to_patterns_exact _ _) (ex_intro _ ps (conj M eq_refl))). eexists. 
  destruct (proj2 (to_rules_exact (Some (ps, fold_left (fun m x => minsert m (p_name x) x) ps [])) (ct_rules c) rs)) as (tr & A & B).
  - refine (means_rules_mono _ _ _ _ _ R). intros n x F. eexists. split; [reflexivity|]. apply last_find. exact F.
  - exists tr. split; [exact E|]. auto.
Qed.
Lemma tokens_exact tp tr c text l : to_patterns (ct_patterns c) = Ok tp -> to_rules (ct_rules c) (Some tp) = Ok tr ->
  ((exists t, to_tokens tr text = Ok (t, map (fun x => (t_name (fst x), snd x)) l) /\ table_for (map fst l) t) <-> means_tokens (named rl_name (table_all tr)) text l).
Proof.
  intros Hp Hr. assert (F := to_rules_find _ _ _ Hr). split.
  - intros K. apply (means_tokens_mono (fun n r => table_find tr n = Ok r)); [intros n x; apply F|]. apply to_tokens_exact. exact K.
  - intros K. apply (to_tokens_exact tr text l). apply (means_tokens_mono (named rl_name (table_all tr))); [intros n x; apply F|exact K].
Qed.
Lemma app_tokens_exact c l : (exists t, app_tokens c = Ok (t, map (fun x => (t_name (fst x), snd x)) l) /\ table_for (map fst l) t) <-> means_texts c l.
Proof.
  unfold app_tokens. split.
  - intros (t & H & K). apply bind_ok in H. destruct H as (tp & Hp & H). apply bind_ok in H. destruct H as (tr & Hr & H). exists (table_all tr). split; [apply (rules_of_texts _ _ _ Hp Hr)|]. apply (tokens_exact tp tr c); eauto.
  - intros (rs & R & T). apply texts_of_rules in R. destruct R as (tp & tr & Hp & Hr & <-). rewrite Hp. cbn [bind]. rewrite Hr. cbn [bind]. apply (tokens_exact tp tr c) in T; assumption.
Qed.
Lemma tokens_answer tp tr c text u : to_patterns (ct_patterns c) = Ok tp -> to_rules (ct_rules c) (Some tp) = Ok tr -> to_tokens tr text = Ok u ->
  exists l, means_tokens (named rl_name (table_all tr)) text l /\ table_for (map fst l) (fst u) /\ snd u = map (fun x => (t_name (fst x), snd x)) l.
Proof.
  intros Hp Hr Hu. destruct (to_tokens_inv _ _ _ Hu) as (l & E & A & F). exists l. assert (T : table_for (map fst l) (fst u)) by (split; assumption). split; [|split; [exact T|rewrite E; reflexivity]].
  apply (tokens_exact tp tr c); [assumption..|]. exists (fst u). split; [rewrite Hu, E at 1; reflexivity|exact T].
Qed.
Lemma create_exact c ch l k : (exists T C, create_tokens c ch = Ok ((T, map (fun x => (t_name (fst x), snd x)) l), C) /\ table_for (map fst l) T /\ channels_for k C) <-> means_grammar c ch l k.
Proof.
  unfold create_tokens. split.
  - intros (T & C & H & A & B). apply bind_ok in H. destruct H as (tp & Hp & H). apply bind_ok in H. destruct H as (tr & Hr & H). apply bind_ok in H. destruct H as (t & Ht & H).
    exists (table_all tr). split; [apply (rules_of_texts _ _ _ Hp Hr)|].
    destruct ch as [|c0 ch].
    + injection H as -> <-. split; [apply (tokens_exact tp tr c); eauto|]. destruct k; [destruct B|reflexivity].
    + apply bind_ok in H. destruct H as (u & Hu & H). injection H as -> <-. split; [apply (tokens_exact tp tr c); eauto|]. destruct k as [k|]; [|destruct B]. split; [discriminate|].
      destruct (tokens_answer _ _ _ _ _ Hp Hr Hu) as (l' & M & (A' & _) & _). exists l'. split; [exact M|]. destruct B as [B _]. congruence.
  - intros (rs & R & M & B). apply texts_of_rules in R. destruct R as (tp & tr & Hp & Hr & <-). apply (tokens_exact tp tr c) in M; [|assumption..]. destruct M as (T & M & A).
    destruct k as [k|].
    + destruct B as (N & l' & B & ->). apply (tokens_exact tp tr c) in B; [|assumption..]. destruct B as (C & B & D). exists T, (Some C). split; [|split; [exact A|exact D]]. rewrite Hp. cbn [bind]. rewrite Hr. cbn [bind]. rewrite M. cbn [bind]. destruct ch as [|c0 ch]; [contradiction|]. rewrite B. reflexivity.
    + subst ch. exists T, None. split; [|split; [exact A|exact I]]. rewrite Hp. cbn [bind]. rewrite Hr. cbn [bind]. rewrite M. reflexivity.
Qed.
Lemma create_answer c ch x : create_tokens c ch = Ok x -> exists l k, means_grammar c ch l k /\ snd (fst x) = map (fun y => (t_name (fst y), snd y)) l /\ table_for (map fst l) (fst (fst x)) /\ channels_for k (snd x).
Proof.
  intros H. assert (H' := H). unfold create_tokens in H. apply bind_ok in H. destruct H as (tp & Hp & H). apply bind_ok in H. destruct H as (tr & Hr & H). apply bind_ok in H. destruct H as (t & Ht & H).
  destruct (tokens_answer _ _ _ _ _ Hp Hr Ht) as (l & M & A & E).
  destruct ch as [|c0 ch].
  - injection H as <-. exists l, None. cbn [fst snd]. split; [|split; [exact E|split; [exact A|exact I]]]. exists (table_all tr). split; [apply (rules_of_texts _ _ _ Hp Hr)|]. split; [exact M|reflexivity].
  - apply bind_ok in H. destruct H as (u & Hu & H). injection H as <-. destruct (tokens_answer _ _ _ _ _ Hp Hr Hu) as (l' & M' & A' & _). exists l, (Some (map fst l')). cbn [fst snd]. split; [|split; [exact E|split; [exact A|exact A']]].
    exists (table_all tr). split; [apply (rules_of_texts _ _ _ Hp Hr)|]. split; [exact M|]. split; [discriminate|]. exists l'. auto.
Qed.
Lemma create_good c ch x : create_tokens c ch = Ok x -> good_table (fst (fst x)) /\ good_channels (snd x) /\ forall n ts, tests_of (snd (fst x)) n = Some ts -> ts <> [] /\ Forall (fun t => t <> []) ts.
Proof.
  intros H. unfold create_tokens in H. apply bind_ok in H. destruct H as (tp & Hp & H). apply bind_ok in H. destruct H as (tr & Hr & H). apply bind_ok in H. destruct H as (t & Ht & H).
  assert (R := fun k r => rules_find_ok _ _ _ _ k r Hp Hr). assert (G := to_tokens_good tr R _ _ Ht).
  destruct ch as [|c0 ch].
  - injection H as <-. cbn [fst snd]. split; [exact G|]. split; [intros y; discriminate|]. intros n ts. apply (to_tokens_tests tr _ _ n ts Ht).
  - apply bind_ok in H. destruct H as (u & Hu & H). injection H as <-. cbn [fst snd]. split; [exact G|]. split; [intros y [= <-]; apply (to_tokens_good tr R _ _ Hu)|]. intros n ts. apply (to_tokens_tests tr _ _ n ts Ht).
Qed.
(* failures *)
Lemma create_tame c ch : create_tokens c ch <> NoFuel /\ (create_tokens c ch = Panic <-> exists tp, to_patterns (ct_patterns c) = Ok tp /\ to_rules (ct_rules c) (Some tp) = Panic).
Proof.
  unfold create_tokens. destruct (to_patterns_tame (ct_patterns c)) as [P1 P2]. destruct (to_patterns (ct_patterns c)) as [tp| | |]; try contradiction; cbn [bind]; [|split; [discriminate|split; [discriminate|intros (tp & K & _); discriminate]]].
  destruct (to_rules_panic (Some tp) (ct_rules c)) as [_ R2]. destruct (to_rules (ct_rules c) (Some tp)) as [tr| | |] eqn:Er; try contradiction; cbn [bind].
  2: split; [discriminate|split; [discriminate|intros (tp' & [= <-] & K); congruence]].
  2: split; [discriminate|split; [intros _; exists tp; auto|reflexivity]].
  assert (T : forall t, tame (to_tokens tr t)) by (intros t; apply to_tokens_tame).
  assert (K : forall X : res (token_texts * option (table token)), X <> Panic -> X <> NoFuel -> X <> NoFuel /\ (X = Panic <-> exists tp' : table pattern, Ok tp = Ok tp' /\ to_rules (ct_rules c) (Some tp') = @Panic (table rule))) by (intros X A B; split; [exact B|split; [contradiction|intros (tp' & [= <-] & D); congruence]]).
  destruct (T (ct_tokens c)) as [T1 T2]. destruct (to_tokens tr (ct_tokens c)) as [t| | |]; try contradiction; cbn [bind]; [|apply K; discriminate].
  destruct ch as [|c0 ch]; [apply K; discriminate|]. destruct (T (c0 :: ch)) as [U1 U2]. destruct (to_tokens tr (c0 :: ch)) as [u| | |]; try contradiction; cbn [bind]; apply K; discriminate.
Qed.
