(* AppProps.v - the lexer application (applications/languages/lexers) and the resources
   it is called with: C77 to C81. *)
From Coq Require Import Strings.String Strings.Byte Lia.
From Verif Require Import Go GoLemmas DomainModel DomainSpec DomainProofs CardModel PatModel RuleModel PathModel PathSpec LexModel AstModel RootModel SuiteModel SuiteSpec TextModel TextSpec TextTokSpec TextRefSpec TextRefProofs2 AppModel AppSpec AppProofs AppProofs2 AppProofs3.
Open Scope list_scope.

(* ---- C77: the resources are built exactly from the last value of each call since Create ---- *)
Lemma ct_run ops : run ct_step ct_init ops = {| ct_patterns := match last_patterns ops with Some v => v | None => [] end; ct_rules := match last_rules ops with Some v => v | None => [] end; ct_tokens := match last_tokens ops with Some v => v | None => [] end |}.
Proof.
  unfold run, last_patterns, last_rules, last_tokens, last_call. induction ops as [|o ops IH] using rev_ind; [reflexivity|].
  rewrite !fold_left_app. cbn [fold_left]. rewrite IH. destruct o; reflexivity.
Qed.
Lemma set_to_iff o s : set_to o s <-> match o with Some v => v | None => [] end = s /\ s <> [].
Proof. unfold set_to. destruct o; split; intros [A B]; subst; split; auto; congruence. Qed.
Lemma perhaps_iff o s : perhaps_set o s <-> match o with Some v => v | None => [] end = s.
Proof. unfold perhaps_set. destruct o; split; [intros [[=]|[[=] _]]; assumption|intros <-; auto|intros [[=]|[_ ->]]; reflexivity|intros <-; auto]. Qed.
Theorem C77_container_built_exactly : forall ops c, ct_now (run ct_step ct_init ops) = Ok c <->
  set_to (last_patterns ops) (ct_patterns c) /\ set_to (last_rules ops) (ct_rules c) /\ set_to (last_tokens ops) (ct_tokens c).
Proof.
  intros ops c. rewrite ct_run, !set_to_iff. generalize (match last_patterns ops with Some v => v | None => [] end) (match last_rules ops with Some v => v | None => [] end) (match last_tokens ops with Some v => v | None => [] end). intros p r t. unfold ct_now. cbn [ct_patterns ct_rules ct_tokens].
  split.
  - destruct p, r, t; try discriminate. intros [= <-]. cbn. repeat split; discriminate.
  - intros ((-> & A) & (-> & B) & -> & C). destruct c as [pp rr tt0]. cbn in *. destruct pp, rr, tt0; try contradiction. reflexivity.
Qed.
Theorem C77_multiple_built_exactly : forall ops x, mu_now (run mu_step mu_init ops) = Ok x <->
  last_container ops = Some (mu_container x) /\ perhaps_set (last_channels ops) (mu_channels x).
Proof.
  intros ops x. assert (E : run mu_step mu_init ops = {| mub_container := last_container ops; mub_channels := match last_channels ops with Some v => v | None => [] end |}).
  { unfold run, last_container, last_channels, last_call. induction ops as [|o ops IH] using rev_ind; [reflexivity|]. rewrite !fold_left_app. cbn [fold_left]. rewrite IH. destruct o; reflexivity. }
  rewrite E, perhaps_iff. unfold mu_now. cbn. destruct (last_container ops) as [c|]; split; [intros [= <-]; auto|intros ([= ->] & ->); destruct x; reflexivity|discriminate|intros ([=] & _)].
Qed.
(* singles (of a multiple) and paths (of a container) *)
Theorem C77_rooted_built_exactly : forall A ops (x : rooted A), rt_now (run rt_step rt_init ops) = Ok x <->
  set_to (last_root ops) (rt_root x) /\ last_rest ops = Some (rt_rest x).
Proof.
  intros A ops x. assert (E : run rt_step rt_init ops = {| rtb_root := match last_root ops with Some v => v | None => [] end; rtb_rest := last_rest ops |}).
  { unfold run, last_root, last_rest, last_call. induction ops as [|o ops IH] using rev_ind; [reflexivity|]. rewrite !fold_left_app. cbn [fold_left]. rewrite IH. destruct o; reflexivity. }
  rewrite E, set_to_iff. unfold rt_now. cbn. generalize (match last_root ops with Some v => v | None => [] end). intros n. split.
  - destruct n; [discriminate|]. destruct (last_rest ops); [|discriminate]. intros [= <-]. cbn. repeat split; discriminate.
  - intros ((-> & N) & ->). destruct x as [r y]. cbn in *. destruct r; [contradiction|reflexivity].
Qed.
Lemma flag_snoc f o ops : f <> TxCreate -> (exists a b, ops ++ [o] = a ++ f :: b /\ ~ In TxCreate b) <-> o = f \/ (o <> TxCreate /\ exists a b, ops = a ++ f :: b /\ ~ In TxCreate b).
Proof.
  intros Nf. split.
  - intros (a & b & E & N). destruct b as [|y b] using rev_ind; [left; apply app_inj_tail in E; apply E|right]. rewrite app_comm_cons, app_assoc in E. apply app_inj_tail in E. destruct E as [-> ->]. split; [intros ->; apply N, in_or_app; right; left; reflexivity|]. exists a, b. split; [reflexivity|]. intros K. apply N, in_or_app. left. exact K.
  - intros [->|(No & a & b & -> & N)]; [exists ops, []; split; [reflexivity|intros []]|]. exists a, (b ++ [o]). split; [rewrite <- app_assoc; reflexivity|]. intros K. apply in_app_or in K. destruct K as [K|[K|[]]]; [exact (N K)|contradiction].
Qed.
Lemma flag_run ops : tx_content (run tx_step tx_init ops) = match last_content ops with Some v => v | None => [] end /\ (tx_prefix (run tx_step tx_init ops) = true <-> prefix_flag ops) /\ (tx_suffix (run tx_step tx_init ops) = true <-> suffix_flag ops).
Proof.
  unfold run, last_content, last_call, prefix_flag, suffix_flag. induction ops as [|o ops (I1 & I2 & I3)] using rev_ind.
  { split; [reflexivity|]. split; (split; [discriminate|]); intros (a & b & E & _); destruct a; discriminate. }
  rewrite !fold_left_app. cbn [fold_left]. rewrite !flag_snoc by discriminate. rewrite <- I2, <- I3.
  destruct o; cbn; (split; [try reflexivity; exact I1|]); split; split; intros H; try discriminate; auto; try (right; split; [discriminate|exact H]); destruct H as [H|[H K]]; try discriminate; try contradiction; auto.
Qed.
Theorem C77_content_built_exactly : forall ops x, tx_now (run tx_step tx_init ops) = Ok x <->
  set_to (last_content ops) (tx_content x) /\ (tx_prefix x = true <-> prefix_flag ops) /\ (tx_suffix x = true <-> suffix_flag ops).
Proof.
  intros ops x. destruct (flag_run ops) as (A & B & C). rewrite set_to_iff, <- A, <- B, <- C. generalize (run tx_step tx_init ops). intros [s p q]. unfold tx_now. cbn. destruct x as [s' p' q']. cbn. split.
  - destruct s as [|s0 s]; [discriminate|]. destruct p, q; cbn; intros [= <- <- <-]; repeat split; try discriminate; auto.
  - intros ((<- & N) & P & Q). destruct s as [|s0 s]; [contradiction|]. assert (p = p') as <- by (destruct p, p'; try reflexivity; destruct P as [P1 P2]; [discriminate (P2 eq_refl)|discriminate (P1 eq_refl)]). assert (q = q') as <- by (destruct q, q'; try reflexivity; destruct Q as [P1 P2]; [discriminate (P2 eq_refl)|discriminate (P1 eq_refl)]). destruct p, q; reflexivity.
Qed.
Theorem C77_paths_built_exactly : forall ops x, rp_now (run rp_step rp_init ops) = Ok x <->
  set_to (last_rules_path ops) (rp_rules x) /\ set_to (last_tokens_path ops) (rp_tokens x) /\ perhaps_set (last_channels_path ops) (rp_channels x).
Proof.
  intros ops x. assert (E : run rp_step rp_init ops = {| rp_rules := match last_rules_path ops with Some v => v | None => [] end; rp_tokens := match last_tokens_path ops with Some v => v | None => [] end; rp_channels := match last_channels_path ops with Some v => v | None => [] end |}).
  { unfold run, last_rules_path, last_tokens_path, last_channels_path, last_call. induction ops as [|o ops IH] using rev_ind; [reflexivity|]. rewrite !fold_left_app. cbn [fold_left]. rewrite IH. destruct o; reflexivity. }
  rewrite E, !set_to_iff, perhaps_iff. generalize (match last_rules_path ops with Some v => v | None => [] end) (match last_tokens_path ops with Some v => v | None => [] end) (match last_channels_path ops with Some v => v | None => [] end). intros r t c. unfold rp_now. cbn [rp_rules rp_tokens rp_channels]. split.
  - destruct r, t; try discriminate. intros [= <-]. cbn. repeat split; discriminate.
  - intros ((-> & A) & (-> & B) & ->). destruct x as [rr tt0 cc]. cbn in *. destruct rr, tt0; try contradiction. reflexivity.
Qed.
Theorem C77_example : ct_now (run ct_step ct_init [CtTokens (bs "t"); CtCreate; CtRules (bs "r"); CtTokens (bs "u"); CtPatterns (bs "p")]) = Ok {| ct_patterns := bs "p"; ct_rules := bs "r"; ct_tokens := bs "u" |} /\
  ct_now (run ct_step ct_init [CtTokens (bs "t"); CtRules (bs "r")]) = Err /\
  tx_now (run tx_step tx_init [TxPrefix; TxContent (bs "x"); TxNow; TxSuffix]) = Ok {| tx_content := bs "x"; tx_prefix := true; tx_suffix := true |}.
Proof. repeat split. Qed.

(* ---- C78: the tokens of three texts are exactly what they mean ---- *)
Theorem C78_tokens_exactly : forall c l, (exists t, app_tokens c = Ok (t, map (fun x => (t_name (fst x), snd x)) l) /\ table_for (map fst l) t) <-> means_texts c l.
Proof. exact app_tokens_exact. Qed.
Theorem C78_other_texts_fail : forall c, (forall l, ~ means_texts c l) -> forall x, app_tokens c <> Ok x.
Proof.
  intros c H x E. assert (K : create_tokens c [] = Ok (x, None)).
  { revert E. unfold app_tokens, create_tokens. destruct (to_patterns (ct_patterns c)); cbn [bind]; try discriminate. destruct (to_rules (ct_rules c) _); cbn [bind]; try discriminate. intros ->. reflexivity. }
  destruct (create_answer _ _ _ K) as (l & k & (rs & A & B & _) & _). apply (H l). exists rs. auto.
Qed.
Theorem C78_only_rules_panic : forall c, app_tokens c <> NoFuel /\
  (app_tokens c = Panic <-> exists ps, to_patterns (ct_patterns c) = Ok ps /\ to_rules (ct_rules c) (Some ps) = Panic).
Proof.
  intros c. destruct (create_tame c []) as [A B]. rewrite <- B. revert A. unfold app_tokens, create_tokens. destruct (to_patterns (ct_patterns c)); cbn [bind]; try (split; [assumption|tauto]); try (split; [discriminate|split; discriminate]).
  - destruct (to_rules (ct_rules c) _); cbn [bind]; [|split; [discriminate|split; discriminate]|split; [discriminate|split; reflexivity]|contradiction]. destruct (to_tokens _ _); cbn [bind]; [split; [discriminate|split; discriminate]..|split; [discriminate|split; reflexivity]|contradiction].
  - split; [discriminate|split; reflexivity].
  - contradiction.
Qed.
Definition ex_texts (tokens : string) : texts := {| ct_patterns := bs "$A:""x"";S:$A;p:S;"; ct_rules := bs "AA:""a"";BB:""b"";CC:""c"";SS:"" "";"; ct_tokens := bs tokens |}.
Definition ex_plain : texts := ex_texts "one: AA two +++ : ab###ac; two: BB;".
Definition ex_replaced : texts := ex_texts "include m ""r;t"" replace m.two three one: AA two; two: BB; three: CC;".
Definition ex_referred : texts := ex_texts "include m ""r;t"" reference three m.two one: AA three; two: BB;".
Theorem C78_example : exists t, app_tokens ex_plain = Ok (t, [(bs "one", Some [bs " ab"; bs "ac"]); (bs "two", None)]) /\ map t_name (table_all t) = [bs "one"; bs "two"].
Proof. eexists. split; [vm_compute; reflexivity|vm_compute; reflexivity]. Qed.

(* ---- C79: a grammar with a reference is never usable, whatever its files are ---- *)
Theorem C79_references_never_work : forall rules_file tokens_file order test_order lex_fuel n m c g refs,
  call_texts c = Some g -> means_references (ct_tokens g) refs -> rf_references refs <> None ->
  ~ ok_reply (fst (perform rules_file tokens_file order test_order lex_fuel (S n) m c)).
Proof. exact @references_unusable. Qed.
Theorem C79_answers_need_no_references : forall rules_file tokens_file order test_order lex_fuel n m c g,
  call_texts c = Some g -> ok_reply (fst (perform rules_file tokens_file order test_order lex_fuel (S n) m c)) ->
  exists refs, means_references (ct_tokens g) refs /\ rf_references refs = None.
Proof.
  intros rf tf order to lf n m c g G K. destruct (perform_plain rf tf order to lf n m c g G) as (A & B & made & k & f & E & F). rewrite E in K. cbn [fst] in K. apply F in K. destruct K as (y & K). destruct (plainly made g m k) as [o m'] eqn:P. cbn [fst] in K. subst o.
  apply plainly_ok in P. destruct P as (x & refs & _ & R & H & _). apply to_references_exact in R. exists refs. split; [exact R|]. destruct (rf_references refs) eqn:Q; [|reflexivity]. rewrite (proj1 (refs_some _ _ R)) in H by congruence. discriminate.
Qed.
(* the files hold a good grammar, and are read *)
Definition ex_file (s : string) (p : bytes) : option bytes := Some (bs s).
Definition keep (l : list path) (k : nat) : list path := l.
Definition keep_tests (name : bytes) (j : nat) (l : list path) (k : nat) : list path := l.
Definition ex_single (c : texts) (channels : string) : single := {| rt_root := bs "one"; rt_rest := {| mu_container := c; mu_channels := bs channels |} |}.
Definition ex_content (s : string) : text_content := {| tx_content := bs s; tx_prefix := false; tx_suffix := false |}.
Theorem C79_example : exists refs, means_references (ct_tokens ex_referred) refs /\ rf_references refs <> None /\ (exists x, app_tokens ex_referred = Ok x) /\
  fst (app_ast (ex_file "BB:""b"";") (ex_file "two: BB;") keep 30 5 [] (ex_single ex_referred "") (ex_content "ab")) = Err.
Proof. eexists. split; [apply to_references_exact; vm_compute; reflexivity|]. split; [discriminate|]. split; [eexists; vm_compute; reflexivity|vm_compute; reflexivity]. Qed.

(* ---- C80: the replacements an application keeps ---- *)
Section C80.
Variable rules_file tokens_file : bytes -> option bytes.
Variable order : list path -> nat -> list path.
Variable test_order : bytes -> nat -> list path -> nat -> list path.
Variable lex_fuel n : nat.
Notation perform := (perform rules_file tokens_file order test_order lex_fuel (S n)).
Notation after := (after rules_file tokens_file order test_order lex_fuel (S n)).
Theorem C80_kept_without_replacements : forall m c, (forall g, call_texts c = Some g -> no_replacements (ct_tokens g)) -> snd (perform m c) = m.
Proof. apply replacements_unchanged. Qed.
(* such calls are independent of each other *)
Theorem C80_history_independent_without_replacements : forall history m c, (forall c' g, In c' history -> call_texts c' = Some g -> no_replacements (ct_tokens g)) ->
  fst (perform (after m history) c) = fst (perform m c).
Proof. intros h m c H. f_equal. f_equal. apply after_unchanged. exact H. Qed.
(* only names that a replacement of the call's text replaces change, even when it fails *)
Theorem C80_other_names_are_kept : forall m c name, (forall g refs, call_texts c = Some g -> means_references (ct_tokens g) refs -> ~ In name (replaced_names refs)) ->
  mlookup (snd (perform m c)) name = mlookup m name.
Proof. apply other_names. Qed.
(* after an answer, a replaced name stands for the path of the local token of its last replacement *)
Theorem C80_replacements_exactly : forall m c g refs l before x later,
  call_texts c = Some g -> ok_reply (fst (perform m c)) -> means_references (ct_tokens g) refs -> rf_replacements refs = Some l ->
  l = before ++ x :: later -> ~ In (lk_reference x) (map lk_reference later) ->
  exists m1 d T t p, means_texts g d /\ table_for (map fst d) T /\ named t_name (map fst d) (lk_local x) t /\ path_for T none (replacing m1) t = Ok p /\
    el_name (pa_element p) = lk_local x /\ mlookup (snd (perform m c)) (lk_reference x) = Some p /\
    (forall k, ~ In k (map lk_reference before) -> mlookup m1 k = mlookup m k).
Proof. apply replaced_names_exact. Qed.
End C80.
Theorem C80_example : exists refs p, means_references (ct_tokens ex_replaced) refs /\ replaced_names refs = [bs "two"] /\
  (exists a, fst (app_ast (ex_file "") (ex_file "") keep 30 1 [] (ex_single ex_replaced "") (ex_content "ac")) = Ok (ASuccess a)) /\
  mlookup (snd (app_ast (ex_file "") (ex_file "") keep 30 1 [] (ex_single ex_replaced "") (ex_content "ac"))) (bs "two") = Some p /\ el_name (pa_element p) = bs "three".
Proof. eexists _, _. split; [apply to_references_exact; vm_compute; reflexivity|]. split; [reflexivity|]. split; [eexists; vm_compute; reflexivity|]. split; vm_compute; reflexivity. Qed.
(* an earlier call with another grammar changes the answer *)
Theorem C80_history_independent_refuted : exists (earlier later : call),
  let run m c := perform (ex_file "") (ex_file "") keep keep_tests 30 1 m c in
  (forall g, call_texts later = Some g -> exists refs, means_references (ct_tokens g) refs /\ refs = no_links) /\
  ok_reply (fst (run [] earlier)) /\ ok_reply (fst (run [] later)) /\ fst (run (snd (run [] earlier)) later) <> fst (run [] later).
Proof.
  exists (CPath {| rt_root := bs "one"; rt_rest := ex_replaced |}), (CAst (ex_single ex_plain "") (ex_content "ab")). cbv zeta.
  split; [intros g [= <-]; exists no_links; split; [apply to_references_exact; vm_compute; reflexivity|reflexivity]|].
  split; [vm_compute; exact I|]. split; [vm_compute; exact I|].
  match goal with |- ?a <> ?b => let x := eval vm_compute in a in let y := eval vm_compute in b in assert (A : a = x) by (vm_compute; reflexivity); assert (B : b = y) by (vm_compute; reflexivity); rewrite A, B end. discriminate.
Qed.
(* a replacement of a name of an include replaces the local token of that name *)
Theorem C80_only_the_include_is_replaced_refuted : exists c c' : texts,
  ct_patterns c = ct_patterns c' /\ ct_rules c = ct_rules c' /\ (exists r, ct_tokens c = r ++ ct_tokens c' /\ exists refs, means_references r refs /\ rf_references refs = None /\ rf_replacements refs <> None) /\
  (exists a, fst (app_ast (ex_file "") (ex_file "") keep 30 1 [] (ex_single c' "") (ex_content "ab")) = Ok (ASuccess a)) /\
  (exists x, fst (app_ast (ex_file "") (ex_file "") keep 30 1 [] (ex_single c "") (ex_content "ab")) = Ok (AMistake x)).
Proof.
  exists ex_replaced, (ex_texts "one: AA two; two: BB; three: CC;"). split; [reflexivity|]. split; [reflexivity|]. split; [|split; eexists; vm_compute; reflexivity].
  exists (bs "include m ""r;t"" replace m.two three "). split; [reflexivity|]. eexists. split; [apply to_references_exact; vm_compute; reflexivity|]. split; [reflexivity|discriminate].
Qed.
(* a call that fails leaves the replacements made before it failed *)
Theorem C80_failed_calls_change_nothing_refuted : exists c : call,
  let out := perform (ex_file "") (ex_file "") keep keep_tests 30 1 [] c in ~ ok_reply (fst out) /\ snd out <> [].
Proof.
  exists (CPath {| rt_root := bs "one"; rt_rest := ex_texts "include m ""r;t"" replace m.two three replace m.six nowhere one: AA two; two: BB; three: CC;" |}). cbv zeta.
  match goal with |- ~ ok_reply (fst ?a) /\ _ => let x := eval vm_compute in a in assert (A : a = x) by (vm_compute; reflexivity); rewrite A end. split; [intros []|discriminate].
Qed.

(* ---- C81: AST, Root and Tests of a grammar without references ---- *)
Section C81.
Variable rules_file tokens_file : bytes -> option bytes.
Variable order : list path -> nat -> list path.
Variable test_order : bytes -> nat -> list path -> nat -> list path.
Variable lex_fuel n : nat.
Notation app_ast := (app_ast rules_file tokens_file order lex_fuel n).
Notation app_root := (app_root rules_file tokens_file order lex_fuel n).
Notation app_tests := (app_tests rules_file tokens_file test_order lex_fuel n).
Theorem C81_ast_is_the_lexer : forall m r x l k t,
  means_grammar (mu_container (rt_rest r)) (mu_channels (rt_rest r)) l k -> means_references (ct_tokens (mu_container (rt_rest r))) no_links ->
  named t_name (map fst l) (rt_root r) t ->
  exists T C, table_for (map fst l) T /\ channels_for k C /\ app_ast m r x = (lexer_says T (replacing m) C order lex_fuel t x, m).
Proof. apply ast_is_the_lexer. Qed.
Theorem C81_unknown_root_fails : forall m r x l k,
  means_grammar (mu_container (rt_rest r)) (mu_channels (rt_rest r)) l k -> (forall t, ~ named t_name (map fst l) (rt_root r) t) -> app_ast m r x = (Err, m).
Proof. apply ast_unknown_root. Qed.
(* every answer, replacements or not *)
Theorem C81_every_answer : forall m r x a m', app_ast m r x = (Ok a, m') ->
  exists l k T C t refs, means_grammar (mu_container (rt_rest r)) (mu_channels (rt_rest r)) l k /\ table_for (map fst l) T /\ channels_for k C /\ named t_name (map fst l) (rt_root r) t /\
    means_references (ct_tokens (mu_container (rt_rest r))) refs /\ rf_references refs = None /\ lexer_says T (replacing m') C order lex_fuel t x = Ok a.
Proof. apply ast_answers. Qed.
Theorem C81_suffix_is_ignored : forall m r s b, app_ast m r {| tx_content := s; tx_prefix := b; tx_suffix := true |} = app_ast m r {| tx_content := s; tx_prefix := b; tx_suffix := false |}.
Proof. apply suffix_ignored. Qed.
Theorem C81_root_is_of_the_ast : forall m r x, snd (app_root m r x) = snd (app_ast m r x) /\
  forall y, fst (app_root m r x) = Ok y <->
    (exists e, fst (app_ast m r x) = Ok (AMistake e) /\ y = Some (RaMistake e)) \/
    (exists t o, fst (app_ast m r x) = Ok (ASuccess t) /\ fst (to_root t []) = Ok o /\ y = option_map RaRoot o).
Proof. apply root_of_ast. Qed.
Theorem C81_tests_are_asts : forall m r l k ss, means_grammar (mu_container r) (mu_channels r) l k -> means_references (ct_tokens (mu_container r)) no_links ->
  app_tests m r = (Ok ss, m) <-> Forall2 (reported rules_file tokens_file test_order lex_fuel n r m) (with_tests l) ss.
Proof. apply tests_are_asts. Qed.
End C81.
(* Path always ends; it panics only on texts of rules or references that do *)
Theorem C81_path_ends : forall rules_file tokens_file n m r, fst (app_path rules_file tokens_file (S n) m r) <> NoFuel /\
  (fst (app_path rules_file tokens_file (S n) m r) = Panic -> crashing_texts (rt_rest r)).
Proof. exact path_tame. Qed.
Theorem C81_example : (exists l k, means_grammar ex_plain (bs "sp: SS;") l k /\ map t_name (map fst l) = [bs "one"; bs "two"]) /\ means_references (ct_tokens ex_plain) no_links /\
  (exists a, fst (app_ast (ex_file "") (ex_file "") keep 30 0 [] (ex_single ex_plain "sp: SS;") (ex_content "a b")) = Ok (ASuccess a)) /\
  app_tests (ex_file "") (ex_file "") keep_tests 30 0 [] (rt_rest (ex_single ex_plain "sp: SS;")) = (Ok [{| su_name := bs "one"; su_lines := [{| sl_index := 0; sl_success := true |}; {| sl_index := 1; sl_success := false |}] |}], []) /\
  (exists x, fst (app_root (ex_file "") (ex_file "") keep 30 0 [] (ex_single ex_plain "") (ex_content "ac")) = Ok (Some (RaMistake x))).
Proof.
  split; [|split; [apply to_references_exact; vm_compute; reflexivity|split; [eexists; vm_compute; reflexivity|split; [vm_compute; reflexivity|eexists; vm_compute; reflexivity]]]].
  destruct (create_tokens ex_plain (bs "sp: SS;")) as [x| | |] eqn:E; [|vm_compute in E; discriminate..]. destruct (create_answer _ _ _ E) as (l & k & M & _ & A & _). exists l, k. split; [exact M|]. rewrite <- (proj1 A). vm_compute in E. injection E as <-. reflexivity.
Qed.
Print Assumptions C77_container_built_exactly.
Print Assumptions C77_multiple_built_exactly.
Print Assumptions C77_rooted_built_exactly.
Print Assumptions C77_content_built_exactly.
Print Assumptions C77_paths_built_exactly.
Print Assumptions C77_example.
Print Assumptions C78_tokens_exactly.
Print Assumptions C78_other_texts_fail.
Print Assumptions C78_only_rules_panic.
Print Assumptions C78_example.
Print Assumptions C79_references_never_work.
Print Assumptions C79_answers_need_no_references.
Print Assumptions C79_example.
Print Assumptions C80_kept_without_replacements.
Print Assumptions C80_history_independent_without_replacements.
Print Assumptions C80_other_names_are_kept.
Print Assumptions C80_replacements_exactly.
Print Assumptions C80_example.
Print Assumptions C80_history_independent_refuted.
Print Assumptions C80_only_the_include_is_replaced_refuted.
Print Assumptions C80_failed_calls_change_nothing_refuted.
Print Assumptions C81_ast_is_the_lexer.
Print Assumptions C81_unknown_root_fails.
Print Assumptions C81_every_answer.
Print Assumptions C81_suffix_is_ignored.
Print Assumptions C81_root_is_of_the_ast.
Print Assumptions C81_tests_are_asts.
Print Assumptions C81_path_ends.
Print Assumptions C81_example.
