(* AstProps.v - property theorems C43, C44, C62-C65: mistakes and syntax trees.
   A call of ToAST is [to_ast channels fuel root can script st] (see LexProps.v for the
   arguments; can is canContainPrefix).  ToMistake is [to_mistake can t].
   AstSpec.v defines at_position, plain and resolved (grammars), reason (why a block
   failed), made (paths built by ToPath from simple token tables); LexSpec.v el_reads. *)
From Coq Require Import Strings.String Strings.Byte.
From Verif Require Import Go GoLemmas DomainModel DomainSpec CardModel CardSpec PatModel PatSpec RuleModel RuleSpec PathModel PathSpec LexModel LexSpec LexProofs3 LexProps AstModel AstSpec AstProofs AstProofs2 AstProofs3 RootSpec.
Open Scope list_scope.

(* ---- C43: positions ---- *)
Theorem C43_position_exact :
  forall s i l c,
  position s = (i, l, c) <-> at_position s i l c.
Proof. exact @position_exact. Qed.
Print Assumptions C43_position_exact.

Theorem C43_every_mistake_has_the_position_of_a_text :
  forall can t m,
  to_mistake can t = Ok (Some m) -> exists text, at_position text (mi_index m) (mi_line m) (mi_column m).
Proof. exact @mistake_positioned. Qed.
Print Assumptions C43_every_mistake_has_the_position_of_a_text.

Example C43_example : at_position (bs "ab" ++ [x0a] ++ bs "cde") 6 1 2 /\ at_position (bs "ab" ++ [x0a]) 3 1 0.
Proof. split; apply position_exact; vm_compute; reflexivity. Qed.
(* A user expects the index to be that of the place in the script where reading failed.
   It is the length of the channel text in front of the failing element only:
   r: .X .Y on "xz" fails at 1 and reports 0. *)
Theorem C43_index_is_in_the_script_refuted :
  exists root fuel m, plain root /\ fst (to_ast (always []) fuel root false (bs "xz") (lst_init false)) = Ok (AMistake m) /\
    mi_index m = 0 /\ mi_container m = PcRule (bs "y").
Proof.
  exists (ex_path (ex_el "r" [[ex_one "x"; ex_one "y"]]) []), 9. eexists. split; [|split; [vm_compute; reflexivity|split; reflexivity]].
  assert (O : forall c, occurs_in (ex_path (ex_el "r" [[ex_one "x"; ex_one "y"]]) []) c -> c = PRule (ex_rule "x") CMandatory \/ c = PRule (ex_rule "y") CMandatory)
    by (induction 1 as [c H|n e c H|e sp k c H IH Hd]; [rules; auto|discriminate|destruct IH; discriminate]).
  split.
  - intros e [->|[(n & H)|(sp & k & H)]]; [split; [discriminate|reflexivity]|discriminate|apply O in H; destruct H; discriminate].
  - intros c H. apply O in H. destruct H as [->| ->]; apply ex_good_rule; discriminate.
Qed.
Print Assumptions C43_index_is_in_the_script_refuted.

(* ---- C44: mistakes and validity ---- *)
Theorem C44_no_mistake_iff_valid :
  forall t,
  fair_tree t -> (to_mistake false t = Ok None <-> tok_valid t = true) /\ (tok_valid t = false -> exists m, to_mistake false t = Ok (Some m)).
Proof. exact @mistake_iff_invalid. Qed.
Print Assumptions C44_no_mistake_iff_valid.

Theorem C44_lexer_answers :
  forall channels root fuel script st t,
  (forall p, among channels p -> plain p) -> plain root -> fst (to_token channels fuel root script st) = Ok t ->
  (to_mistake false t = Ok None <-> tok_valid t = true) /\ (tok_valid t = false -> exists m, to_mistake false t = Ok (Some m)).
Proof. exact @lexer_mistake_iff_invalid. Qed.
Print Assumptions C44_lexer_answers.

(* r: .X .b+ .A?   b: .B+ | .C *)
Lemma ex_word_plain : plain ex_word.
Proof.
  split.
  - intros e [->|[(n & H)|(sp & k & H)]]; [split; [discriminate|reflexivity]|discriminate|]. apply ex_word_occurs in H. destruct H as [E|[E|[E|[E|E]]]]; inversion E; subst. split; [discriminate|reflexivity].
  - intros c H. apply ex_word_occurs in H. destruct H as [->|[->|[->|[->| ->]]]]; try (apply ex_good_rule; discriminate). constructor.
Qed.
Lemma ex_space_plain : plain ex_space.
Proof.
  split.
  - intros e [->|[(n & H)|(sp & k & H)]]; [split; [discriminate|reflexivity]|discriminate|]. apply ex_space_occurs in H. discriminate.
  - intros c H. apply ex_space_occurs in H. subst c. apply ex_good_rule; discriminate.
Qed.
Example C44_example :
  (forall p, among (always [ex_space]) p -> plain p) /\ plain ex_word /\
  (exists t, fst (to_token (always [ex_space]) 20 ex_word (bs "x  bb c rest") (lst_init false)) = Ok t /\ to_mistake false t = Ok None) /\
  (exists t m, fst (to_token (always [ex_space]) 20 ex_word (bs "x  d") (lst_init false)) = Ok t /\ to_mistake false t = Ok (Some m) /\ mi_content m = McNoMatch /\ mi_index m = 2).
Proof.
  split; [intros p (i & [<-|[]]); exact ex_space_plain|]. split; [exact ex_word_plain|]. split; [|].
  - eexists. split; [vm_compute; reflexivity|vm_compute; reflexivity].
  - eexists _, _. split; [vm_compute; reflexivity|]. split; [vm_compute; reflexivity|]. split; reflexivity.
Qed.
(* with a not-block a valid token can be reported as a mistake: r: .X --- .Y on "z" *)
Theorem C44_not_block_refuted :
  exists root fuel script t m, good_path root /\ fst (to_token (always []) fuel root script (lst_init false)) = Ok t /\ tok_valid t = true /\ to_mistake false t = Ok (Some m).
Proof.
  exists (ex_path (Element (bs "r") [[ex_one "x"]] (Some [[ex_one "y"]])) []), 9, (bs "z"). eexists _, _. split; [|split; [vm_compute; reflexivity|split; vm_compute; reflexivity]].
  split; [|intros n e H; discriminate]. intros c Hc r Hr. cbn in Hc. destruct Hc as [(l & [<-|[]] & [Hc|[]])|(ls & [= <-] & l & [<-|[]] & [Hc|[]])]; inversion Hc; subst; inversion Hr; subst; apply ex_good_rule; discriminate.
Qed.
Print Assumptions C44_not_block_refuted.
(* allowing prefixes hides invalid tokens: r: .X on "yx" *)
Theorem C44_with_prefixes_refuted :
  exists root fuel script t, plain root /\ fst (to_token (always []) fuel root script (lst_init false)) = Ok t /\ tok_valid t = false /\ to_mistake true t = Ok None /\ exists m, to_mistake false t = Ok (Some m).
Proof.
  exists (ex_path (ex_el "space" [[ex_one " "]]) []), 9, (bs "y "). eexists. split; [exact ex_space_plain|]. split; [vm_compute; reflexivity|]. split; [vm_compute; reflexivity|]. split; [vm_compute; reflexivity|]. eexists. vm_compute. reflexivity.
Qed.
Print Assumptions C44_with_prefixes_refuted.

(* ---- C62: the reason of a mistake ---- *)
Theorem C62_mistake_names_its_reason :
  forall channels root fuel script st t,
  (forall p, among channels p -> plain p) -> plain root -> fst (to_token channels fuel root script st) = Ok t -> tok_valid t = false ->
  exists m, to_mistake false t = Ok (Some m) /\ mi_parents m = [] /\
  ((tok_content t = None /\ mi_container m = PcToken (el_name (pa_element root)) /\ mi_content m = McNoMatch /\ at_position [] (mi_index m) (mi_line m) (mi_column m)) \/
   (exists i b text, tok_content t = Some (LM i [b], None) /\ b_valid b = false /\ reason (el_name (pa_element root)) b (mi_container m) (mi_content m) text /\
      at_position text (mi_index m) (mi_line m) (mi_column m))).
Proof. exact @answer_reason. Qed.
Print Assumptions C62_mistake_names_its_reason.

Example C62_example :
  plain ex_word /\ exists t m, fst (to_token (always [ex_space]) 20 ex_word (bs "x  d") (lst_init false)) = Ok t /\ tok_valid t = false /\ to_mistake false t = Ok (Some m) /\ mi_container m = PcToken (bs "word") /\ mi_content m = McNoMatch.
Proof. split; [exact ex_word_plain|]. eexists _, _. split; [vm_compute; reflexivity|]. split; [vm_compute; reflexivity|]. split; [vm_compute; reflexivity|]. split; reflexivity. Qed.

(* ---- C63: syntax trees ---- *)
Theorem C63_answer_decided_by_validity :
  forall channels root fuel script st t,
  (forall p, among channels p -> plain p) -> plain root -> fst (to_token channels fuel root script st) = Ok t ->
  (tok_valid t = true -> exists a, fst (to_ast channels fuel root false script st) = Ok (ASuccess a) /\ at_discovery a = tok_disc t /\ at_name a = el_name (pa_element root) /\ option_map lm_index (the_must t) = Some (at_line a) /\ solid a) /\
  (tok_valid t = false -> exists m, fst (to_ast channels fuel root false script st) = Ok (AMistake m) /\ to_mistake false t = Ok (Some m)).
Proof. exact @ast_decides. Qed.
Print Assumptions C63_answer_decided_by_validity.

Theorem C63_tree_spells_a_prefix_of_the_script :
  forall channels root fuel script st a,
  (forall p, among channels p -> plain p) -> plain root -> fst (to_ast channels fuel root false script st) = Ok (ASuccess a) ->
  exists rest, script = at_discovery a ++ rest /\ at_discovery a <> [] /\ el_reads channels True (pa_deps root) true (pa_element root) script rest.
Proof. exact @ast_success_text. Qed.
Print Assumptions C63_tree_spells_a_prefix_of_the_script.

Example C63_example :
  (forall p, among (always [ex_space]) p -> plain p) /\ plain ex_word /\
  exists a, fst (to_ast (always [ex_space]) 20 ex_word false (bs "x  bb c rest") (lst_init false)) = Ok (ASuccess a) /\ at_discovery a = bs "x  bb c " /\ at_name a = bs "word".
Proof. split; [intros p (i & [<-|[]]); exact ex_space_plain|]. split; [exact ex_word_plain|]. eexists. split; [vm_compute; reflexivity|]. split; vm_compute; reflexivity. Qed.
(* with prefixes allowed: r: .X panics on "yyx"; the result input is the code of the rule *)
Theorem C63_prefixes_never_panic_refuted :
  exists root fuel script, plain root /\ fst (to_ast (always []) fuel root true script (lst_init true)) = Panic.
Proof. exists ex_space, 9, (bs "yy "). split; [exact ex_space_plain|]. vm_compute. reflexivity. Qed.
Print Assumptions C63_prefixes_never_panic_refuted.
(* the text after the match is not reported: the suffix of a result is never one of the script *)
Theorem C63_suffix_is_of_the_script_refuted :
  exists root fuel script a n r, good_path root /\ fst (to_ast (always []) fuel root false script (lst_init false)) = Ok (ASuccess a) /\ In (AMRule n r) (at_matches a) /\
    ar_suffix r <> [] /\ ~ exists before, script = before ++ ar_suffix r.
Proof.
  pose (r := {| rl_name := bs "X"; rl_code := bs "code"; rl_content := RConstant (bs "x") |}).
  exists (ex_path (ex_el "r" [[ICont (PRule r CMandatory)]]) []), 9, (bs "xyz"). eexists _, _, _. split; [|split; [vm_compute; reflexivity|split; [left; reflexivity|split; [discriminate|]]]].
  - split; [|intros n e H; discriminate]. intros c Hc q Hq. rules. split; [reflexivity|exact I].
  - intros [b E]. cbn in E. destruct b as [|? [|? [|? [|? b]]]]; cbn in E; congruence.
Qed.
Print Assumptions C63_suffix_is_of_the_script_refuted.

(* ---- C64: the parser answers ---- *)
Theorem C64_never_fails :
  forall channels root fuel script st,
  (forall p, among channels p -> plain p /\ resolved p) -> plain root -> resolved root ->
  fst (to_ast channels fuel root false script st) = NoFuel \/ exists a, fst (to_ast channels fuel root false script st) = Ok a.
Proof. exact @parser_never_fails. Qed.
Print Assumptions C64_never_fails.

(* within a depth linear in the script *)
Theorem C64_always_answers :
  forall depth channels root script st fuel,
  (forall p, among channels p -> plain p /\ resolved p /\ ends depth p /\ switch_free p) -> plain root -> resolved root -> ends depth root ->
  (length script + 1) * (2 * depth + 4) <= fuel -> exists a, fst (to_ast channels fuel root false script st) = Ok a.
Proof. exact @parser_answers. Qed.
Print Assumptions C64_always_answers.

Definition ex_b : element := ex_el "b" [[ex_many "b"]; [ex_one "c"]].
Definition ex_words : path := ex_path (pa_element ex_word) [ex_b].
Lemma ex_words_occurs c : occurs_in ex_words c -> c = PRule (ex_rule "x") CMandatory \/ c = PRule (ex_rule "a") COptional \/ c = PToken ex_b [] CNonZero
  \/ c = PRule (ex_rule "b") CNonZero \/ c = PRule (ex_rule "c") CMandatory.
Proof.
  induction 1 as [c H|n e c H Hd|e sp k c H IH Hd]; [rules; auto| |destruct IH as [E|[E|[E|[E|E]]]]; inversion E; subst; rules; auto].
  cbn [pa_deps ex_words ex_path map mlookup] in H. match type of H with (if ?b then _ else _) = _ => destruct b end; [|discriminate]. inversion H; subst. rules; auto.
Qed.
Lemma ex_words_elements e : element_of ex_words e -> e = pa_element ex_word \/ e = ex_b.
Proof.
  intros [->|[(n & H)|(sp & k & H)]]; [left; reflexivity| |apply ex_words_occurs in H; destruct H as [E|[E|[E|[E|E]]]]; inversion E; subst; right; reflexivity].
  cbn [pa_deps ex_words ex_path map mlookup] in H. match type of H with (if ?b then _ else _) = _ => destruct b end; [|discriminate]. inversion H; subst. right. reflexivity.
Qed.
Example C64_example :
  (forall p, among (always [ex_space]) p -> plain p /\ resolved p /\ ends 2 p /\ switch_free p) /\ plain ex_words /\ resolved ex_words /\ ends 2 ex_words.
Proof.
  assert (Es : forall e, element_of ex_space e -> e = pa_element ex_space) by (intros e [->|[(n & H)|(sp & k & H)]]; [reflexivity|discriminate|apply ex_space_occurs in H; discriminate]).
  split; [|split; [|split]].
  - intros p (i & [<-|[]]). split; [exact ex_space_plain|]. split; [|split].
    + split; [intros e H; apply Es in H; subst; eexists _, _; split; [reflexivity|]; eexists; left; reflexivity|]. intros c H. apply ex_space_occurs in H. subst. discriminate.
    + split; [intros e H; apply Es in H; subst; reflexivity|]. split; [intros c H; apply ex_space_occurs in H; subst; exact I|]. intros r k H. apply ex_space_occurs in H. inversion H; subst. apply ex_good_rule. discriminate.
    + intros e l H. apply Es in H. subst. intros [<-|[]] [X|[]]. discriminate.
  - split; [intros e H; apply ex_words_elements in H; destruct H as [->| ->]; split; [discriminate|reflexivity|discriminate|reflexivity]|]. intros c H. apply ex_words_occurs in H. destruct H as [->|[->|[->|[->| ->]]]]; try (apply ex_good_rule; discriminate). constructor.
  - split; [intros e H; apply ex_words_elements in H; destruct H as [->| ->]; (eexists _, _; split; [reflexivity|]; eexists; left; reflexivity)|]. intros c H. apply ex_words_occurs in H. destruct H as [->|[->|[->|[->| ->]]]]; try discriminate.
  - split; [intros e H; apply ex_words_elements in H; destruct H as [->| ->]; reflexivity|]. split.
    + intros c H. apply ex_words_occurs in H. destruct H as [->|[->|[->|[->| ->]]]]; try exact I. split; [|intros e' E; cbn in E; inversion E; subst e']; intros l c' [<-|[<-|[]]] Hl; inversion Hl; subst; try exact I;
        match goal with M : may_be_absent _ |- _ => destruct M as (q & E1 & E2); inversion E1; subst; discriminate end.
    + intros r k H. apply ex_words_occurs in H. destruct H as [E|[E|[E|[E|E]]]]; inversion E; subst; apply ex_good_rule; discriminate.
Qed.

(* ---- C65: from token tables to answers ---- *)
Theorem C65_tables_to_answers :
  forall channels root fuel script st,
  (forall p, among channels p -> made p) -> made root ->
  fst (to_ast channels fuel root false script st) = NoFuel \/
  (exists m, fst (to_ast channels fuel root false script st) = Ok (AMistake m)) \/
  (exists a rest, fst (to_ast channels fuel root false script st) = Ok (ASuccess a) /\ script = at_discovery a ++ rest /\ at_discovery a <> [] /\ el_reads channels True (pa_deps root) true (pa_element root) script rest).
Proof. exact @parser_end_to_end. Qed.
Print Assumptions C65_tables_to_answers.

Theorem C65_made_paths_are_plain_and_resolved :
  forall p,
  made p -> plain p /\ resolved p.
Proof. exact @made_sane. Qed.
Print Assumptions C65_made_paths_are_plain_and_resolved.

(* a: .X .b | .X    b: .a .X *)
Definition ex_tref (n : string) : tinstr := TElem {| te_content := TRef {| tr_name := bs n; tr_specs := None |}; te_card := None |}.
Definition ex_tuse (c : string) : tinstr := TElem {| te_content := TRule (ex_rule c); te_card := None |}.
Definition ex_ta : token := {| t_name := bs "a"; t_must := [[ex_tuse "x"; ex_tref "b"]; [ex_tuse "y"]]; t_not := None |}.
Definition ex_tb : token := {| t_name := bs "b"; t_must := [[ex_tref "a"; ex_tuse "z"]]; t_not := None |}.
Definition ex_made_table : table token := match unique_table_now t_name (Some [ex_ta; ex_tb]) with Ok t => t | _ => ([], []) end.
Definition ex_made_path : path := match fst (to_path ex_made_table none none pstate_init ex_ta) with Ok p => p | _ => ex_space end.
Example C65_example : made ex_made_path /\ exists a, fst (to_ast (always []) 20 ex_made_path false (bs "xyz!") (lst_init false)) = Ok (ASuccess a) /\ at_discovery a = bs "xyz".
Proof.
  assert (St : forall t, In t [ex_ta; ex_tb] -> simple_token t).
  { intros t [<-|[<-|[]]]; (split; [reflexivity|]; split; [reflexivity|]; split; [eexists _, _, _; split; [reflexivity|left; reflexivity]|]); intros l e r Hl He Er; cbn in Hl; repeat (match goal with H : _ \/ _ |- _ => destruct H | H : False |- _ => destruct H | H : _ = TElem _ |- _ => inversion H; subst; clear H end; subst; cbn in *); try discriminate; inversion Er; subst; (split; [discriminate|exact I]). }
  split.
  - exists ex_made_table, [], ex_ta. split; [split; [exists [LWithList (Some [ex_ta; ex_tb])]; reflexivity|repeat constructor]|]. split; [constructor|]. split; [apply St; left; reflexivity|]. split; [apply Forall_forall; exact St|]. vm_compute. reflexivity.
  - eexists. split; vm_compute; reflexivity.
Qed.
