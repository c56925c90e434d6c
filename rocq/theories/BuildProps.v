(* BuildProps.v - property theorems C95 and C96: the builders of the lexer
   (domain/languages/lexers).  ops is any sequence of calls on a builder, after2 ... the
   builder after these calls, a2, b2, ... the argument last given to each of its methods
   since the last Create (BaseSpec.v, BuildSpec.v).  Mk.. are the objects (BuildModel.v). *)
From Coq Require Import Strings.String Strings.Byte Lia.
From Verif Require Import Go GoLemmas DomainModel DomainSpec BaseModel BaseSpec BaseProofs BuildModel BuildSpec BuildProofs.
Open Scope list_scope.

(* ---- C95 ---- *)
Theorem C95_token :
  forall (T1 T2 : Type) (ops : list (op3 (bytes) (option T1) (option T2))),
  builds (token_now (after3 [] None None ops)) (fun x => exists name path, a3 [] ops = name /\ name <> [] /\ b3 None ops = Some path /\ x = MkToken name path (c3 None ops)).
Proof. made_up. Qed.
Print Assumptions C95_token.

Theorem C95_token_content :
  forall (T0 T1 : Type) (ops : list (op2 (option T0) (option T1))),
  builds (token_content_now (after2 None None ops)) (fun x => exists must, a2 None ops = Some must /\ x = MkTokenContent must (b2 None ops)).
Proof. made_up. Qed.
Print Assumptions C95_token_content.

Theorem C95_line_match :
  forall (T1 : Type) (ops : list (op2 (option N) (option T1))),
  uint64 (a2 None ops) -> builds (line_match_now (after2 None None ops)) (fun x => exists index matches, a2 None ops = Some index /\ (index < 2 ^ 63)%N /\ b2 None ops = Some matches /\ x = MkLineMatch index matches).
Proof. made_up. Qed.
Print Assumptions C95_line_match.

Theorem C95_matches :
  forall (T0 : Type) (ops : list (op1 (option (list T0)))),
  builds (matches_now (after1 None ops)) (fun x => exists blocks, a1 None ops = Some blocks /\ blocks <> [] /\ x = MkMatches blocks).
Proof. made_up. Qed.
Print Assumptions C95_matches.

Theorem C95_rule_match :
  forall (T0 T1 : Type) (ops : list (op3 (option T0) (option T1) (bool))),
  builds (rule_match_now (after3 None None false ops)) (fun x => exists rule result, a3 None ops = Some rule /\ b3 None ops = Some result /\ x = MkRuleMatch rule result (c3 false ops)).
Proof. made_up. Qed.
Print Assumptions C95_rule_match.

Theorem C95_rule_match_result :
  forall (T0 T1 : Type) (ops : list (op2 (option T0) (option T1))),
  builds (rule_match_result_now (after2 None None ops)) (fun x => exists path result, a2 None ops = Some path /\ b2 None ops = Some result /\ x = MkRuleMatchResult path result).
Proof. made_up. Qed.
Print Assumptions C95_rule_match_result.

Theorem C95_specifier :
  forall (T1 T2 : Type) (ops : list (op3 (bytes) (option T1) (option T2))),
  builds (specifier_now (after3 [] None None ops)) (fun x => exists name cardinality result, a3 [] ops = name /\ name <> [] /\ b3 None ops = Some cardinality /\ c3 None ops = Some result /\ x = MkSpecifier name cardinality result).
Proof. made_up. Qed.
Print Assumptions C95_specifier.

Theorem C95_token_match :
  forall (T0 T1 T2 : Type) (ops : list (op3 (option T0) (option T1) (option (list T2)))),
  builds (token_match_now (after3 None None None ops)) (fun x => exists path result, a3 None ops = Some path /\ b3 None ops = Some result /\ x = MkTokenMatch path result (filled (c3 None ops))).
Proof. made_up. Qed.
Print Assumptions C95_token_match.

Theorem C95_token_result :
  forall (T1 T2 : Type) (ops : list (op3 (bytes) (option T1) (option T2))),
  builds (token_result_now (after3 [] None None ops)) (fun x => exists input cardinality, a3 [] ops = input /\ input <> [] /\ b3 None ops = Some cardinality /\ x = MkTokenResult input cardinality (c3 None ops)).
Proof. made_up. Qed.
Print Assumptions C95_token_result.

Theorem C95_token_result_matches :
  forall (T0 : Type) (ops : list (op1 (option (list T0)))),
  builds (token_result_matches_now (after1 None ops)) (fun x => exists tokens, a1 None ops = Some tokens /\ tokens <> [] /\ x = MkTokenResultMatches tokens).
Proof. made_up. Qed.
Print Assumptions C95_token_result_matches.

Theorem C95_result :
  forall (T0 : Type) (ops : list (op1 (option (list T0)))),
  builds (result_now (after1 None ops)) (fun x => x = MkResult (filled (a1 None ops))).
Proof. made_up. Qed.
Print Assumptions C95_result.

Theorem C95_mistake :
  forall (T0 T1 T2 : Type) (ops : list (op3 (option T0) (option T1) (option T2))),
  builds (mistake_now (after3 None None None ops)) (fun x => exists index path content, a3 None ops = Some index /\ b3 None ops = Some path /\ c3 None ops = Some content /\ x = MkMistake index path content).
Proof. made_up. Qed.
Print Assumptions C95_mistake.

Theorem C95_mistake_index :
  forall (ops : list (op3 (option N) (option N) (option N))),
  uint64 (a3 None ops) -> uint64 (b3 None ops) -> uint64 (c3 None ops) -> builds (mistake_index_now (after3 None None None ops)) (fun x => exists index line column, a3 None ops = Some index /\ (index < 2 ^ 63)%N /\ b3 None ops = Some line /\ (line < 2 ^ 63)%N /\ c3 None ops = Some column /\ (column < 2 ^ 63)%N /\ x = MkMistakeIndex index line column).
Proof. made_up. Qed.
Print Assumptions C95_mistake_index.

Theorem C95_valid_not :
  forall (ops : list (op1 (option N))),
  uint64 (a1 None ops) -> builds (valid_not_now (after1 None ops)) (fun x => exists line, a1 None ops = Some line /\ (line < 2 ^ 63)%N /\ x = MkValidNot line).
Proof. made_up. Qed.
Print Assumptions C95_valid_not.

Theorem C95_specifier_do_not_match :
  forall (T1 : Type) (ops : list (op3 (bytes) (option T1) (option N))),
  uint64 (c3 None ops) -> builds (specifier_do_not_match_now (after3 [] None None ops)) (fun x => exists name cardinality amount, a3 [] ops = name /\ name <> [] /\ b3 None ops = Some cardinality /\ c3 None ops = Some amount /\ (amount < 2 ^ 63)%N /\ x = MkSpecifierDoNotMatch name cardinality amount).
Proof. made_up. Qed.
Print Assumptions C95_specifier_do_not_match.

Theorem C95_contains_next :
  forall (T0 : Type) (ops : list (op1 (option T0))),
  builds (contains_next_now (after1 None ops)) (fun x => exists nxt, a1 None ops = Some nxt /\ x = MkContainsNext nxt).
Proof. made_up. Qed.
Print Assumptions C95_contains_next.

Theorem C95_cardinality_is_invalid :
  forall (T0 : Type) (ops : list (op2 (option T0) (option N))),
  uint64 (b2 None ops) -> builds (cardinality_is_invalid_now (after2 None None ops)) (fun x => exists cardinality amount, a2 None ops = Some cardinality /\ b2 None ops = Some amount /\ (amount < 2 ^ 63)%N /\ x = MkCardinalityIsInvalid cardinality amount).
Proof. made_up. Qed.
Print Assumptions C95_cardinality_is_invalid.

Theorem C95_contains_prefix :
  forall (ops : list (op1 (bytes))),
  builds (contains_prefix_now (after1 [] ops)) (fun x => exists prefix, a1 [] ops = prefix /\ prefix <> [] /\ x = MkContainsPrefix prefix).
Proof. made_up. Qed.
Print Assumptions C95_contains_prefix.

Theorem C95_tree_token :
  forall (T1 : Type) (ops : list (op2 (bytes) (option T1))),
  builds (tree_token_now (after2 [] None ops)) (fun x => exists name line, a2 [] ops = name /\ name <> [] /\ b2 None ops = Some line /\ x = MkTreeToken name line).
Proof. made_up. Qed.
Print Assumptions C95_tree_token.

Theorem C95_tree_line :
  forall (T1 : Type) (ops : list (op2 (option N) (option (list T1)))),
  uint64 (a2 None ops) -> builds (tree_line_now (after2 None None ops)) (fun x => exists index, a2 None ops = Some index /\ (index < 2 ^ 63)%N /\ x = MkTreeLine index (filled (b2 None ops))).
Proof. made_up. Qed.
Print Assumptions C95_tree_line.

Theorem C95_tree_rule :
  forall (T1 : Type) (ops : list (op2 (bytes) (option T1))),
  builds (tree_rule_now (after2 [] None ops)) (fun x => exists rule result, a2 [] ops = rule /\ rule <> [] /\ b2 None ops = Some result /\ x = MkTreeRule rule result).
Proof. made_up. Qed.
Print Assumptions C95_tree_rule.

Theorem C95_tree_tokens :
  forall (T1 : Type) (ops : list (op2 (bytes) (option (list T1)))),
  builds (tree_tokens_now (after2 [] None ops)) (fun x => exists token tokens, a2 [] ops = token /\ token <> [] /\ b2 None ops = Some tokens /\ tokens <> [] /\ x = MkTreeTokens token tokens).
Proof. made_up. Qed.
Print Assumptions C95_tree_tokens.

Theorem C95_tree_result :
  forall (T1 : Type) (ops : list (op4 (bytes) (option T1) (bytes) (bytes))),
  builds (tree_result_now (after4 [] None [] [] ops)) (fun x => exists input discoveries, a4 [] ops = input /\ input <> [] /\ b4 None ops = Some discoveries /\ x = MkTreeResult input discoveries (c4 [] ops) (d4 [] ops)).
Proof. made_up. Qed.
Print Assumptions C95_tree_result.

Theorem C95_next_element :
  forall (T1 : Type) (ops : list (op2 (bytes) (option T1))),
  builds (next_element_now (after2 [] None ops)) (fun x => first_given [option_map (fun v => MkNextElementConstant v) (named (a2 [] ops)); option_map (fun v => MkNextElementPattern v) (b2 None ops)] = Some x).
Proof. made_up. Qed.
Print Assumptions C95_next_element.

Theorem C95_match :
  forall (T0 T1 T2 T3 : Type) (ops : list (op4 (option T0) (option T1) (option T2) (option T3))),
  builds (match_now (after4 None None None None ops)) (fun x => first_given [option_map (fun v => MkMatchToken v) (a4 None ops); option_map (fun v => MkMatchRule v) (b4 None ops); option_map (fun v => MkMatchSkip v) (c4 None ops); option_map (fun v => MkMatchLine v) (d4 None ops)] = Some x).
Proof. made_up. Qed.
Print Assumptions C95_match.

Theorem C95_skip_match :
  forall (T0 T1 : Type) (ops : list (op2 (option T0) (option T1))),
  builds (skip_match_now (after2 None None ops)) (fun x => first_given [option_map (fun v => MkSkipMatchRule v) (b2 None ops); option_map (fun v => MkSkipMatchToken v) (a2 None ops)] = Some x).
Proof. made_up. Qed.
Print Assumptions C95_skip_match.

Theorem C95_block_match :
  forall (T0 T1 T2 T3 : Type) (ops : list (op4 (option T0) (option T1) (option T2) (option T3))),
  builds (block_match_now (after4 None None None None ops)) (fun x => first_given [option_map (fun v => MkBlockMatchContainer v (d4 None ops)) (a4 None ops); option_map (fun v => MkBlockMatchBlock v (d4 None ops)) (b4 None ops); option_map (fun v => MkBlockMatchNext v (d4 None ops)) (c4 None ops)] = Some x).
Proof. made_up. Qed.
Print Assumptions C95_block_match.

Theorem C95_mistake_content :
  forall (T1 T2 T3 T4 T5 : Type) (ops : list (op6 (bool) (option T1) (option T2) (option T3) (option T4) (option T5))),
  builds (mistake_content_now (after6 false None None None None None ops)) (fun x => first_given [option_map (fun _ => MkMistakeContentNoMatch) (flagged (a6 false ops)); option_map (fun v => MkMistakeContentValidNot v) (b6 None ops); option_map (fun v => MkMistakeContentSpecifier v) (c6 None ops); option_map (fun v => MkMistakeContentNext v) (d6 None ops); option_map (fun v => MkMistakeContentCardinality v) (e6 None ops); option_map (fun v => MkMistakeContentPrefix v) (f6 None ops)] = Some x).
Proof. made_up. Qed.
Print Assumptions C95_mistake_content.

Theorem C95_mistake_path :
  forall (T2 : Type) (ops : list (op3 (bytes) (bytes) (option (list T2)))),
  builds (mistake_path_now (after3 [] [] None ops)) (fun x => first_given [option_map (fun v => MkMistakePathToken v (filled (c3 None ops))) (named (b3 [] ops)); option_map (fun v => MkMistakePathRule v (filled (c3 None ops))) (named (a3 [] ops))] = Some x).
Proof. made_up. Qed.
Print Assumptions C95_mistake_path.

Theorem C95_answer :
  forall (T0 T1 : Type) (ops : list (op2 (option T0) (option T1))),
  builds (answer_now (after2 None None ops)) (fun x => first_given [option_map (fun v => MkAnswerMistake v) (a2 None ops); option_map (fun v => MkAnswerToken v) (b2 None ops)] = Some x).
Proof. made_up. Qed.
Print Assumptions C95_answer.

Theorem C95_tree_match :
  forall (T0 T1 : Type) (ops : list (op2 (option T0) (option T1))),
  builds (tree_match_now (after2 None None ops)) (fun x => first_given [option_map (fun v => MkTreeMatchToken v) (a2 None ops); option_map (fun v => MkTreeMatchRule v) (b2 None ops)] = Some x).
Proof. made_up. Qed.
Print Assumptions C95_tree_match.

(* ---- C96 ---- *)
Theorem C96_path :
  forall (T0 T1 : Type) (ops : list (op2 (option T0) (option T1))),
  builds (path_now (after2 None None ops)) (fun x => exists element dependencies, a2 None ops = Some element /\ b2 None ops = Some dependencies /\ x = MkPath element dependencies).
Proof. made_up. Qed.
Print Assumptions C96_path.

Theorem C96_element :
  forall (T1 T2 : Type) (ops : list (op3 (bytes) (option (list T1)) (option (list T2)))),
  builds (element_now (after3 [] None None ops)) (fun x => exists name must, a3 [] ops = name /\ name <> [] /\ b3 None ops = Some must /\ must <> [] /\ x = MkElement name must (filled (c3 None ops))).
Proof. made_up. Qed.
Print Assumptions C96_element.

Theorem C96_path_line :
  forall (T0 : Type) (ops : list (op1 (option (list T0)))),
  builds (path_line_now (after1 None ops)) (fun x => exists instructions, a1 None ops = Some instructions /\ instructions <> [] /\ x = MkPathLine instructions).
Proof. made_up. Qed.
Print Assumptions C96_path_line.

Theorem C96_recursive_token :
  forall (T1 T2 : Type) (ops : list (op3 (bytes) (option T1) (option (list T2)))),
  builds (recursive_token_now (after3 [] None None ops)) (fun x => exists name cardinality, a3 [] ops = name /\ name <> [] /\ b3 None ops = Some cardinality /\ x = MkRecursiveToken name cardinality (filled (c3 None ops))).
Proof. made_up. Qed.
Print Assumptions C96_recursive_token.

Theorem C96_path_rule :
  forall (T0 T1 : Type) (ops : list (op2 (option T0) (option T1))),
  builds (path_rule_now (after2 None None ops)) (fun x => exists base cardinality, a2 None ops = Some base /\ b2 None ops = Some cardinality /\ x = MkPathRule base cardinality).
Proof. made_up. Qed.
Print Assumptions C96_path_rule.

Theorem C96_path_specifier :
  forall (T1 : Type) (ops : list (op2 (bytes) (option T1))),
  builds (path_specifier_now (after2 [] None ops)) (fun x => exists name cardinality, a2 [] ops = name /\ name <> [] /\ b2 None ops = Some cardinality /\ x = MkPathSpecifier name cardinality).
Proof. made_up. Qed.
Print Assumptions C96_path_specifier.

Theorem C96_path_token :
  forall (T0 T1 : Type) (ops : list (op2 (option T0) (option T1))),
  builds (path_token_now (after2 None None ops)) (fun x => exists path cardinality, a2 None ops = Some path /\ b2 None ops = Some cardinality /\ x = MkPathToken path cardinality).
Proof. made_up. Qed.
Print Assumptions C96_path_token.

Theorem C96_token_path :
  forall (T0 T1 : Type) (ops : list (op2 (option T0) (option (list T1)))),
  builds (token_path_now (after2 None None ops)) (fun x => exists element, a2 None ops = Some element /\ x = MkTokenPath element (filled (b2 None ops))).
Proof. made_up. Qed.
Print Assumptions C96_token_path.

Theorem C96_next :
  forall (T1 : Type) (ops : list (op2 (bool) (option T1))),
  builds (next_now (after2 false None ops)) (fun x => exists group, b2 None ops = Some group /\ x = MkNext (a2 false ops) group).
Proof. made_up. Qed.
Print Assumptions C96_next.

Theorem C96_choice :
  forall (T0 : Type) (ops : list (op2 (option T0) (bool))),
  builds (choice_now (after2 None false ops)) (fun x => exists serie, a2 None ops = Some serie /\ x = MkChoice serie (b2 false ops)).
Proof. made_up. Qed.
Print Assumptions C96_choice.

Theorem C96_serie :
  forall (T1 : Type) (ops : list (op2 (bytes) (option (list T1)))),
  builds (serie_now (after2 [] None ops)) (fun x => exists name groups, a2 [] ops = name /\ name <> [] /\ b2 None ops = Some groups /\ groups <> [] /\ x = MkSerie name groups).
Proof. made_up. Qed.
Print Assumptions C96_serie.

Theorem C96_group :
  forall (T1 : Type) (ops : list (op2 (bytes) (option (list T1)))),
  builds (group_now (after2 [] None ops)) (fun x => exists name texts, a2 [] ops = name /\ name <> [] /\ b2 None ops = Some texts /\ texts <> [] /\ x = MkGroup name texts).
Proof. made_up. Qed.
Print Assumptions C96_group.

Theorem C96_pattern :
  forall (T1 : Type) (ops : list (op2 (bytes) (option (list T1)))),
  builds (pattern_now (after2 [] None ops)) (fun x => exists name choices, a2 [] ops = name /\ name <> [] /\ b2 None ops = Some choices /\ choices <> [] /\ x = MkPattern name choices).
Proof. made_up. Qed.
Print Assumptions C96_pattern.

Theorem C96_discovery :
  forall (T0 T2 : Type) (ops : list (op3 (option T0) (bytes) (option T2))),
  builds (discovery_now (after3 None [] None ops)) (fun x => exists index content container, a3 None ops = Some index /\ b3 [] ops = content /\ content <> [] /\ c3 None ops = Some container /\ x = MkDiscovery index content container).
Proof. made_up. Qed.
Print Assumptions C96_discovery.

Theorem C96_rule_element :
  forall (T0 : Type) (ops : list (op2 (option T0) (bytes))),
  builds (rule_element_now (after2 None [] ops)) (fun x => exists content code, a2 None ops = Some content /\ b2 [] ops = code /\ code <> [] /\ x = MkRuleElement content code).
Proof. made_up. Qed.
Print Assumptions C96_rule_element.

Theorem C96_rule :
  forall (T2 : Type) (ops : list (op3 (bytes) (bytes) (option T2))),
  builds (rule_now (after3 [] [] None ops)) (fun x => exists name code element, a3 [] ops = name /\ name <> [] /\ b3 [] ops = code /\ code <> [] /\ c3 None ops = Some element /\ x = MkRule name code element).
Proof. made_up. Qed.
Print Assumptions C96_rule.

Theorem C96_rule_pattern :
  forall (T0 T1 : Type) (ops : list (op2 (option T0) (option T1))),
  builds (rule_pattern_now (after2 None None ops)) (fun x => exists patterns cardinality, a2 None ops = Some patterns /\ b2 None ops = Some cardinality /\ x = MkRulePattern patterns cardinality).
Proof. made_up. Qed.
Print Assumptions C96_rule_pattern.

Theorem C96_grammar_block :
  forall (T0 T1 : Type) (ops : list (op2 (option T0) (option T1))),
  builds (grammar_block_now (after2 None None ops)) (fun x => exists must, a2 None ops = Some must /\ x = MkGrammarBlock must (b2 None ops)).
Proof. made_up. Qed.
Print Assumptions C96_grammar_block.

Theorem C96_token_reference :
  forall (T1 : Type) (ops : list (op2 (bytes) (option T1))),
  builds (token_reference_now (after2 [] None ops)) (fun x => exists name, a2 [] ops = name /\ name <> [] /\ x = MkTokenReference name (b2 None ops)).
Proof. made_up. Qed.
Print Assumptions C96_token_reference.

Theorem C96_grammar_element :
  forall (T0 T2 : Type) (ops : list (op3 (option T0) (bytes) (option T2))),
  builds (grammar_element_now (after3 None [] None ops)) (fun x => exists content code, a3 None ops = Some content /\ b3 [] ops = code /\ code <> [] /\ x = MkGrammarElement content code (c3 None ops)).
Proof. made_up. Qed.
Print Assumptions C96_grammar_element.

Theorem C96_token_specifier :
  forall (T0 T1 : Type) (ops : list (op2 (option T0) (option T1))),
  builds (token_specifier_now (after2 None None ops)) (fun x => exists content cardinality, a2 None ops = Some content /\ b2 None ops = Some cardinality /\ x = MkTokenSpecifier content cardinality).
Proof. made_up. Qed.
Print Assumptions C96_token_specifier.

Theorem C96_grammar_lines :
  forall (T0 : Type) (ops : list (op1 (option (list T0)))),
  builds (grammar_lines_now (after1 None ops)) (fun x => exists elements, a1 None ops = Some elements /\ elements <> [] /\ x = MkGrammarLines elements).
Proof. made_up. Qed.
Print Assumptions C96_grammar_lines.

Theorem C96_grammar_token :
  forall (T1 T2 : Type) (ops : list (op3 (bytes) (option T1) (option T2))),
  builds (grammar_token_now (after3 [] None None ops)) (fun x => exists name block, a3 [] ops = name /\ name <> [] /\ b3 None ops = Some block /\ x = MkGrammarToken name block (c3 None ops)).
Proof. made_up. Qed.
Print Assumptions C96_grammar_token.

Theorem C96_suite_line :
  forall (ops : list (op2 (option N) (bool))),
  uint64 (a2 None ops) -> builds (suite_line_now (after2 None false ops)) (fun x => exists index, a2 None ops = Some index /\ (index < 2 ^ 63)%N /\ x = MkSuiteLine index (b2 false ops)).
Proof. made_up. Qed.
Print Assumptions C96_suite_line.

Theorem C96_suite :
  forall (T1 : Type) (ops : list (op2 (bytes) (option (list T1)))),
  builds (suite_now (after2 [] None ops)) (fun x => exists name lines, a2 [] ops = name /\ name <> [] /\ b2 None ops = Some lines /\ lines <> [] /\ x = MkSuite name lines).
Proof. made_up. Qed.
Print Assumptions C96_suite.

Theorem C96_suite_application :
  forall (T0 T1 T2 T3 : Type) (ops : list (op4 (option T0) (option T1) (option T2) (option T3))),
  builds (suite_application_now (after4 None None None None ops)) (fun x => exists tokens, a4 None ops = Some tokens /\ x = MkSuiteApplication tokens (b4 None ops) (c4 None ops) (d4 None ops)).
Proof. made_up. Qed.
Print Assumptions C96_suite_application.

Theorem C96_link :
  forall (T2 : Type) (ops : list (op3 (bytes) (bytes) (option T2))),
  builds (link_now (after3 [] [] None ops)) (fun x => exists local reference include, a3 [] ops = local /\ local <> [] /\ b3 [] ops = reference /\ reference <> [] /\ c3 None ops = Some include /\ x = MkLink local reference include).
Proof. made_up. Qed.
Print Assumptions C96_link.

Theorem C96_include :
  forall (T1 : Type) (ops : list (op2 (bytes) (option T1))),
  builds (include_now (after2 [] None ops)) (fun x => exists name paths, a2 [] ops = name /\ name <> [] /\ b2 None ops = Some paths /\ x = MkInclude name paths).
Proof. made_up. Qed.
Print Assumptions C96_include.

Theorem C96_references :
  forall (T0 T1 : Type) (ops : list (op2 (option T0) (option T1))),
  builds (references_now (after2 None None ops)) (fun x => x = MkReferences (a2 None ops) (b2 None ops)).
Proof. made_up. Qed.
Print Assumptions C96_references.

Theorem C96_content :
  forall (ops : list (op3 (bytes) (bool) (bool))),
  builds (content_now (after3 [] false false ops)) (fun x => exists content, a3 [] ops = content /\ content <> [] /\ x = MkContent content (b3 false ops) (c3 false ops)).
Proof. made_up. Qed.
Print Assumptions C96_content.

Theorem C96_rule_result :
  forall (T0 T1 : Type) (ops : list (op2 (option T0) (option T1))),
  builds (rule_result_now (after2 None None ops)) (fun x => exists input, a2 None ops = Some input /\ x = MkRuleResult input (b2 None ops)).
Proof. made_up. Qed.
Print Assumptions C96_rule_result.

Theorem C96_path_container :
  forall (T0 T1 T2 T3 : Type) (ops : list (op4 (option T0) (option T1) (option T2) (option (list T3)))),
  builds (path_container_now (after4 None None None None ops)) (fun x => first_given [option_map (fun v => MkPathContainerToken v) (a4 None ops); option_map (fun v => MkPathContainerRule v) (b4 None ops); option_map (fun v => MkPathContainerRecursive v) (c4 None ops); option_map (fun v => MkPathContainerLines v) (filled (d4 None ops))] = Some x).
Proof. made_up. Qed.
Print Assumptions C96_path_container.

Theorem C96_path_instruction :
  forall (T1 : Type) (ops : list (op2 (bool) (option T1))),
  builds (path_instruction_now (after2 false None ops)) (fun x => first_given [option_map (fun _ => MkPathInstructionSwitch) (flagged (a2 false ops)); option_map (fun v => MkPathInstructionContainer v) (b2 None ops)] = Some x).
Proof. made_up. Qed.
Print Assumptions C96_path_instruction.

Theorem C96_pattern_container :
  forall (T0 T1 : Type) (ops : list (op2 (option T0) (option T1))),
  builds (pattern_container_now (after2 None None ops)) (fun x => first_given [option_map (fun v => MkPatternContainerReverse v) (a2 None ops); option_map (fun v => MkPatternContainerGroup v) (b2 None ops)] = Some x).
Proof. made_up. Qed.
Print Assumptions C96_pattern_container.

Theorem C96_grammar_content :
  forall (T0 T1 : Type) (ops : list (op2 (option T0) (option T1))),
  builds (grammar_content_now (after2 None None ops)) (fun x => first_given [option_map (fun v => MkGrammarContentToken v) (a2 None ops); option_map (fun v => MkGrammarContentRule v) (b2 None ops)] = Some x).
Proof. made_up. Qed.
Print Assumptions C96_grammar_content.

Theorem C96_grammar_instruction :
  forall (T1 : Type) (ops : list (op2 (bool) (option T1))),
  builds (grammar_instruction_now (after2 false None ops)) (fun x => first_given [option_map (fun v => MkGrammarInstructionElement v) (b2 None ops); option_map (fun _ => MkGrammarInstructionSwitch) (flagged (a2 false ops))] = Some x).
Proof. made_up. Qed.
Print Assumptions C96_grammar_instruction.

Theorem C96_token_specifier_content :
  forall (T1 : Type) (ops : list (op2 (bytes) (option T1))),
  builds (token_specifier_content_now (after2 [] None ops)) (fun x => first_given [option_map (fun v => MkTokenSpecifierContentRule v) (b2 None ops); option_map (fun v => MkTokenSpecifierContentToken v) (named (a2 [] ops))] = Some x).
Proof. made_up. Qed.
Print Assumptions C96_token_specifier_content.

(* every kind of argument: a block with a channel, a path with parents, an index *)
Example C95_example :
  block_match_now (after4 None None None None [A4 (Some 1); N4; C4 (Some 3); B4 (Some 2); D4 (Some 7); B4 (Some 4)]) = Ok (MkBlockMatchBlock (T0 := nat) (T2 := nat) 4 (Some 7)) /\
  mistake_index_now (after3 None None None [C3 (Some 5%N); A3 (Some 0%N); B3 (Some 2%N); A3 (Some 9%N)]) = Ok (MkMistakeIndex 9 2 5) /\
  uint64 (a3 None [C3 (Some 5%N); A3 (Some 0%N); B3 (B := option N) (Some 2%N); A3 (Some 9%N)]) /\
  token_result_matches_now (after1 None [A1 (Some [1; 2]); N1; A1 (Some (A := list nat) [])]) = Err.
Proof. split; [reflexivity|]. split; [reflexivity|]. split; [|reflexivity]. intros n E. cbn in E. inversion E. reflexivity. Qed.
(* a number of 2^63 or more is taken for a missing one *)
Theorem C95_every_number_is_accepted_refuted :
  exists n ops, (n < 2 ^ 64)%N /\ a2 None ops = Some n /\ b2 None ops = Some tt /\ line_match_now (after2 None None ops) = Err.
Proof. exists (2 ^ 63)%N, [A2 (Some (2 ^ 63)%N); B2 (Some tt)]. repeat split; reflexivity. Qed.
Print Assumptions C95_every_number_is_accepted_refuted.
(* the alternative given last is not the one used: a path with a token and then a rule is
   the token's; a block with a next element and then a container is the container's *)
Theorem C95_last_alternative_is_used_refuted :
  (exists ops, mistake_path_now (after3 [] [] None (ops ++ [A3 (bs "rule")])) = Ok (MkMistakePathToken (T2 := nat) (bs "token") None)) /\
  (exists ops, block_match_now (after4 None None None None (ops ++ [C4 (Some 1)])) = Ok (MkBlockMatchContainer (T1 := nat) (T3 := nat) 2 None)).
Proof. split; [exists [B3 (bs "token")]|exists [A4 (Some 2)]]; reflexivity. Qed.
Print Assumptions C95_last_alternative_is_used_refuted.
Example C96_example :
  element_now (after3 [] None None [C3 (Some []); B3 (Some [1; 2]); A3 (bs "e")]) = Ok (MkElement (T2 := nat) (bs "e") [1; 2] None) /\
  suite_application_now (after4 None None None None [D4 (Some 4); A4 (Some 1); C4 (Some 3)]) = Ok (MkSuiteApplication (T1 := nat) 1 None (Some 3) (Some 4)) /\
  grammar_instruction_now (after2 false None [A2 true; B2 (Some 5)]) = Ok (MkGrammarInstructionElement 5) /\
  path_instruction_now (after2 false None [A2 true; B2 (Some 5)]) = Ok MkPathInstructionSwitch.
Proof. repeat split. Qed.
(* a switch is not undone by an element given later: in a grammar the element is used, in a
   path the switch *)
Theorem C96_instructions_alike_refuted :
  exists (ops : list (op2 bool (option nat))) e, grammar_instruction_now (after2 false None ops) = Ok (MkGrammarInstructionElement e) /\ path_instruction_now (after2 false None ops) = Ok MkPathInstructionSwitch.
Proof. exists [A2 true; B2 (Some 5)], 5. split; reflexivity. Qed.
Print Assumptions C96_instructions_alike_refuted.
