(* BuildModel.v - the builders of domain/languages/lexers: match trees (asts/tokens),
   mistakes (asts/mistakes), syntax trees (asts), paths (asts/paths), grammars (containers),
   references, contents and test suites.  Definitions only; generated from a table of their
   fields.  As in BaseModel.v a builder is the tuple of its fields in the order of its
   struct, its methods are the steps of BaseModel.v and Now is below.  An object is what its
   accessors show: a value that may be absent is an option, a text that may be absent is "".
   Every create function of an object was read: each stores its arguments unchanged, so the
   functions With.. and the one without differ in the absent parts only.
   The field of a uint is an int; it holds the conversion of the argument, -1 at the start
   (None).  Here the argument is kept and converted in Now.  Fields that are written by no
   method (the suffix of tokencontent_builder.go, mp of dependencies_builder.go) are left
   out, and so are the builders given to a create function.
   The builders of tables (patterns/builder.go, groups_builder.go, rules/builder.go,
   tokens/builder.go, tokenspecifiers_builder.go, discoveries_builder.go,
   dependencies_builder.go) are in RuleModel.v, PathModel.v and PatModel.v, those of
   cardinality in CardModel.v, those of paths and resources in AppModel.v, those of roots in
   PartModel.v. *)
From Coq Require Import Strings.String Strings.Byte.
From Verif Require Export Go BaseModel.
Open Scope list_scope.

(* Go's int(n) for a uint64 n *)
Definition int_of (n : N) : Z := if (n <? 2 ^ 63)%N then Z.of_N n else (Z.of_N n - 2 ^ 64)%Z.
(* if field < 0 the number is missing, else uint(field) *)
Definition number (o : option N) : option N :=
  let field := match o with None => (-1)%Z | Some n => int_of n end in
  if (field <? 0)%Z then None else Some (Z.to_N field).
(* if list != nil && len(list) <= 0 then list = nil *)
Definition no_empty {A} (o : option (list A)) : option (list A) :=
  match o with Some l => if length l <=? 0 then None else o | None => None end.
(* the steps of a builder of six fields *)
Inductive op6 (A B C D E F : Type) := N6 | A6 (a : A) | B6 (b : B) | C6 (c : C) | D6 (d : D) | E6 (e : E) | F6 (f : F).
Arguments N6 {A B C D E F}. Arguments A6 {A B C D E F}. Arguments B6 {A B C D E F}. Arguments C6 {A B C D E F}. Arguments D6 {A B C D E F}. Arguments E6 {A B C D E F}. Arguments F6 {A B C D E F}.
Definition step6 {A B C D E F} (init : A * B * C * D * E * F) (s : A * B * C * D * E * F) (o : op6 A B C D E F) : A * B * C * D * E * F :=
  let '(x, y, z, t, u, v) := s in
  match o with N6 => init | A6 a => (a, y, z, t, u, v) | B6 b => (x, b, z, t, u, v) | C6 c => (x, y, c, t, u, v) | D6 d => (x, y, z, d, u, v)
             | E6 e => (x, y, z, t, e, v) | F6 f => (x, y, z, t, u, f) end.

(* asts/tokens/builder.go: create 15-23, With.. 31-46, Now 49-63 *)
Inductive x_token (T1 T2 : Type) := MkToken (name : bytes) (path : T1) (content : option T2).
Arguments MkToken {T1 T2}.
Definition token_now {T1 T2 : Type} (b : bytes * option T1 * option T2) : res (x_token T1 T2) :=
  let '(name, path, content) := b in
  match name with [] => Err | _ => match path with None => Err | Some path => Ok (MkToken name path content) end end.
(* asts/tokens/tokencontent_builder.go: create 11-19, With.. 27-36, Now 39-49 *)
Inductive x_token_content (T0 T1 : Type) := MkTokenContent (must : T0) (not_ : option T1).
Arguments MkTokenContent {T0 T1}.
Definition token_content_now {T0 T1 : Type} (b : option T0 * option T1) : res (x_token_content T0 T1) :=
  let '(must, not_) := b in
  match must with None => Err | Some must => Ok (MkTokenContent must not_) end.
(* asts/tokens/linematch_builder.go: create 10-17, With.. 25-34, Now 37-47 *)
Inductive x_line_match (T1 : Type) := MkLineMatch (index : N) (matches : T1).
Arguments MkLineMatch {T1}.
Definition line_match_now {T1 : Type} (b : option N * option T1) : res (x_line_match T1) :=
  let '(index, matches) := b in
  match number index with None => Err | Some index => match matches with None => Err | Some matches => Ok (MkLineMatch index matches) end end.
(* asts/tokens/matches_builder.go: create 9-15, With.. 23-26, Now 29-39 *)
Inductive x_matches (T0 : Type) := MkMatches (blocks : list T0).
Arguments MkMatches {T0}.
Definition matches_now {T0 : Type} (b : option (list T0)) : res (x_matches T0) :=
  let blocks := b in
  match no_empty blocks with None => Err | Some blocks => Ok (MkMatches blocks) end.
(* asts/tokens/rulematch_builder.go: create 15-23, With.. 31-46, Now 49-59 *)
Inductive x_rule_match (T0 T1 : Type) := MkRuleMatch (rule : T0) (result : T1) (prefix : bool).
Arguments MkRuleMatch {T0 T1}.
Definition rule_match_now {T0 T1 : Type} (b : option T0 * option T1 * bool) : res (x_rule_match T0 T1) :=
  let '(rule, result, prefix) := b in
  match rule with None => Err | Some rule => match result with None => Err | Some result => Ok (MkRuleMatch rule result prefix) end end.
(* asts/tokens/rulematchresult_builder.go: create 14-21, With.. 29-38, Now 41-51 *)
Inductive x_rule_match_result (T0 T1 : Type) := MkRuleMatchResult (path : T0) (result : T1).
Arguments MkRuleMatchResult {T0 T1}.
Definition rule_match_result_now {T0 T1 : Type} (b : option T0 * option T1) : res (x_rule_match_result T0 T1) :=
  let '(path, result) := b in
  match path with None => Err | Some path => match result with None => Err | Some result => Ok (MkRuleMatchResult path result) end end.
(* asts/tokens/specifier_builder.go: create 15-23, With.. 31-46, Now 49-63 *)
Inductive x_specifier (T1 T2 : Type) := MkSpecifier (name : bytes) (cardinality : T1) (result : T2).
Arguments MkSpecifier {T1 T2}.
Definition specifier_now {T1 T2 : Type} (b : bytes * option T1 * option T2) : res (x_specifier T1 T2) :=
  let '(name, cardinality, result) := b in
  match name with [] => Err | _ => match cardinality with None => Err | Some cardinality => match result with None => Err | Some result => Ok (MkSpecifier name cardinality result) end end end.
(* asts/tokens/tokenmatch_builder.go: create 15-23, With.. 31-46, Now 49-67 *)
Inductive x_token_match (T0 T1 T2 : Type) := MkTokenMatch (path : T0) (result : T1) (specifiers : option (list T2)).
Arguments MkTokenMatch {T0 T1 T2}.
Definition token_match_now {T0 T1 T2 : Type} (b : option T0 * option T1 * option (list T2)) : res (x_token_match T0 T1 T2) :=
  let '(path, result, specifiers) := b in
  match path with None => Err | Some path => match result with None => Err | Some result => Ok (MkTokenMatch path result (no_empty specifiers)) end end.
(* asts/tokens/tokenresult_builder.go: create 15-23, With.. 31-46, Now 49-63 *)
Inductive x_token_result (T1 T2 : Type) := MkTokenResult (input : bytes) (cardinality : T1) (matches : option T2).
Arguments MkTokenResult {T1 T2}.
Definition token_result_now {T1 T2 : Type} (b : bytes * option T1 * option T2) : res (x_token_result T1 T2) :=
  let '(input, cardinality, matches) := b in
  match input with [] => Err | _ => match cardinality with None => Err | Some cardinality => Ok (MkTokenResult input cardinality matches) end end.
(* asts/tokens/tokenresultmatches_builder.go: create 9-15, With.. 23-26, Now 29-39 *)
Inductive x_token_result_matches (T0 : Type) := MkTokenResultMatches (tokens : list T0).
Arguments MkTokenResultMatches {T0}.
Definition token_result_matches_now {T0 : Type} (b : option (list T0)) : res (x_token_result_matches T0) :=
  let tokens := b in
  match no_empty tokens with None => Err | Some tokens => Ok (MkTokenResultMatches tokens) end.
(* asts/tokens/result_builder.go: create 9-15, With.. 23-26, Now 29-39 *)
Inductive x_result (T0 : Type) := MkResult (results : option (list T0)).
Arguments MkResult {T0}.
Definition result_now {T0 : Type} (b : option (list T0)) : res (x_result T0) :=
  let results := b in
  Ok (MkResult (no_empty results)).
(* asts/mistakes/builder.go: create 11-19, With.. 27-42, Now 45-59 *)
Inductive x_mistake (T0 T1 T2 : Type) := MkMistake (index : T0) (path : T1) (content : T2).
Arguments MkMistake {T0 T1 T2}.
Definition mistake_now {T0 T1 T2 : Type} (b : option T0 * option T1 * option T2) : res (x_mistake T0 T1 T2) :=
  let '(index, path, content) := b in
  match index with None => Err | Some index => match path with None => Err | Some path => match content with None => Err | Some content => Ok (MkMistake index path content) end end end.
(* asts/mistakes/index_builder.go: create 11-19, With.. 27-42, Now 45-59 *)
Inductive x_mistake_index := MkMistakeIndex (index : N) (line : N) (column : N).
Definition mistake_index_now (b : option N * option N * option N) : res (x_mistake_index) :=
  let '(index, line, column) := b in
  match number index with None => Err | Some index => match number line with None => Err | Some line => match number column with None => Err | Some column => Ok (MkMistakeIndex index line column) end end end.
(* asts/mistakes/containsvalidnotmatch_builder.go: create 9-15, With.. 23-26, Now 29-35 *)
Inductive x_valid_not := MkValidNot (line : N).
Definition valid_not_now (b : option N) : res (x_valid_not) :=
  let line := b in
  match number line with None => Err | Some line => Ok (MkValidNot line) end.
(* asts/mistakes/specifierdonotmatch_builder.go: create 15-23, With.. 31-46, Now 49-63 *)
Inductive x_specifier_do_not_match (T1 : Type) := MkSpecifierDoNotMatch (name : bytes) (cardinality : T1) (amount : N).
Arguments MkSpecifierDoNotMatch {T1}.
Definition specifier_do_not_match_now {T1 : Type} (b : bytes * option T1 * option N) : res (x_specifier_do_not_match T1) :=
  let '(name, cardinality, amount) := b in
  match name with [] => Err | _ => match cardinality with None => Err | Some cardinality => match number amount with None => Err | Some amount => Ok (MkSpecifierDoNotMatch name cardinality amount) end end end.
(* asts/mistakes/containsnextelement_builder.go: create 13-19, With.. 27-30, Now 33-39 *)
Inductive x_contains_next (T0 : Type) := MkContainsNext (nxt : T0).
Arguments MkContainsNext {T0}.
Definition contains_next_now {T0 : Type} (b : option T0) : res (x_contains_next T0) :=
  let nxt := b in
  match nxt with None => Err | Some nxt => Ok (MkContainsNext nxt) end.
(* asts/mistakes/cardinalityisinvalid_builder.go: create 14-21, With.. 29-38, Now 41-51 *)
Inductive x_cardinality_is_invalid (T0 : Type) := MkCardinalityIsInvalid (cardinality : T0) (amount : N).
Arguments MkCardinalityIsInvalid {T0}.
Definition cardinality_is_invalid_now {T0 : Type} (b : option T0 * option N) : res (x_cardinality_is_invalid T0) :=
  let '(cardinality, amount) := b in
  match cardinality with None => Err | Some cardinality => match number amount with None => Err | Some amount => Ok (MkCardinalityIsInvalid cardinality amount) end end.
(* asts/mistakes/containsprefix_builder.go: create 9-15, With.. 23-26, Now 29-35 *)
Inductive x_contains_prefix := MkContainsPrefix (prefix : bytes).
Definition contains_prefix_now (b : bytes) : res (x_contains_prefix) :=
  let prefix := b in
  match prefix with [] => Err | _ => Ok (MkContainsPrefix prefix) end.
(* asts/token_builder.go: create 12-19, With.. 27-36, Now 39-49 *)
Inductive x_tree_token (T1 : Type) := MkTreeToken (name : bytes) (line : T1).
Arguments MkTreeToken {T1}.
Definition tree_token_now {T1 : Type} (b : bytes * option T1) : res (x_tree_token T1) :=
  let '(name, line) := b in
  match name with [] => Err | _ => match line with None => Err | Some line => Ok (MkTreeToken name line) end end.
(* asts/linematch_builder.go: create 10-17, With.. 25-34, Now 37-51 *)
Inductive x_tree_line (T1 : Type) := MkTreeLine (index : N) (matches : option (list T1)).
Arguments MkTreeLine {T1}.
Definition tree_line_now {T1 : Type} (b : option N * option (list T1)) : res (x_tree_line T1) :=
  let '(index, matches) := b in
  match number index with None => Err | Some index => Ok (MkTreeLine index (no_empty matches)) end.
(* asts/rulematch_builder.go: create 10-17, With.. 25-34, Now 37-47 *)
Inductive x_tree_rule (T1 : Type) := MkTreeRule (rule : bytes) (result : T1).
Arguments MkTreeRule {T1}.
Definition tree_rule_now {T1 : Type} (b : bytes * option T1) : res (x_tree_rule T1) :=
  let '(rule, result) := b in
  match rule with [] => Err | _ => match result with None => Err | Some result => Ok (MkTreeRule rule result) end end.
(* asts/tokenmatch_builder.go: create 10-17, With.. 25-34, Now 37-51 *)
Inductive x_tree_tokens (T1 : Type) := MkTreeTokens (token : bytes) (tokens : list T1).
Arguments MkTreeTokens {T1}.
Definition tree_tokens_now {T1 : Type} (b : bytes * option (list T1)) : res (x_tree_tokens T1) :=
  let '(token, tokens) := b in
  match token with [] => Err | _ => match no_empty tokens with None => Err | Some tokens => Ok (MkTreeTokens token tokens) end end.
(* asts/result_builder.go: create 16-25, With.. 33-54, Now 57-79 *)
Inductive x_tree_result (T1 : Type) := MkTreeResult (input : bytes) (discoveries : T1) (prefix : bytes) (suffix : bytes).
Arguments MkTreeResult {T1}.
Definition tree_result_now {T1 : Type} (b : bytes * option T1 * bytes * bytes) : res (x_tree_result T1) :=
  let '(input, discoveries, prefix, suffix) := b in
  match input with [] => Err | _ => match discoveries with None => Err | Some discoveries => Ok (MkTreeResult input discoveries prefix suffix) end end.
(* asts/paths/builder.go: create 10-17, With.. 25-34, Now 37-47 *)
Inductive x_path (T0 T1 : Type) := MkPath (element : T0) (dependencies : T1).
Arguments MkPath {T0 T1}.
Definition path_now {T0 T1 : Type} (b : option T0 * option T1) : res (x_path T0 T1) :=
  let '(element, dependencies) := b in
  match element with None => Err | Some element => match dependencies with None => Err | Some dependencies => Ok (MkPath element dependencies) end end.
(* asts/paths/element_builder.go: create 11-19, With.. 27-42, Now 45-67 *)
Inductive x_element (T1 T2 : Type) := MkElement (name : bytes) (must : list T1) (not_ : option (list T2)).
Arguments MkElement {T1 T2}.
Definition element_now {T1 T2 : Type} (b : bytes * option (list T1) * option (list T2)) : res (x_element T1 T2) :=
  let '(name, must, not_) := b in
  match name with [] => Err | _ => match no_empty must with None => Err | Some must => Ok (MkElement name must (no_empty not_)) end end.
(* asts/paths/line_builder.go: create 9-15, With.. 23-26, Now 29-39 *)
Inductive x_path_line (T0 : Type) := MkPathLine (instructions : list T0).
Arguments MkPathLine {T0}.
Definition path_line_now {T0 : Type} (b : option (list T0)) : res (x_path_line T0) :=
  let instructions := b in
  match no_empty instructions with None => Err | Some instructions => Ok (MkPathLine instructions) end.
(* asts/paths/recursivetoken_builder.go: create 15-23, With.. 31-46, Now 49-67 *)
Inductive x_recursive_token (T1 T2 : Type) := MkRecursiveToken (name : bytes) (cardinality : T1) (specifiers : option (list T2)).
Arguments MkRecursiveToken {T1 T2}.
Definition recursive_token_now {T1 T2 : Type} (b : bytes * option T1 * option (list T2)) : res (x_recursive_token T1 T2) :=
  let '(name, cardinality, specifiers) := b in
  match name with [] => Err | _ => match cardinality with None => Err | Some cardinality => Ok (MkRecursiveToken name cardinality (no_empty specifiers)) end end.
(* asts/paths/rule_builder.go: create 15-22, With.. 30-39, Now 42-52 *)
Inductive x_path_rule (T0 T1 : Type) := MkPathRule (base : T0) (cardinality : T1).
Arguments MkPathRule {T0 T1}.
Definition path_rule_now {T0 T1 : Type} (b : option T0 * option T1) : res (x_path_rule T0 T1) :=
  let '(base, cardinality) := b in
  match base with None => Err | Some base => match cardinality with None => Err | Some cardinality => Ok (MkPathRule base cardinality) end end.
(* asts/paths/specifier_builder.go: create 14-21, With.. 29-38, Now 41-51 *)
Inductive x_path_specifier (T1 : Type) := MkPathSpecifier (name : bytes) (cardinality : T1).
Arguments MkPathSpecifier {T1}.
Definition path_specifier_now {T1 : Type} (b : bytes * option T1) : res (x_path_specifier T1) :=
  let '(name, cardinality) := b in
  match name with [] => Err | _ => match cardinality with None => Err | Some cardinality => Ok (MkPathSpecifier name cardinality) end end.
(* asts/paths/token_builder.go: create 14-21, With.. 29-38, Now 41-51 *)
Inductive x_path_token (T0 T1 : Type) := MkPathToken (path : T0) (cardinality : T1).
Arguments MkPathToken {T0 T1}.
Definition path_token_now {T0 T1 : Type} (b : option T0 * option T1) : res (x_path_token T0 T1) :=
  let '(path, cardinality) := b in
  match path with None => Err | Some path => match cardinality with None => Err | Some cardinality => Ok (MkPathToken path cardinality) end end.
(* asts/paths/tokenpath_builder.go: create 10-17, With.. 25-34, Now 37-51 *)
Inductive x_token_path (T0 T1 : Type) := MkTokenPath (element : T0) (specifiers : option (list T1)).
Arguments MkTokenPath {T0 T1}.
Definition token_path_now {T0 T1 : Type} (b : option T0 * option (list T1)) : res (x_token_path T0 T1) :=
  let '(element, specifiers) := b in
  match element with None => Err | Some element => Ok (MkTokenPath element (no_empty specifiers)) end.
(* containers/patterns/next_builder.go: create 10-17, With.. 25-34, Now 37-43 *)
Inductive x_next (T1 : Type) := MkNext (reverse : bool) (group : T1).
Arguments MkNext {T1}.
Definition next_now {T1 : Type} (b : bool * option T1) : res (x_next T1) :=
  let '(reverse, group) := b in
  match group with None => Err | Some group => Ok (MkNext reverse group) end.
(* containers/patterns/choice_builder.go: create 10-17, With.. 25-34, Now 37-43 *)
Inductive x_choice (T0 : Type) := MkChoice (serie : T0) (reverse : bool).
Arguments MkChoice {T0}.
Definition choice_now {T0 : Type} (b : option T0 * bool) : res (x_choice T0) :=
  let '(serie, reverse) := b in
  match serie with None => Err | Some serie => Ok (MkChoice serie reverse) end.
(* containers/patterns/serie_builder.go: create 10-17, With.. 25-34, Now 37-52 *)
Inductive x_serie (T1 : Type) := MkSerie (name : bytes) (groups : list T1).
Arguments MkSerie {T1}.
Definition serie_now {T1 : Type} (b : bytes * option (list T1)) : res (x_serie T1) :=
  let '(name, groups) := b in
  match name with [] => Err | _ => match no_empty groups with None => Err | Some groups => Ok (MkSerie name groups) end end.
(* containers/patterns/group_builder.go: create 10-17, With.. 25-34, Now 37-52 *)
Inductive x_group (T1 : Type) := MkGroup (name : bytes) (texts : list T1).
Arguments MkGroup {T1}.
Definition group_now {T1 : Type} (b : bytes * option (list T1)) : res (x_group T1) :=
  let '(name, texts) := b in
  match name with [] => Err | _ => match no_empty texts with None => Err | Some texts => Ok (MkGroup name texts) end end.
(* containers/patterns/pattern_builder.go: create 10-17, With.. 25-34, Now 37-52 *)
Inductive x_pattern (T1 : Type) := MkPattern (name : bytes) (choices : list T1).
Arguments MkPattern {T1}.
Definition pattern_now {T1 : Type} (b : bytes * option (list T1)) : res (x_pattern T1) :=
  let '(name, choices) := b in
  match name with [] => Err | _ => match no_empty choices with None => Err | Some choices => Ok (MkPattern name choices) end end.
(* containers/patterns/discovery_builder.go: create 11-19, With.. 27-42, Now 45-59 *)
Inductive x_discovery (T0 T2 : Type) := MkDiscovery (index : T0) (content : bytes) (container : T2).
Arguments MkDiscovery {T0 T2}.
Definition discovery_now {T0 T2 : Type} (b : option T0 * bytes * option T2) : res (x_discovery T0 T2) :=
  let '(index, content, container) := b in
  match index with None => Err | Some index => match content with [] => Err | _ => match container with None => Err | Some container => Ok (MkDiscovery index content container) end end end.
(* containers/rules/element_builder.go: create 10-17, With.. 25-34, Now 37-47 *)
Inductive x_rule_element (T0 : Type) := MkRuleElement (content : T0) (code : bytes).
Arguments MkRuleElement {T0}.
Definition rule_element_now {T0 : Type} (b : option T0 * bytes) : res (x_rule_element T0) :=
  let '(content, code) := b in
  match content with None => Err | Some content => match code with [] => Err | _ => Ok (MkRuleElement content code) end end.
(* containers/rules/rule_builder.go: create 11-19, With.. 27-42, Now 45-59 *)
Inductive x_rule (T2 : Type) := MkRule (name : bytes) (code : bytes) (element : T2).
Arguments MkRule {T2}.
Definition rule_now {T2 : Type} (b : bytes * bytes * option T2) : res (x_rule T2) :=
  let '(name, code, element) := b in
  match name with [] => Err | _ => match code with [] => Err | _ => match element with None => Err | Some element => Ok (MkRule name code element) end end end.
(* containers/rules/pattern_builder.go: create 15-22, With.. 30-39, Now 42-52 *)
Inductive x_rule_pattern (T0 T1 : Type) := MkRulePattern (patterns : T0) (cardinality : T1).
Arguments MkRulePattern {T0 T1}.
Definition rule_pattern_now {T0 T1 : Type} (b : option T0 * option T1) : res (x_rule_pattern T0 T1) :=
  let '(patterns, cardinality) := b in
  match patterns with None => Err | Some patterns => match cardinality with None => Err | Some cardinality => Ok (MkRulePattern patterns cardinality) end end.
(* containers/tokens/block_builder.go: create 10-17, With.. 25-34, Now 37-47 *)
Inductive x_grammar_block (T0 T1 : Type) := MkGrammarBlock (must : T0) (not_ : option T1).
Arguments MkGrammarBlock {T0 T1}.
Definition grammar_block_now {T0 T1 : Type} (b : option T0 * option T1) : res (x_grammar_block T0 T1) :=
  let '(must, not_) := b in
  match must with None => Err | Some must => Ok (MkGrammarBlock must not_) end.
(* containers/tokens/tokenreference_builder.go: create 10-17, With.. 25-34, Now 37-47 *)
Inductive x_token_reference (T1 : Type) := MkTokenReference (name : bytes) (specifiers : option T1).
Arguments MkTokenReference {T1}.
Definition token_reference_now {T1 : Type} (b : bytes * option T1) : res (x_token_reference T1) :=
  let '(name, specifiers) := b in
  match name with [] => Err | _ => Ok (MkTokenReference name specifiers) end.
(* containers/tokens/element_builder.go: create 15-23, With.. 31-46, Now 49-63 *)
Inductive x_grammar_element (T0 T2 : Type) := MkGrammarElement (content : T0) (code : bytes) (cardinality : option T2).
Arguments MkGrammarElement {T0 T2}.
Definition grammar_element_now {T0 T2 : Type} (b : option T0 * bytes * option T2) : res (x_grammar_element T0 T2) :=
  let '(content, code, cardinality) := b in
  match content with None => Err | Some content => match code with [] => Err | _ => Ok (MkGrammarElement content code cardinality) end end.
(* containers/tokens/tokenspecifier_builder.go: create 14-21, With.. 29-38, Now 41-51 *)
Inductive x_token_specifier (T0 T1 : Type) := MkTokenSpecifier (content : T0) (cardinality : T1).
Arguments MkTokenSpecifier {T0 T1}.
Definition token_specifier_now {T0 T1 : Type} (b : option T0 * option T1) : res (x_token_specifier T0 T1) :=
  let '(content, cardinality) := b in
  match content with None => Err | Some content => match cardinality with None => Err | Some cardinality => Ok (MkTokenSpecifier content cardinality) end end.
(* containers/tokens/lines_builder.go, line_builder.go, testsuite_builder.go: create 9-15, With.. 23-26, Now 29-39 *)
Inductive x_grammar_lines (T0 : Type) := MkGrammarLines (elements : list T0).
Arguments MkGrammarLines {T0}.
Definition grammar_lines_now {T0 : Type} (b : option (list T0)) : res (x_grammar_lines T0) :=
  let elements := b in
  match no_empty elements with None => Err | Some elements => Ok (MkGrammarLines elements) end.
(* containers/tokens/token_builder.go: create 11-19, With.. 27-42, Now 45-59 *)
Inductive x_grammar_token (T1 T2 : Type) := MkGrammarToken (name : bytes) (block : T1) (tests : option T2).
Arguments MkGrammarToken {T1 T2}.
Definition grammar_token_now {T1 T2 : Type} (b : bytes * option T1 * option T2) : res (x_grammar_token T1 T2) :=
  let '(name, block, tests) := b in
  match name with [] => Err | _ => match block with None => Err | Some block => Ok (MkGrammarToken name block tests) end end.
(* suites/line_builder.go: create 10-17, With.. 25-34, Now 37-43 *)
Inductive x_suite_line := MkSuiteLine (index : N) (success : bool).
Definition suite_line_now (b : option N * bool) : res (x_suite_line) :=
  let '(index, success) := b in
  match number index with None => Err | Some index => Ok (MkSuiteLine index success) end.
(* suites/builder.go: create 10-17, With.. 25-34, Now 37-51 *)
Inductive x_suite (T1 : Type) := MkSuite (name : bytes) (lines : list T1).
Arguments MkSuite {T1}.
Definition suite_now {T1 : Type} (b : bytes * option (list T1)) : res (x_suite T1) :=
  let '(name, lines) := b in
  match name with [] => Err | _ => match no_empty lines with None => Err | Some lines => Ok (MkSuite name lines) end end.
(* suites/application_builder.go: create 21-37, With.. 49-70, Now 73-159 *)
Inductive x_suite_application (T0 T1 T2 T3 : Type) := MkSuiteApplication (tokens : T0) (channels : option T1) (not_found : option T2) (replacement : option T3).
Arguments MkSuiteApplication {T0 T1 T2 T3}.
Definition suite_application_now {T0 T1 T2 T3 : Type} (b : option T0 * option T1 * option T2 * option T3) : res (x_suite_application T0 T1 T2 T3) :=
  let '(tokens, channels, not_found, replacement) := b in
  match tokens with None => Err | Some tokens => Ok (MkSuiteApplication tokens channels not_found replacement) end.
(* references/links/link_builder.go: create 13-21, With.. 29-44, Now 47-61 *)
Inductive x_link (T2 : Type) := MkLink (local : bytes) (reference : bytes) (include : T2).
Arguments MkLink {T2}.
Definition link_now {T2 : Type} (b : bytes * bytes * option T2) : res (x_link T2) :=
  let '(local, reference, include) := b in
  match local with [] => Err | _ => match reference with [] => Err | _ => match include with None => Err | Some include => Ok (MkLink local reference include) end end end.
(* references/links/include_builder.go: create 14-21, With.. 29-38, Now 41-51 *)
Inductive x_include (T1 : Type) := MkInclude (name : bytes) (paths : T1).
Arguments MkInclude {T1}.
Definition include_now {T1 : Type} (b : bytes * option T1) : res (x_include T1) :=
  let '(name, paths) := b in
  match name with [] => Err | _ => match paths with None => Err | Some paths => Ok (MkInclude name paths) end end.
(* references/builder.go: create 12-19, With.. 27-36, Now 39-53 *)
Inductive x_references (T0 T1 : Type) := MkReferences (references : option T0) (replacements : option T1).
Arguments MkReferences {T0 T1}.
Definition references_now {T0 T1 : Type} (b : option T0 * option T1) : res (x_references T0 T1) :=
  let '(references, replacements) := b in
  Ok (MkReferences references replacements).
(* contents/builder.go: create 11-19, With.. 27-42, Now 45-63 *)
Inductive x_content := MkContent (content : bytes) (prefix_legal : bool) (suffix_legal : bool).
Definition content_now (b : bytes * bool * bool) : res (x_content) :=
  let '(content, prefix_legal, suffix_legal) := b in
  match content with [] => Err | _ => Ok (MkContent content prefix_legal suffix_legal) end.
(* asts/results/builder.go: create 15-22, With.. 30-39, Now 42-53 *)
Inductive x_rule_result (T0 T1 : Type) := MkRuleResult (input : T0) (matches : option T1).
Arguments MkRuleResult {T0 T1}.
Definition rule_result_now {T0 T1 : Type} (b : option T0 * option T1) : res (x_rule_result T0 T1) :=
  let '(input, matches) := b in
  match input with None => Err | Some input => Ok (MkRuleResult input matches) end.
(* asts/tokens/nextelement_builder.go: create 14-21, With.. 29-38, Now 41-51 *)
Inductive x_next_element (T1 : Type) := MkNextElementConstant (const : bytes) | MkNextElementPattern (pattern : T1).
Arguments MkNextElementConstant {T1}.
Arguments MkNextElementPattern {T1}.
Definition next_element_now {T1 : Type} (b : bytes * option T1) : res (x_next_element T1) :=
  let '(const, pattern) := b in
  match const with _ :: _ => Ok (MkNextElementConstant const) | [] =>
  match pattern with Some pattern => Ok (MkNextElementPattern pattern) | None =>
  Err end end.
(* asts/tokens/match_builder.go: create 14-23, With.. 31-52, Now 55-77 *)
Inductive x_match (T0 T1 T2 T3 : Type) := MkMatchToken (token : T0) | MkMatchRule (rule : T1) | MkMatchSkip (skip : T2) | MkMatchLine (line : T3).
Arguments MkMatchToken {T0 T1 T2 T3}.
Arguments MkMatchRule {T0 T1 T2 T3}.
Arguments MkMatchSkip {T0 T1 T2 T3}.
Arguments MkMatchLine {T0 T1 T2 T3}.
Definition match_now {T0 T1 T2 T3 : Type} (b : option T0 * option T1 * option T2 * option T3) : res (x_match T0 T1 T2 T3) :=
  let '(token, rule, skip, line) := b in
  match token with Some token => Ok (MkMatchToken token) | None =>
  match rule with Some rule => Ok (MkMatchRule rule) | None =>
  match skip with Some skip => Ok (MkMatchSkip skip) | None =>
  match line with Some line => Ok (MkMatchLine line) | None =>
  Err end end end end.
(* asts/tokens/skipmatch_builder.go: create 10-17, With.. 25-34, Now 37-49 *)
Inductive x_skip_match (T0 T1 : Type) := MkSkipMatchRule (rule : T1) | MkSkipMatchToken (token : T0).
Arguments MkSkipMatchRule {T0 T1}.
Arguments MkSkipMatchToken {T0 T1}.
Definition skip_match_now {T0 T1 : Type} (b : option T0 * option T1) : res (x_skip_match T0 T1) :=
  let '(token, rule) := b in
  match rule with Some rule => Ok (MkSkipMatchRule rule) | None =>
  match token with Some token => Ok (MkSkipMatchToken token) | None =>
  Err end end.
(* asts/tokens/blockmatch_builder.go: create 12-21, With.. 29-52, Now 55-82 *)
Inductive x_block_match (T0 T1 T2 T3 : Type) := MkBlockMatchContainer (container : T0) (channel : option T3) | MkBlockMatchBlock (block : T1) (channel : option T3) | MkBlockMatchNext (nxt : T2) (channel : option T3).
Arguments MkBlockMatchContainer {T0 T1 T2 T3}.
Arguments MkBlockMatchBlock {T0 T1 T2 T3}.
Arguments MkBlockMatchNext {T0 T1 T2 T3}.
Definition block_match_now {T0 T1 T2 T3 : Type} (b : option T0 * option T1 * option T2 * option T3) : res (x_block_match T0 T1 T2 T3) :=
  let '(container, block, nxt, channel) := b in
  match container with Some container => Ok (MkBlockMatchContainer container channel) | None =>
  match block with Some block => Ok (MkBlockMatchBlock block channel) | None =>
  match nxt with Some nxt => Ok (MkBlockMatchNext nxt channel) | None =>
  Err end end end.
(* asts/mistakes/content_builder.go: create 14-25, With.. 33-66, Now 69-95 *)
Inductive x_mistake_content (T1 T2 T3 T4 T5 : Type) := MkMistakeContentNoMatch | MkMistakeContentValidNot (valid_not : T1) | MkMistakeContentSpecifier (specifier : T2) | MkMistakeContentNext (nxt : T3) | MkMistakeContentCardinality (cardinality : T4) | MkMistakeContentPrefix (prefix : T5).
Arguments MkMistakeContentNoMatch {T1 T2 T3 T4 T5}.
Arguments MkMistakeContentValidNot {T1 T2 T3 T4 T5}.
Arguments MkMistakeContentSpecifier {T1 T2 T3 T4 T5}.
Arguments MkMistakeContentNext {T1 T2 T3 T4 T5}.
Arguments MkMistakeContentCardinality {T1 T2 T3 T4 T5}.
Arguments MkMistakeContentPrefix {T1 T2 T3 T4 T5}.
Definition mistake_content_now {T1 T2 T3 T4 T5 : Type} (b : bool * option T1 * option T2 * option T3 * option T4 * option T5) : res (x_mistake_content T1 T2 T3 T4 T5) :=
  let '(no_match, valid_not, specifier, nxt, cardinality, prefix) := b in
  if no_match then Ok MkMistakeContentNoMatch else
  match valid_not with Some valid_not => Ok (MkMistakeContentValidNot valid_not) | None =>
  match specifier with Some specifier => Ok (MkMistakeContentSpecifier specifier) | None =>
  match nxt with Some nxt => Ok (MkMistakeContentNext nxt) | None =>
  match cardinality with Some cardinality => Ok (MkMistakeContentCardinality cardinality) | None =>
  match prefix with Some prefix => Ok (MkMistakeContentPrefix prefix) | None =>
  Err end end end end end.
(* asts/mistakes/path_builder.go: create 11-19, With.. 27-42, Now 45-68 *)
Inductive x_mistake_path (T2 : Type) := MkMistakePathToken (token : bytes) (parents : option (list T2)) | MkMistakePathRule (rule : bytes) (parents : option (list T2)).
Arguments MkMistakePathToken {T2}.
Arguments MkMistakePathRule {T2}.
Definition mistake_path_now {T2 : Type} (b : bytes * bytes * option (list T2)) : res (x_mistake_path T2) :=
  let '(rule, token, parents) := b in
  match token with _ :: _ => Ok (MkMistakePathToken token (no_empty parents)) | [] =>
  match rule with _ :: _ => Ok (MkMistakePathRule rule (no_empty parents)) | [] =>
  Err end end.
(* asts/builder.go: create 14-21, With.. 29-38, Now 41-51 *)
Inductive x_answer (T0 T1 : Type) := MkAnswerMistake (mistake : T0) | MkAnswerToken (token : T1).
Arguments MkAnswerMistake {T0 T1}.
Arguments MkAnswerToken {T0 T1}.
Definition answer_now {T0 T1 : Type} (b : option T0 * option T1) : res (x_answer T0 T1) :=
  let '(mistake, token) := b in
  match mistake with Some mistake => Ok (MkAnswerMistake mistake) | None =>
  match token with Some token => Ok (MkAnswerToken token) | None =>
  Err end end.
(* asts/match_builder.go: create 10-17, With.. 25-34, Now 37-47 *)
Inductive x_tree_match (T0 T1 : Type) := MkTreeMatchToken (token : T0) | MkTreeMatchRule (rule : T1).
Arguments MkTreeMatchToken {T0 T1}.
Arguments MkTreeMatchRule {T0 T1}.
Definition tree_match_now {T0 T1 : Type} (b : option T0 * option T1) : res (x_tree_match T0 T1) :=
  let '(token, rule) := b in
  match token with Some token => Ok (MkTreeMatchToken token) | None =>
  match rule with Some rule => Ok (MkTreeMatchRule rule) | None =>
  Err end end.
(* asts/paths/container_builder.go: create 12-21, With.. 29-50, Now 53-75 *)
Inductive x_path_container (T0 T1 T2 T3 : Type) := MkPathContainerToken (token : T0) | MkPathContainerRule (rule : T1) | MkPathContainerRecursive (recursive : T2) | MkPathContainerLines (lines : list T3).
Arguments MkPathContainerToken {T0 T1 T2 T3}.
Arguments MkPathContainerRule {T0 T1 T2 T3}.
Arguments MkPathContainerRecursive {T0 T1 T2 T3}.
Arguments MkPathContainerLines {T0 T1 T2 T3}.
Definition path_container_now {T0 T1 T2 T3 : Type} (b : option T0 * option T1 * option T2 * option (list T3)) : res (x_path_container T0 T1 T2 T3) :=
  let '(token, rule, recursive, lines) := b in
  match token with Some token => Ok (MkPathContainerToken token) | None =>
  match rule with Some rule => Ok (MkPathContainerRule rule) | None =>
  match recursive with Some recursive => Ok (MkPathContainerRecursive recursive) | None =>
  match no_empty lines with Some lines => Ok (MkPathContainerLines lines) | None =>
  Err end end end end.
(* asts/paths/instruction_builder.go: create 10-17, With.. 25-34, Now 37-47 *)
Inductive x_path_instruction (T1 : Type) := MkPathInstructionSwitch | MkPathInstructionContainer (container : T1).
Arguments MkPathInstructionSwitch {T1}.
Arguments MkPathInstructionContainer {T1}.
Definition path_instruction_now {T1 : Type} (b : bool * option T1) : res (x_path_instruction T1) :=
  let '(sw, container) := b in
  if sw then Ok MkPathInstructionSwitch else
  match container with Some container => Ok (MkPathInstructionContainer container) | None =>
  Err end.
(* containers/patterns/container_builder.go: create 10-17, With.. 25-34, Now 37-47 *)
Inductive x_pattern_container (T0 T1 : Type) := MkPatternContainerReverse (reverse : T0) | MkPatternContainerGroup (group : T1).
Arguments MkPatternContainerReverse {T0 T1}.
Arguments MkPatternContainerGroup {T0 T1}.
Definition pattern_container_now {T0 T1 : Type} (b : option T0 * option T1) : res (x_pattern_container T0 T1) :=
  let '(reverse, group) := b in
  match reverse with Some reverse => Ok (MkPatternContainerReverse reverse) | None =>
  match group with Some group => Ok (MkPatternContainerGroup group) | None =>
  Err end end.
(* containers/tokens/content_builder.go: create 14-21, With.. 29-38, Now 41-51 *)
Inductive x_grammar_content (T0 T1 : Type) := MkGrammarContentToken (token : T0) | MkGrammarContentRule (rule : T1).
Arguments MkGrammarContentToken {T0 T1}.
Arguments MkGrammarContentRule {T0 T1}.
Definition grammar_content_now {T0 T1 : Type} (b : option T0 * option T1) : res (x_grammar_content T0 T1) :=
  let '(token, rule) := b in
  match token with Some token => Ok (MkGrammarContentToken token) | None =>
  match rule with Some rule => Ok (MkGrammarContentRule rule) | None =>
  Err end end.
(* containers/tokens/instruction_builder.go: create 10-17, With.. 25-34, Now 37-47 *)
Inductive x_grammar_instruction (T1 : Type) := MkGrammarInstructionElement (element : T1) | MkGrammarInstructionSwitch.
Arguments MkGrammarInstructionElement {T1}.
Arguments MkGrammarInstructionSwitch {T1}.
Definition grammar_instruction_now {T1 : Type} (b : bool * option T1) : res (x_grammar_instruction T1) :=
  let '(sw, element) := b in
  match element with Some element => Ok (MkGrammarInstructionElement element) | None =>
  if sw then Ok MkGrammarInstructionSwitch else
  Err end.
(* containers/tokens/tokenspecifiercontent_builder.go: create 14-21, With.. 29-38, Now 41-51 *)
Inductive x_token_specifier_content (T1 : Type) := MkTokenSpecifierContentRule (rule : T1) | MkTokenSpecifierContentToken (token : bytes).
Arguments MkTokenSpecifierContentRule {T1}.
Arguments MkTokenSpecifierContentToken {T1}.
Definition token_specifier_content_now {T1 : Type} (b : bytes * option T1) : res (x_token_specifier_content T1) :=
  let '(token, rule) := b in
  match rule with Some rule => Ok (MkTokenSpecifierContentRule rule) | None =>
  match token with _ :: _ => Ok (MkTokenSpecifierContentToken token) | [] =>
  Err end end.
