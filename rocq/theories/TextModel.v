(* TextModel.v - the text grammars: ToPatterns (containers/patterns/adapter.go:361-513),
   Rules (containers/rules/adapter.go), ToTokens (containers/tokens/adapter.go) and
   ToReferences (references/adapter.go).  Definitions only.
   The patterns are written as in the source (sdk.go of each package) and compiled by
   Regex.v.  The builders are always given a fresh instance (Create), so that only their
   failures are modelled. *)
From Coq Require Import Strings.String Strings.Byte.
From Verif Require Export Go Regex DomainModel CardModel PatModel RuleModel PathModel.
Open Scope list_scope.

(* strings.Replace(s, old, new, -1) for a non-empty old; [skip] as in split_go *)
Fixpoint replace_go (old new : bytes) (skip : nat) (s : bytes) : bytes :=
  match s with
  | [] => []
  | c :: r =>
    match skip with
    | S k => replace_go old new k r
    | O => if has_prefix old s then new ++ replace_go old new (length old - 1) r else c :: replace_go old new O r
    end
  end.
Definition replace_all (old new s : bytes) : bytes := replace_go old new 0 s.
(* strings.Replace(s, old, "", 1) for a non-empty old *)
Fixpoint replace_first (old s : bytes) : bytes :=
  match s with
  | [] => []
  | c :: r => if has_prefix old s then skipn (length old) s else c :: replace_first old r
  end.

(* ---- containers/patterns ---- *)
Definition dq : byte := x22.                      (* the double quote *)
Definition backslash : byte := x5c.
(* [ \t\r\n]*, with the characters themselves *)
Definition ws_text : bytes := bs "[ " ++ [x09; x0d; x0a] ++ bs "]*".
Definition escape_code : bytes := bs "###".
Definition group_name_text : bytes := bs "[\$]{1}[A-Z_]+".
Definition serie_name_text : bytes := bs "[A-Z]{1}[A-Z_]*".
Definition pattern_name_text : bytes := bs "[a-z]{1}[a-z_]*".
(* "(%s)%s?%s%s?(%s)%s?%s" (:362-372, :426-436) *)
Definition declaration_text (name : bytes) : bytes :=
  bs "(" ++ name ++ bs ")" ++ ws_text ++ bs "?:" ++ ws_text ++ bs "?([^;]*)" ++ ws_text ++ bs "?;".
(* "(%s)%s?%s%s?%s(%s)%s%s?%s" (:472-484) *)
Definition group_text : bytes :=
  bs "(" ++ group_name_text ++ bs ")" ++ ws_text ++ bs "?:" ++ ws_text ++ bs "?" ++ [dq] ++ bs "([^;]*)" ++ [dq] ++ ws_text ++ bs "?;".
(* "(%s)?%s" (:378) *)
Definition choice_text : bytes := bs "(@)?" ++ serie_name_text.

(* :486-513 findGroups; group_builder.go: the name is not empty, nor is the list *)
Definition read_group (m : rmatch) : group :=
  {| g_name := m_cap m 1;
     g_list := map (fun o => if bytes_eqb o escape_code then [dq] else o) (strsplit (bs ",") (m_cap m 2)) |}.
Definition find_groups (content : bytes) : res (table group) :=
  let content := replace_all [backslash; dq] escape_code content in
  last_table_now g_name (Some (map read_group (find_all_submatch (compile group_text) content))).
(* :438-469 findSeries: the map of the series *)
Fixpoint read_series (groups : table group) (l : list rmatch) (out : gmap serie) : res (gmap serie) :=
  match l with
  | [] => Ok out
  | m :: r =>
    match map m_text (find_all_submatch (compile group_name_text) (m_cap m 2)) with
    | [] => read_series groups r out
    | names =>
      let* gs := mapM (table_find groups) names in
      read_series groups r (minsert out (m_cap m 1) {| s_name := m_cap m 1; s_list := gs |})
    end
  end.
Definition find_series (groups : table group) (content : bytes) : res (gmap serie) :=
  read_series groups (find_all_submatch (compile (declaration_text serie_name_text)) content) [].
(* :374-423 findPatterns *)
Definition read_choice (series : gmap serie) (name : bytes) : res choice :=
  let reverse := has_prefix (bs "@") name in
  let name := if reverse then skipn 1 name else name in
  match mlookup series name with None => Err | Some s => Ok {| ch_serie := s; ch_reverse := reverse |} end.
Fixpoint read_patterns (series : gmap serie) (l : list rmatch) : res (list pattern) :=
  match l with
  | [] => Ok []
  | m :: r =>
    match map m_text (find_all_submatch (compile choice_text) (m_cap m 2)) with
    | [] => read_patterns series r
    | names =>
      let* cs := mapM (read_choice series) names in
      let* ps := read_patterns series r in
      Ok ({| p_name := m_cap m 1; p_list := cs |} :: ps)
    end
  end.
Definition find_patterns (series : gmap serie) (content : bytes) : res (table pattern) :=
  let* l := read_patterns series (find_all_submatch (compile (declaration_text pattern_name_text)) content) in
  last_table_now p_name (Some l).
(* :88-100 ToPatterns *)
Definition to_patterns (content : bytes) : res (table pattern) :=
  let* groups := find_groups content in
  let* series := find_series groups content in
  find_patterns series content.

(* ---- containers/rules ---- *)
(* "(%s)%s(%s)%s" (:96-103) *)
Definition rule_name_text : bytes := bs "[A-Z\_]+".
Definition rule_text : bytes := bs "(" ++ rule_name_text ++ bs "):([^;]*);".
(* "(%s)?(%s(%s)%s)?" (:127-134) *)
Definition element_text : bytes :=
  bs "([^" ++ [dq] ++ bs "]*)?(" ++ [dq] ++ bs "([^" ++ [dq] ++ bs "]*)" ++ [dq] ++ bs ")?".
(* "%s%s(%s)%s%s" (:173-181) *)
Definition bracket_text : bytes := bs "\[" ++ ws_text ++ bs "([^\]]*)" ++ ws_text ++ bs "\]".
(* :183-213 pattern: matches[0] of no match panics; no pattern table (nil) is None *)
Definition read_rule_pattern (content : bytes) (patterns : option (table pattern)) : res rule_content :=
  match find_submatch (compile bracket_text) content with
  | None => Panic
  | Some m =>
    let* c := to_cardinality (replace_first (m_text m) content) in
    let* l := mapM (fun n => match patterns with None => Err | Some t => table_find t n end) (strsplit (bs " ") (m_cap m 1)) in
    let* t := last_table_now p_name (Some l) in
    Ok (RPattern (table_all t) c)
  end.
(* :136-170 element; element_builder.go: the code is mandatory.  The element's own code is not modelled further. *)
Definition read_element (content : bytes) (patterns : option (table pattern)) : res rule_content :=
  let content := replace_all [backslash; dq] escape_code content in
  match find_submatch (compile element_text) content with
  | None => Panic
  | Some m =>
    match trim_space (m_cap m 1) with
    | [] =>
      match replace_all escape_code [dq] (m_text m) with
      | [] => Err
      | _ => Ok (RConstant (replace_all escape_code [dq] (m_cap m 3)))
      end
    | p => let* x := read_rule_pattern p patterns in match m_text m with [] => Err | _ => Ok x end
    end
  end.
(* :105-124 rulesList; rule_builder.go: the name and the code are mandatory *)
Definition read_rule (patterns : option (table pattern)) (m : rmatch) : res rule :=
  let name := trim_space (m_cap m 1) in
  let* c := read_element (m_cap m 2) patterns in
  match name, m_text m with
  | [], _ => Err
  | _, [] => Err
  | _, _ => Ok {| rl_name := name; rl_code := m_text m; rl_content := c |}
  end.
(* :85-92 Rules *)
Definition to_rules (content : bytes) (patterns : option (table pattern)) : res (table rule) :=
  let* l := mapM (read_rule patterns) (find_all_submatch (compile rule_text) content) in
  unique_table_now rl_name (Some l).

(* ---- containers/tokens ---- *)
Definition token_name_text : bytes := bs "[a-z]{1}[a-zA-Z]*".
(* "(%s(%s)%s%s%s(%s)%s)" (:227-237) *)
Definition token_text : bytes :=
  bs "(" ++ ws_text ++ bs "(" ++ token_name_text ++ bs ")" ++ ws_text ++ bs ":" ++ ws_text ++ bs "([^;]+);)".
(* :579-587 cardinalityRangePattern *)
Definition range_text : bytes := bs "{([^}]+)}".
(* :361-382: the cardinality and the specifiers after a name *)
Definition suffix_text : bytes :=
  bs "((" ++ range_text ++ bs ")?([\+]{1})?([\*]{1})?([\?]{1})?)?(->([^<-]+)<-)?".
(* :384-403 *)
Definition named_text (name : bytes) : bytes := bs "(" ++ name ++ bs ")" ++ ws_text ++ bs "(" ++ suffix_text ++ bs ")".
Definition instruction_text : bytes :=
  bs "(" ++ named_text token_name_text ++ bs ")?(" ++ named_text rule_name_text ++ bs ")?(#)?".
(* "(%s)?(%s)?%s(%s)" (:506-512) *)
Definition specifier_text : bytes :=
  bs "(" ++ token_name_text ++ bs ")?(" ++ rule_name_text ++ bs ")?" ++ ws_text ++ bs "(" ++ range_text ++ bs ")".

Section Tokens.
Variable rules : table rule.
(* :517-559 one specifier; tokenspecifier_builder.go, tokenspecifiercontent_builder.go *)
Definition read_specifier (m : rmatch) : res tspec :=
  let* by_token := Ok (m_cap m 1) in
  let* name := match m_cap m 2 with
               | [] => Ok by_token
               | r => let* x := table_find rules r in Ok (rl_name x)
               end in
  let* card := match trim_space (m_cap m 4) with
               | [] => Ok None
               | t => let* s := to_specific t in Ok (Some s)
               end in
  match m_cap m 1, m_cap m 2 with
  | [], [] => Err
  | _, _ => match card with None => Err | Some c => Ok {| ts_name := name; ts_card := c |} end
  end.
(* :500-563 tokenSpecifiers *)
Definition read_specifiers (content : bytes) : res (option (list tspec)) :=
  match trim_space content with
  | [] => Ok None
  | t =>
    let* l := mapM read_specifier (find_all_submatch (compile specifier_text) t) in
    let* x := last_table_now ts_name (Some l) in
    Ok (Some (table_all x))
  end.
(* :565-577 buildElement; [i] is the first capture number of the element (matches[j] is capture i + j) *)
Definition read_card (m : rmatch) (i : nat) : res (option cardinality) :=
  match m_cap m (i + 3) with
  | [] => Ok None
  | c => let* x := to_cardinality c in Ok (Some x)
  end.
(* :458-470, :486-498 tokenElement, tokenReference *)
Definition read_token_element (m : rmatch) : res tinstr :=
  let* specs := read_specifiers (m_cap m 10) in
  match m_cap m 2 with
  | [] => Err
  | name =>
    let* c := read_card m 1 in
    Ok (TElem {| te_content := TRef {| tr_name := name; tr_specs := specs |}; te_card := c |})
  end.
(* :472-484 ruleElement *)
Definition read_rule_element (m : rmatch) : res tinstr :=
  let* r := table_find rules (m_cap m 13) in
  let* c := read_card m 12 in
  Ok (TElem {| te_content := TRule r; te_card := c |}).
(* :409-453, one match of the loop; matches 1 to 11 are the token's, 12 to 22 the rule's *)
Definition read_instruction (m : rmatch) : res (list tinstr) :=
  let sw := if bytes_eqb (m_text m) (bs "#") then [TSwitch] else [] in
  let* a := match m_cap m 1 with [] => Ok [] | _ => let* x := read_token_element m in Ok [x] end in
  let* b := match m_cap m 12 with [] => Ok [] | _ => let* x := read_rule_element m in Ok [x] end in
  Ok (sw ++ a ++ b).
Fixpoint read_instructions (l : list rmatch) : res tline :=
  match l with
  | [] => Ok []
  | m :: r => let* a := read_instruction m in let* b := read_instructions r in Ok (a ++ b)
  end.
(* :351-360, :405-408 line; line_builder.go *)
Definition read_line (content : bytes) : res tline :=
  let* l := read_instructions (find_all_submatch (compile instruction_text) (trim_space content)) in
  match l with [] => Err | _ => Ok l end.
(* :336-349 lines; lines_builder.go *)
Definition read_lines (content : bytes) : res (list tline) := mapM read_line (strsplit (bs "|") content).
(* trimmed[1:] after the test of the begin character *)
Definition after_begin (content : bytes) : res bytes :=
  let t := trim_space content in
  if has_prefix (bs ":") t then Ok (skipn 1 t) else Err.
(* :305-334 block *)
Definition read_block (content : bytes) : res (list tline * option (list tline)) :=
  match strsplit (bs "---") content with
  | [] => Err
  | [must] => let* m := read_lines must in Ok (m, None)
  | must :: not :: _ =>
    let* m := read_lines must in
    let* t := after_begin not in
    let* n := read_lines t in
    Ok (m, Some n)
  end.
(* :270-303 testSuite: the suite and the code of the block; testsuite_builder.go *)
Definition read_suite (content : bytes) : res (option (list bytes) * bytes) :=
  match strsplit (bs "+++") content with
  | [] => Panic
  | [code] => Ok (None, code)
  | code :: tests :: _ =>
    let* t := after_begin tests in
    match filter (@non_empty byte) (strsplit (bs "###") t) with
    | [] => Err
    | lines => Ok (Some lines, code)
    end
  end.
(* :242-265, one match of the loop; token_builder.go *)
Definition read_token (m : rmatch) : res (token * option (list bytes)) :=
  let* x := read_suite (m_cap m 3) in
  let* b := read_block (snd x) in
  match m_cap m 2 with
  | [] => Err
  | name => Ok ({| t_name := name; t_must := fst b; t_not := snd b |}, fst x)
  end.
(* :216-268 ToTokens, tokens: the table and the test suite of each token, by name *)
Definition to_tokens (content : bytes) : res (table token * list (bytes * option (list bytes))) :=
  let* l := mapM read_token (find_all_submatch (compile token_text) content) in
  let* t := unique_table_now t_name (Some (map fst l)) in
  Ok (t, map (fun x => (t_name (fst x), snd x)) l).
End Tokens.

(* ---- references ---- *)
(* paths/paths.go, links/include.go, links/link.go, references.go; "" is no channels, nil links is None *)
Record rpaths := { rp_rules : bytes; rp_tokens : bytes; rp_channels : bytes }.
Record include := { in_name : bytes; in_paths : rpaths }.
Record link := { lk_local : bytes; lk_reference : bytes; lk_include : include }.
Record references := { rf_references : option (list link); rf_replacements : option (list link) }.
(* references/adapter.go:90-102 *)
Definition include_text : bytes :=
  ws_text ++ bs "?include" ++ ws_text ++ bs "(" ++ token_name_text ++ bs ")" ++ ws_text ++ [dq] ++ bs "([^" ++ [dq] ++ bs "]*)" ++ [dq] ++ ws_text ++ bs "?".
(* :139-150; the dot is not escaped *)
Definition reference_text : bytes :=
  ws_text ++ bs "?reference" ++ ws_text ++ bs "(" ++ token_name_text ++ bs ")" ++ ws_text ++ bs "(" ++ token_name_text ++ bs ").(" ++ token_name_text ++ bs ")" ++ ws_text.
(* :177-188 *)
Definition replace_text : bytes :=
  ws_text ++ bs "?replace" ++ ws_text ++ bs "(" ++ token_name_text ++ bs ").(" ++ token_name_text ++ bs ")" ++ ws_text ++ bs "(" ++ token_name_text ++ bs ")" ++ ws_text.
(* :104-136 includes, one match; pathStrings[1] of one path panics; paths/builder.go, include_builder.go *)
Definition read_include (m : rmatch) : res include :=
  let build rules tokens channels :=
    match rules, tokens, m_cap m 1 with
    | [], _, _ => Err
    | _, [], _ => Err
    | _, _, [] => Err
    | _, _, name => Ok {| in_name := name; in_paths := {| rp_rules := rules; rp_tokens := tokens; rp_channels := channels |} |}
    end in
  match strsplit (bs ";") (m_cap m 2) with
  | [a; b] => build a b []
  | [a; b; c] => build a b c
  | _ :: _ :: _ :: _ :: _ => Err
  | _ => Panic
  end.
Definition read_includes (content : bytes) : res (gmap include) :=
  let* l := mapM read_include (find_all_submatch (compile include_text) content) in
  Ok (fold_left (fun m i => minsert m (in_name i) i) l []).
(* link_builder.go: all three are mandatory; links_builder.go *)
Definition new_link (includes : gmap include) (name local reference : bytes) : res link :=
  match local, reference, mlookup includes name with
  | [], _, _ => Err
  | _, [], _ => Err
  | _, _, None => Err
  | _, _, Some i => Ok {| lk_local := local; lk_reference := reference; lk_include := i |}
  end.
Definition links_of (l : list link) : option (list link) := match l with [] => None | _ => Some l end.
(* :152-174 references, :190-212 replacements *)
Definition read_references (includes : gmap include) (content : bytes) : res (option (list link)) :=
  let* l := mapM (fun m => new_link includes (m_cap m 2) (m_cap m 1) (m_cap m 3)) (find_all_submatch (compile reference_text) content) in
  Ok (links_of l).
Definition read_replacements (includes : gmap include) (content : bytes) : res (option (list link)) :=
  let* l := mapM (fun m => new_link includes (m_cap m 1) (m_cap m 3) (m_cap m 2)) (find_all_submatch (compile replace_text) content) in
  Ok (links_of l).
(* :67-87 ToReferences *)
Definition to_references (content : bytes) : res references :=
  let* includes := read_includes content in
  let* a := read_references includes content in
  let* b := read_replacements includes content in
  Ok {| rf_references := a; rf_replacements := b |}.
