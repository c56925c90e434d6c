(* AppSpec.v - vocabulary of the properties of the lexer application. *)
From Coq Require Import Strings.String Strings.Byte.
From Verif Require Import Go DomainModel DomainSpec CardModel PatModel RuleModel PathModel PathSpec LexModel AstModel RootModel SuiteModel SuiteSpec TextModel TextSpec TextTokSpec TextRefSpec AppModel.
Open Scope list_scope.

(* ---- histories of the builders (see DomainSpec.v) ---- *)
Definition ct_is_create (o : ct_op) : bool := match o with CtCreate => true | _ => false end.
Definition last_patterns : list ct_op -> option bytes := last_call ct_is_create (fun o => match o with CtPatterns s => Some (Some s) | _ => None end).
Definition last_rules : list ct_op -> option bytes := last_call ct_is_create (fun o => match o with CtRules s => Some (Some s) | _ => None end).
Definition last_tokens : list ct_op -> option bytes := last_call ct_is_create (fun o => match o with CtTokens s => Some (Some s) | _ => None end).
Definition mu_is_create (o : mu_op) : bool := match o with MuCreate => true | _ => false end.
Definition last_container : list mu_op -> option texts := last_call mu_is_create (fun o => match o with MuContainer c => Some c | _ => None end).
Definition last_channels : list mu_op -> option bytes := last_call mu_is_create (fun o => match o with MuChannels s => Some (Some s) | _ => None end).
Definition rt_is_create {A} (o : rt_op A) : bool := match o with RtCreate => true | _ => false end.
Definition last_root {A} : list (rt_op A) -> option bytes := last_call rt_is_create (fun o => match o with RtRoot s => Some (Some s) | _ => None end).
Definition last_rest {A} : list (rt_op A) -> option A := last_call rt_is_create (fun o => match o with RtRest x => Some x | _ => None end).
Definition tx_is_create (o : tx_op) : bool := match o with TxCreate => true | _ => false end.
Definition last_content : list tx_op -> option bytes := last_call tx_is_create (fun o => match o with TxContent s => Some (Some s) | _ => None end).
(* the flag was raised since the last Create *)
Definition prefix_flag (ops : list tx_op) : Prop := exists before after, ops = before ++ TxPrefix :: after /\ ~ In TxCreate after.
Definition suffix_flag (ops : list tx_op) : Prop := exists before after, ops = before ++ TxSuffix :: after /\ ~ In TxCreate after.
Definition rp_is_create (o : rp_op) : bool := match o with RpCreate => true | _ => false end.
Definition last_rules_path : list rp_op -> option bytes := last_call rp_is_create (fun o => match o with RpRules s => Some (Some s) | _ => None end).
Definition last_tokens_path : list rp_op -> option bytes := last_call rp_is_create (fun o => match o with RpTokens s => Some (Some s) | _ => None end).
Definition last_channels_path : list rp_op -> option bytes := last_call rp_is_create (fun o => match o with RpChannels s => Some (Some s) | _ => None end).
(* a value that was set and is not empty; an optional one *)
Definition set_to (o : option bytes) (s : bytes) : Prop := o = Some s /\ s <> [].
Definition perhaps_set (o : option bytes) (s : bytes) : Prop := o = Some s \/ (o = None /\ s = []).

(* ---- what the texts of a grammar mean ---- *)
Definition named {A} (name : A -> bytes) (l : list A) (k : bytes) (x : A) : Prop := In x l /\ name x = k.
Definition declarations : Type := list (token * option (list bytes)).
(* patterns, rules that use them, tokens that use those *)
Definition means_rules_of (c : texts) (rs : list rule) : Prop :=
  exists ps, means_patterns (ct_patterns c) ps /\ means_rules (last_named p_name ps) (ct_rules c) rs.
Definition means_texts (c : texts) (l : declarations) : Prop :=
  exists rs, means_rules_of c rs /\ means_tokens (named rl_name rs) (ct_tokens c) l.
(* with a text of channels; an empty one is no channels *)
Definition means_grammar (c : texts) (channels : bytes) (l : declarations) (ch : option (list token)) : Prop :=
  exists rs, means_rules_of c rs /\ means_tokens (named rl_name rs) (ct_tokens c) l /\
    match ch with Some ts => channels <> [] /\ (exists k, means_tokens (named rl_name rs) channels k /\ ts = map fst k) | None => channels = [] end.
(* a table of exactly these tokens *)
Definition table_for (l : list token) (t : table token) : Prop :=
  table_all t = l /\ forall k y, table_find t k = Ok y <-> named t_name l k y.
Definition channels_for (ch : option (list token)) (o : option (table token)) : Prop :=
  match ch, o with Some k, Some t => table_for k t | None, None => True | _, _ => False end.

(* ---- calls of an application ---- *)
Inductive call :=
| CTokens (c : texts)
| CReferences (text : bytes)
| CPath (r : path_resource)
| CAst (r : single) (x : text_content)
| CRoot (r : single) (x : text_content)
| CTests (r : multiple).
Inductive reply :=
| ATokens (o : res token_texts)
| AReferences (o : res references)
| APath (o : res path)
| AAst (o : res ast)
| ARoot (o : res (option root_answer))
| ATests (o : res (list suite)).
(* the grammar of a call that looks at its references *)
Definition call_texts (c : call) : option texts :=
  match c with
  | CPath r => Some (rt_rest r)
  | CAst r _ => Some (mu_container (rt_rest r))
  | CRoot r _ => Some (mu_container (rt_rest r))
  | CTests r => Some (mu_container r)
  | _ => None
  end.
Section Runs.
Variable rules_file tokens_file : bytes -> option bytes.
Variable order : list path -> nat -> list path.
Variable test_order : bytes -> nat -> list path -> nat -> list path.
Variable lex_fuel fuel : nat.
Definition perform (m : replacements) (c : call) : reply * replacements :=
  match c with
  | CTokens c => (ATokens (app_tokens c), m)
  | CReferences t => (AReferences (to_references t), m)
  | CPath r => let x := app_path rules_file tokens_file fuel m r in (APath (fst x), snd x)
  | CAst r x => let x := app_ast rules_file tokens_file order lex_fuel fuel m r x in (AAst (fst x), snd x)
  | CRoot r x => let x := app_root rules_file tokens_file order lex_fuel fuel m r x in (ARoot (fst x), snd x)
  | CTests r => let x := app_tests rules_file tokens_file test_order lex_fuel fuel m r in (ATests (fst x), snd x)
  end.
(* the replacements after a sequence of calls *)
Definition after (m : replacements) (l : list call) : replacements := fold_left (fun m c => snd (perform m c)) l m.
End Runs.
Definition ok_reply (r : reply) : Prop :=
  match r with
  | ATokens (Ok _) | AReferences (Ok _) | APath (Ok _) | AAst (Ok _) | ARoot (Ok _) | ATests (Ok _) => True
  | _ => False
  end.
(* the text declares no reference / no replacement *)
Definition no_references (text : bytes) : Prop := forall refs, means_references text refs -> rf_references refs = None.
Definition no_replacements (text : bytes) : Prop := forall refs, means_references text refs -> rf_replacements refs = None.
(* the replaced names, each with the path that replaces it *)
Definition replacing (m : replacements) : bytes -> option (element * list element) :=
  fun n => match mlookup m n with Some p => Some (pa_element p, dep_all (pa_deps p)) | None => None end.
(* what the lexer of a token made for one text alone says *)
Definition lexer_says (T : table token) (rp : bytes -> option (element * list element)) (ch : option (table token)) (order : list path -> nat -> list path) (fuel : nat) (t : token) (x : text_content) : res ast :=
  match new_lexer T none rp t ch with
  | Ok (p, m) => fst (to_ast (order (map snd m)) fuel p (tx_prefix x) (tx_content x) (lst_init (tx_prefix x)))
  | Err => Err | Panic => Panic | NoFuel => NoFuel
  end.
Definition replaced_names (refs : references) : list bytes := map lk_reference (links_list (rf_replacements refs)).
(* what the text of rules or of references of a grammar makes crash *)
Definition crashing_texts (c : texts) : Prop :=
  (exists ps, to_patterns (ct_patterns c) = Ok ps /\ to_rules (ct_rules c) (Some ps) = Panic) \/ to_references (ct_tokens c) = Panic.
Definition no_links : references := {| rf_references := None; rf_replacements := None |}.
(* the declared tokens with tests, in order *)
Definition with_tests (l : declarations) : list (token * list bytes) := concat (map (fun x => match snd x with Some ts => [(fst x, ts)] | None => [] end) l).
Section Reported.
Variable rules_file tokens_file : bytes -> option bytes.
Variable test_order : bytes -> nat -> list path -> nat -> list path.
Variable lex_fuel n : nat.
(* the suite of one token, line by line what AST says of the line's text *)
Definition reported (r : multiple) (m : replacements) (x : token * list bytes) (s : suite) : Prop :=
  su_name s = t_name (fst x) /\ length (su_lines s) = length (snd x) /\
  forall j text, nth_error (snd x) j = Some text -> exists ln a,
    nth_error (su_lines s) j = Some ln /\ sl_index ln = j /\
    app_ast rules_file tokens_file (test_order (t_name (fst x)) j) lex_fuel n m {| rt_root := t_name (fst x); rt_rest := r |} {| tx_content := text; tx_prefix := false; tx_suffix := false |} = (Ok a, m) /\
    (sl_success ln = true <-> exists tree, a = ASuccess tree).
End Reported.
