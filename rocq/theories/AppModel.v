(* AppModel.v - applications/languages/lexers (application.go, builder.go) and the
   resources it is called with: domain/languages/lexers/resources/{containers,multiples,
   singles,paths}, domain/languages/lexers/contents, domain/languages/lexers/paths.
   Definitions only.
   The builders are modelled by their fields, the step of each method call, and Now.
   SIMPLIFICATIONS: a file is what ioutil.ReadFile(filepath.Join(base, path)) answers, as
   two functions of the path written in the include (the base paths and the clean-up of
   filepath.Join are inside of them); a nil interface given to a builder is None. *)
From Coq Require Import Strings.String Strings.Byte.
From Verif Require Export Go DomainModel CardModel PatModel RuleModel PathModel LexModel AstModel RootModel SuiteModel TextModel.
Open Scope list_scope.

(* ---- resources/containers ---- *)
(* container.go *)
Record texts := { ct_patterns : bytes; ct_rules : bytes; ct_tokens : bytes }.
Inductive ct_op := CtCreate | CtPatterns (s : bytes) | CtRules (s : bytes) | CtTokens (s : bytes) | CtNow.
(* builder.go:11-19 *)
Definition ct_init : texts := {| ct_patterns := []; ct_rules := []; ct_tokens := [] |}.
(* builder.go:22-42 *)
Definition ct_step (b : texts) (o : ct_op) : texts :=
  match o with
  | CtCreate => ct_init
  | CtPatterns s => {| ct_patterns := s; ct_rules := ct_rules b; ct_tokens := ct_tokens b |}
  | CtRules s => {| ct_patterns := ct_patterns b; ct_rules := s; ct_tokens := ct_tokens b |}
  | CtTokens s => {| ct_patterns := ct_patterns b; ct_rules := ct_rules b; ct_tokens := s |}
  | CtNow => b
  end.
(* builder.go:45-59 *)
Definition ct_now (b : texts) : res texts :=
  match ct_patterns b, ct_rules b, ct_tokens b with
  | [], _, _ => Err
  | _, [], _ => Err
  | _, _, [] => Err
  | _, _, _ => Ok b
  end.

(* ---- resources/multiples ---- *)
(* multiple.go; "" is no channels (:39-41 HasChannels) *)
Record multiple := { mu_container : texts; mu_channels : bytes }.
Record mu_builder := { mub_container : option texts; mub_channels : bytes }.
Inductive mu_op := MuCreate | MuContainer (c : option texts) | MuChannels (s : bytes) | MuNow.
(* builder.go:14-21 *)
Definition mu_init : mu_builder := {| mub_container := None; mub_channels := [] |}.
(* builder.go:24-38 *)
Definition mu_step (b : mu_builder) (o : mu_op) : mu_builder :=
  match o with
  | MuCreate => mu_init
  | MuContainer c => {| mub_container := c; mub_channels := mub_channels b |}
  | MuChannels s => {| mub_container := mub_container b; mub_channels := s |}
  | MuNow => b
  end.
(* builder.go:41-51 *)
Definition mu_now (b : mu_builder) : res multiple :=
  match mub_container b with
  | None => Err
  | Some c => Ok {| mu_container := c; mu_channels := mub_channels b |}
  end.

(* ---- resources/singles and resources/paths: a root token's name and the rest ---- *)
(* singles/single.go (A is a multiple), paths/path.go (A is a container) *)
Record rooted (A : Type) := { rt_root : bytes; rt_rest : A }.
Arguments rt_root {A}. Arguments rt_rest {A}.
Record rt_builder (A : Type) := { rtb_root : bytes; rtb_rest : option A }.
Arguments rtb_root {A}. Arguments rtb_rest {A}.
Inductive rt_op (A : Type) := RtCreate | RtRoot (s : bytes) | RtRest (x : option A) | RtNow.
Arguments RtCreate {A}. Arguments RtRoot {A}. Arguments RtRest {A}. Arguments RtNow {A}.
(* singles/builder.go:14-21, paths/builder.go:14-21 *)
Definition rt_init {A} : rt_builder A := {| rtb_root := []; rtb_rest := None |}.
(* singles/builder.go:24-38, paths/builder.go:24-38 *)
Definition rt_step {A} (b : rt_builder A) (o : rt_op A) : rt_builder A :=
  match o with
  | RtCreate => rt_init
  | RtRoot s => {| rtb_root := s; rtb_rest := rtb_rest b |}
  | RtRest x => {| rtb_root := rtb_root b; rtb_rest := x |}
  | RtNow => b
  end.
(* singles/builder.go:41-51, paths/builder.go:41-51 *)
Definition rt_now {A} (b : rt_builder A) : res (rooted A) :=
  match rtb_root b, rtb_rest b with
  | [], _ => Err
  | _, None => Err
  | n, Some x => Ok {| rt_root := n; rt_rest := x |}
  end.
Definition single : Type := rooted multiple.
Definition path_resource : Type := rooted texts.

(* ---- contents ---- *)
(* content.go *)
Record text_content := { tx_content : bytes; tx_prefix : bool; tx_suffix : bool }.
Inductive tx_op := TxCreate | TxContent (s : bytes) | TxPrefix | TxSuffix | TxNow.
(* builder.go:11-19 *)
Definition tx_init : text_content := {| tx_content := []; tx_prefix := false; tx_suffix := false |}.
(* builder.go:22-42 *)
Definition tx_step (b : text_content) (o : tx_op) : text_content :=
  match o with
  | TxCreate => tx_init
  | TxContent s => {| tx_content := s; tx_prefix := tx_prefix b; tx_suffix := tx_suffix b |}
  | TxPrefix => {| tx_content := tx_content b; tx_prefix := true; tx_suffix := tx_suffix b |}
  | TxSuffix => {| tx_content := tx_content b; tx_prefix := tx_prefix b; tx_suffix := true |}
  | TxNow => b
  end.
(* builder.go:45-63, content.go:9-50 *)
Definition tx_now (b : text_content) : res text_content :=
  match tx_content b with
  | [] => Err
  | s => if tx_prefix b && tx_suffix b then Ok {| tx_content := s; tx_prefix := true; tx_suffix := true |}
         else if tx_prefix b then Ok {| tx_content := s; tx_prefix := true; tx_suffix := false |}
         else if tx_suffix b then Ok {| tx_content := s; tx_prefix := false; tx_suffix := true |}
         else Ok {| tx_content := s; tx_prefix := false; tx_suffix := false |}
  end.

(* ---- paths ---- *)
(* builder.go:22-60: the calls *)
Inductive rp_op := RpCreate | RpRules (s : bytes) | RpTokens (s : bytes) | RpChannels (s : bytes) | RpNow.
(* builder.go:11-19 *)
Definition rp_init : rpaths := {| rp_rules := []; rp_tokens := []; rp_channels := [] |}.
(* builder.go:22-42 *)
Definition rp_step (b : rpaths) (o : rp_op) : rpaths :=
  match o with
  | RpCreate => rp_init
  | RpRules s => {| rp_rules := s; rp_tokens := rp_tokens b; rp_channels := rp_channels b |}
  | RpTokens s => {| rp_rules := rp_rules b; rp_tokens := s; rp_channels := rp_channels b |}
  | RpChannels s => {| rp_rules := rp_rules b; rp_tokens := rp_tokens b; rp_channels := s |}
  | RpNow => b
  end.
(* builder.go:45-59, paths.go:9-36 *)
Definition rp_now (b : rpaths) : res rpaths :=
  match rp_rules b, rp_tokens b with
  | [], _ => Err
  | _, [] => Err
  | _, _ => Ok b
  end.

(* ---- application.go ---- *)
(* the replacementPaths of an application (:40), the only part of it that changes *)
Definition replacements : Type := gmap path.
(* path.go:30-33 CombinedElements and dependencies.go:26-28 All: the elements of the
   dependencies' map (one of each name); their order is Go's, and they only ever go into
   another such map *)
Fixpoint mentries {V} (m : gmap V) : list (bytes * V) :=
  match m with [] => [] | (k, v) :: r => (k, v) :: filter (fun x => negb (bytes_eqb (fst x) k)) (mentries r) end.
Definition dep_all (d : gmap element) : list element := map snd (mentries d).
(* :484-494, and asts/paths/adapter.go:480-486 on its answer *)
Definition fetch_not_found_fn (m : gmap path) (name : bytes) : option (element * list element) :=
  match mlookup m name with Some p => Some (pa_element p, dep_all (pa_deps p) ++ [pa_element p]) | None => None end.
(* :496-506 *)
Definition fetch_replacement_fn (m : gmap path) (name : bytes) : option (element * list element) :=
  match mlookup m name with Some p => Some (pa_element p, dep_all (pa_deps p)) | None => None end.

(* what a text of tokens declares: the tokens, and the tests of each by name *)
Definition token_texts : Type := table token * list (bytes * option (list bytes)).
(* :204-224 Tokens *)
Definition app_tokens (c : texts) : res token_texts :=
  let* patterns := to_patterns (ct_patterns c) in
  let* rules := to_rules (ct_rules c) (Some patterns) in
  to_tokens rules (ct_tokens c).
(* :297-328 createTokens; no channels is None *)
Definition create_tokens (c : texts) (channels : bytes) : res (token_texts * option (table token)) :=
  let* patterns := to_patterns (ct_patterns c) in
  let* rules := to_rules (ct_rules c) (Some patterns) in
  let* tokens := to_tokens rules (ct_tokens c) in
  match channels with
  | [] => Ok (tokens, None)
  | _ => let* ch := to_tokens rules channels in Ok (tokens, Some (fst ch))
  end.
(* :283-295 createRootToken *)
Definition create_root_token (root : bytes) (c : texts) (channels : bytes) : res (token * table token * option (table token)) :=
  let* x := create_tokens c channels in
  let* t := table_find (fst (fst x)) root in
  Ok (t, fst (fst x), snd x).
(* :462-482 replacePathElementName; asts/paths/element_builder.go, asts/paths/builder.go:36-46 *)
Definition replace_path_element_name (p : path) (l : link) : res path :=
  let* e := new_element (lk_local l) (el_must (pa_element p)) (el_not (pa_element p)) in
  Ok {| pa_element := e; pa_deps := pa_deps p |}.

Section Files.
Variable rules_file tokens_file : bytes -> option bytes.
Definition read_file (r : option bytes) : res bytes := match r with Some s => Ok s | None => Err end.

Section Call.
(* Path of another application with the given replacements (:161-163); the answer and the
   replacements after it *)
Variable sub_path : replacements -> path_resource -> res path * replacements.

(* :416-460 linkToPathFromFile.  The new application shares the map when it is not empty
   (:421-423), else it has its own (builder.go:104-106). *)
Definition link_to_path (l : link) (m : replacements) : res path * replacements :=
  let before :=
    let* rules := read_file (rules_file (rp_rules (in_paths (lk_include l)))) in
    let* tokens := read_file (tokens_file (rp_tokens (in_paths (lk_include l)))) in
    let* c := ct_now (run ct_step ct_init [CtCreate; CtRules rules; CtTokens tokens]) in
    rt_now (run rt_step rt_init [RtCreate; RtRoot (lk_reference l); RtRest (Some c)]) in
  match before with
  | Ok r =>
    let '(o, m') := sub_path m r in
    (let* p := o in replace_path_element_name p l, match m with [] => [] | _ => m' end)
  | Err => (Err, m) | Panic => (Panic, m) | NoFuel => (NoFuel, m)
  end.
(* :392-414 fetchNotFoundPaths; the last link of a local name wins *)
Fixpoint fetch_not_found_paths (l : list link) (out : gmap path) (m : replacements) : res (gmap path) * replacements :=
  match l with
  | [] => (Ok out, m)
  | x :: r =>
    match link_to_path x m with
    | (Ok p, m') => fetch_not_found_paths r (minsert out (lk_local x) p) m'
    | (Err, m') => (Err, m') | (Panic, m') => (Panic, m') | (NoFuel, m') => (NoFuel, m')
    end
  end.
Definition links_list (o : option (list link)) : list link := match o with Some l => l | None => [] end.
(* :165-201 path, with skipReplacement (:332-338) true; no function (nil) is the one of an
   empty map *)
Definition path_skip (r : path_resource) (m : replacements) : res path * replacements :=
  match (let* x := create_root_token (rt_root r) (rt_rest r) [] in
         let* refs := to_references (ct_tokens (rt_rest r)) in Ok (x, refs)) with
  | Ok (t, T, _, refs) =>
    match fetch_not_found_paths (links_list (rf_references refs)) [] m with
    | (Ok nf, m') => (fst (to_path T (fetch_not_found_fn nf) (fetch_replacement_fn m') pstate_init t), m')
    | (Err, m') => (Err, m') | (Panic, m') => (Panic, m') | (NoFuel, m') => (NoFuel, m')
    end
  | Err => (Err, m) | Panic => (Panic, m) | NoFuel => (NoFuel, m)
  end.
(* :363-390 fetchReplacementPaths: the map is changed in place, before an error too *)
Fixpoint fetch_replacement_paths (l : list link) (c : texts) (m : replacements) : res unit * replacements :=
  match l with
  | [] => (Ok tt, m)
  | x :: r =>
    match rt_now (run rt_step rt_init [RtCreate; RtRoot (lk_local x); RtRest (Some c)]) with
    | Ok res =>
      match path_skip res m with
      | (Ok p, m') => fetch_replacement_paths r c (minsert m' (lk_reference x) p)
      | (Err, m') => (Err, m') | (Panic, m') => (Panic, m') | (NoFuel, m') => (NoFuel, m')
      end
    | Err => (Err, m) | Panic => (Panic, m) | NoFuel => (NoFuel, m)
    end
  end.
(* :330-361 createNotFoundAndReplacementFuncs, skipReplacement false: the two maps *)
Definition create_functions (c : texts) (refs : references) (m : replacements) : res (gmap path) * replacements :=
  match fetch_replacement_paths (links_list (rf_replacements refs)) c m with
  | (Ok _, m') => fetch_not_found_paths (links_list (rf_references refs)) [] m'
  | (Err, m') => (Err, m') | (Panic, m') => (Panic, m') | (NoFuel, m') => (NoFuel, m')
  end.
(* the common part of :103-154, :165-201 and :227-270: what is made of the texts, the
   references, and the functions; then the rest, which does not change the replacements *)
Definition with_functions {A B} (made : res A) (c : texts) (m : replacements)
  (k : A -> (bytes -> option (element * list element)) -> (bytes -> option (element * list element)) -> res B) : res B * replacements :=
  match (let* x := made in let* refs := to_references (ct_tokens c) in Ok (x, refs)) with
  | Ok (x, refs) =>
    match create_functions c refs m with
    | (Ok nf, m') => (k x (fetch_not_found_fn nf) (fetch_replacement_fn m'), m')
    | (Err, m') => (Err, m') | (Panic, m') => (Panic, m') | (NoFuel, m') => (NoFuel, m')
    end
  | Err => (Err, m) | Panic => (Panic, m) | NoFuel => (NoFuel, m)
  end.
(* :165-201 path, skipReplacement false *)
Definition path_with (m : replacements) (r : path_resource) : res path * replacements :=
  with_functions (create_root_token (rt_root r) (rt_rest r) []) (rt_rest r) m (fun x nf rp =>
    let '(t, T, _) := x in fst (to_path T nf rp pstate_init t)).
End Call.

(* :161-163 Path; the fuel bounds the depth of the includes *)
Fixpoint app_path (fuel : nat) (m : replacements) (r : path_resource) : res path * replacements :=
  match fuel with
  | O => (NoFuel, m)
  | S n => path_with (app_path n) m r
  end.

Section Lexing.
(* the order in which Go visits the channels, as in SuiteModel.v *)
Variable order : list path -> nat -> list path.
Variable test_order : bytes -> nat -> list path -> nat -> list path.
(* bounds the recursion of the lexer *)
Variable lex_fuel : nat.
(* :103-158 AST *)
Definition app_ast (fuel : nat) (m : replacements) (r : single) (content : text_content) : res ast * replacements :=
  let c := mu_container (rt_rest r) in
  with_functions (app_path fuel) (create_root_token (rt_root r) c (mu_channels (rt_rest r))) c m (fun x nf rp =>
    let '(t, T, ch) := x in
    let* lx := new_lexer T nf rp t ch in
    fst (to_ast (order (map snd (snd lx))) lex_fuel (fst lx) (tx_prefix content) (tx_content content) (lst_init (tx_prefix content)))).
(* :82-100 Root; neither root nor mistake (nil, nil, nil) is Ok None *)
Inductive root_answer := RaRoot (r : root) | RaMistake (x : mistake).
Definition app_root (fuel : nat) (m : replacements) (r : single) (content : text_content) : res (option root_answer) * replacements :=
  let '(o, m') := app_ast fuel m r content in
  (let* a := o in
   match a with
   | AMistake x => Ok (Some (RaMistake x))
   | ASuccess t => let* x := fst (to_root t []) in Ok (option_map RaRoot x)
   end, m').
(* :227-271 Tests *)
Definition tests_of (l : list (bytes * option (list bytes))) (name : bytes) : option (list bytes) :=
  match find (fun x => bytes_eqb (fst x) name) l with Some (_, o) => o | None => None end.
Definition app_tests (fuel : nat) (m : replacements) (r : multiple) : res (list suite) * replacements :=
  with_functions (app_path fuel) (create_tokens (mu_container r) (mu_channels r)) (mu_container r) m (fun x nf rp =>
    execute_suites (fst (fst x)) (tests_of (snd (fst x))) (snd x) nf rp test_order lex_fuel).
End Lexing.
End Files.
