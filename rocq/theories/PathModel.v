(* PathModel.v - domain/languages/lexers/containers/tokens (the declared tokens) and
   domain/languages/lexers/asts/paths (the element trees the lexer runs on).
   Definitions only.  The text grammar of tokens (containers/tokens/adapter.go) is in
   TextModel.v. *)
From Coq Require Import Strings.String Strings.Byte.
From Verif Require Export Go DomainModel CardModel PatModel RuleModel.
Open Scope list_scope.

(* ---- containers/tokens ---- *)
(* tokenspecifier.go, tokenspecifiercontent.go:31-38 Name: only the name of the content is read *)
Record tspec := { ts_name : bytes; ts_card : specific }.
(* tokenreference.go; specifiers nil is None *)
Record tref := { tr_name : bytes; tr_specs : option (list tspec) }.
(* content.go: exactly one is set *)
Inductive tcontent := TRef (r : tref) | TRule (r : rule).
(* element.go; no cardinality is None *)
Record telem := { te_content : tcontent; te_card : option cardinality }.
(* instruction.go *)
Inductive tinstr := TSwitch | TElem (e : telem).
(* line.go *)
Definition tline : Type := list tinstr.
(* token.go, block.go; the test suite of a token is kept apart (SuiteModel.v) *)
Record token := { t_name : bytes; t_must : list tline; t_not : option (list tline) }.

(* what the builders let exist: token_builder.go, block_builder.go:37-47,
   lines_builder.go:29-39, line_builder.go:29-39, tokenreference_builder.go:37-47,
   tokenspecifiers_builder.go:29-39, rules/rule_builder.go:45-59 *)
Definition tspec_ok (s : tspec) : bool := non_empty (ts_name s).
Definition tref_ok (r : tref) : bool :=
  non_empty (tr_name r) && match tr_specs r with Some l => non_empty l && forallb tspec_ok l | None => true end.
Definition tinstr_ok (i : tinstr) : bool :=
  match i with
  | TSwitch => true
  | TElem e => match te_content e with TRef r => tref_ok r | TRule r => rule_ok r end
  end.
Definition tline_ok (l : tline) : bool := non_empty l && forallb tinstr_ok l.
Definition token_ok (t : token) : bool :=
  non_empty (t_name t) && non_empty (t_must t) && forallb tline_ok (t_must t)
  && match t_not t with Some l => non_empty l && forallb tline_ok l | None => true end.

(* ---- asts/paths ---- *)
(* specifier.go *)
Record pspec := { sp_name : bytes; sp_card : specific }.
(* element.go, line.go, instruction.go, container.go, token.go, tokenpath.go, rule.go,
   recursivetoken.go.  A nil specifiers list is [] (the builders turn [] into nil). *)
Inductive element := Element (name : bytes) (must : list (list instr)) (not : option (list (list instr)))
with instr := ISwitch | ICont (c : pcontainer)
with pcontainer :=
| PToken (e : element) (specs : list pspec) (card : cardinality)
| PRule (r : rule) (card : cardinality)
| PRec (name : bytes) (specs : list pspec) (card : cardinality)
| PLines (ls : list (list instr)).
Definition line : Type := list instr.
Definition el_name (e : element) : bytes := match e with Element n _ _ => n end.
Definition el_must (e : element) : list line := match e with Element _ m _ => m end.
Definition el_not (e : element) : option (list line) := match e with Element _ _ n => n end.

(* ---- asts/paths/adapter.go ---- *)
(* the adapter's currentTokenStack (:33) is the state; a set of names *)
Definition stack : Type := list bytes.
Definition SM (A : Type) : Type := stack -> res A * stack.
Definition sret {A} (r : res A) : SM A := fun s => (r, s).
Definition sbind {A B} (m : SM A) (f : A -> SM B) : SM B := fun s =>
  match m s with
  | (Ok a, s') => f a s'
  | (Err, s') => (Err, s')
  | (Panic, s') => (Panic, s')
  | (NoFuel, s') => (NoFuel, s')
  end.
Definition on_stack (s : stack) (n : bytes) : bool := existsb (bytes_eqb n) s.
Definition push (s : stack) (n : bytes) : stack := if on_stack s n then s else n :: s.
Definition pop (s : stack) (n : bytes) : stack := filter (fun m => negb (bytes_eqb n m)) s.

(* element_builder.go:46-68 Now *)
Definition new_element (name : bytes) (must : list line) (not : option (list line)) : res element :=
  match name, must with
  | [], _ => Err
  | _, [] => Err
  | _, _ => Ok (Element name must (match not with Some [] => None | _ => not end))
  end.
(* line_builder.go:29-39 Now *)
Definition new_line (l : line) : res line := match l with [] => Err | _ => Ok l end.
(* recursivetoken_builder.go:48-66 Now *)
Definition new_rec (name : bytes) (specs : list pspec) (c : cardinality) : res pcontainer :=
  match name with [] => Err | _ => Ok (PRec name specs c) end.
(* adapter.go:526-541 buildSpecifiers; specifier_builder.go:43-53 *)
Fixpoint build_specifiers (l : list tspec) : res (list pspec) :=
  match l with
  | [] => Ok []
  | s :: r =>
    let* x := match ts_name s with [] => Err | _ => Ok {| sp_name := ts_name s; sp_card := ts_card s |} end in
    let* y := build_specifiers r in Ok (x :: y)
  end.
Definition opt_specifiers (o : option (list tspec)) : res (list pspec) :=
  match o with None => Ok [] | Some l => build_specifiers l end.

(* adapter.go:372-381 elementToContainer: the default cardinality *)
Definition eff_card (e : telem) : cardinality := match te_card e with Some c => c | None => CMandatory end.

Section Adapter.
Variable tokens : table token.                                  (* :29 *)
(* :30-31; a nil function behaves as one that always answers nil.  The not-found
   function's Path is (Element(), CombinedElements()). *)
Variable not_found : bytes -> option (element * list element).
Variable replace : bytes -> option (element * list element).

Section Expand.
(* :289-298 toElementEncapsulated one level down *)
Variable expand : token -> SM (element * list element).

(* :460-524 tokenReferenceToTokenPath *)
Definition token_reference_to_token_path (r : tref) : SM (element * list pspec * list element) :=
  sbind
    (match replace (tr_name r) with
     | Some (e, ext) => sret (Ok (e, ext))
     | None =>
       match table_find tokens (tr_name r) with
       | Ok t => expand t
       | _ => match not_found (tr_name r) with Some (e, ext) => sret (Ok (e, ext)) | None => sret Err end
       end
     end)
    (fun x => sbind (sret (opt_specifiers (tr_specs r))) (fun specs => sret (Ok (fst x, specs, snd x)))).

(* :371-458 elementToContainer *)
Definition element_to_container (parent : bytes) (e : telem) (amount_elements : nat) : SM (pcontainer * list element) :=
  let card := eff_card e in
  match te_content e with
  | TRef r => fun s =>
    if on_stack s (tr_name r)
    then
      if bytes_eqb parent (tr_name r) && (amount_elements <=? 1)
      then (Err, s)
      else sret (let* specs := opt_specifiers (tr_specs r) in
                 let* c := new_rec (tr_name r) specs card in Ok (c, [])) s
    else
      sbind (token_reference_to_token_path r) (fun x =>
        let '(el, specs, ext) := x in sret (Ok (PToken el specs card, ext))) s
  | TRule r => sret (Ok (PRule r card, []))
  end.

(* :320-369 processLine.  The nil container (:344-346) cannot occur: elementToContainer
   answers nil only with an error. *)
Definition is_elem (i : tinstr) : bool := match i with TElem _ => true | TSwitch => false end.
Fixpoint process_instrs (parent : bytes) (amount_elements : nat) (l : list tinstr) : SM (list instr * list element) :=
  match l with
  | [] => sret (Ok ([], []))
  | TSwitch :: r =>
    sbind (process_instrs parent amount_elements r) (fun y => sret (Ok (ISwitch :: fst y, snd y)))
  | TElem e :: r =>
    sbind (element_to_container parent e amount_elements) (fun x =>
    sbind (process_instrs parent amount_elements r) (fun y => sret (Ok (ICont (fst x) :: fst y, snd x ++ snd y))))
  end.
Definition process_line (parent : bytes) (l : tline) : SM (line * list element) :=
  let amount_elements := length (filter is_elem l) in
  sbind (process_instrs parent amount_elements l) (fun x =>
    sret (let* ln := new_line (fst x) in Ok (ln, snd x))).
(* :300-318 processLines *)
Fixpoint process_lines (parent : bytes) (ls : list tline) : SM (list line * list element) :=
  match ls with
  | [] => sret (Ok ([], []))
  | l :: r =>
    sbind (process_line parent l) (fun x =>
    sbind (process_lines parent r) (fun y => sret (Ok (fst x :: fst y, snd x ++ snd y))))
  end.
(* :258-287 toElement *)
Definition to_element_with (t : token) : SM (element * list element) :=
  sbind (process_lines (t_name t) (t_must t)) (fun m =>
  match t_not t with
  | None => sret (let* e := new_element (t_name t) (fst m) None in Ok (e, snd m))
  | Some ls =>
    sbind (process_lines (t_name t) ls) (fun n =>
      sret (let* e := new_element (t_name t) (fst m) (Some (fst n)) in Ok (e, snd m ++ snd n)))
  end).
End Expand.

(* :289-298 toElementEncapsulated: the name is removed on errors too *)
Definition encapsulated (run : token -> SM (element * list element)) (t : token) : SM (element * list element) := fun s =>
  let '(r, s') := run t (push s (t_name t)) in (r, pop s' (t_name t)).
(* :258-298, the recursion; fuel bounds its depth *)
Fixpoint to_element (fuel : nat) (t : token) : SM (element * list element) :=
  match fuel with
  | O => sret NoFuel
  | S n => to_element_with (encapsulated (to_element n)) t
  end.
Definition path_fuel : nat := S (length (table_all tokens)).

(* :242-256 buildDependencies *)
Fixpoint build_dependencies (l : list token) : SM (list element) :=
  match l with
  | [] => sret (Ok [])
  | t :: r =>
    sbind (to_element path_fuel t) (fun x =>
    sbind (build_dependencies r) (fun y => sret (Ok (fst x :: snd x ++ y))))
  end.

(* path.go, dependencies.go: the dependencies' map by name (dependencies_builder.go:37-40, the last of a name wins) *)
Record path := { pa_element : element; pa_deps : gmap element }.
(* dependencies.go:36-43 Fetch *)
Definition dep_fetch (d : gmap element) (n : bytes) : res element :=
  match mlookup d n with Some e => Ok e | None => Err end.
(* the adapter's state: dependencies (:32, None is nil) and the stack *)
Record pstate := { ps_deps : option (list element); ps_stack : stack }.
Definition pstate_init : pstate := {| ps_deps := None; ps_stack := [] |}.
(* :212-240 ToPath *)
Definition to_path (st : pstate) (t : token) : res path * pstate :=
  let '(d, s1) :=
    match ps_deps st with
    | Some d => (Ok d, ps_stack st)
    | None => build_dependencies (table_all tokens) (ps_stack st)
    end in
  match d with
  | Ok deps =>
    let '(r, s2) := to_element path_fuel t [] in
    let st' := {| ps_deps := Some deps; ps_stack := s2 |} in
    match r with
    | Ok (e, ext) =>
      let all := deps ++ ext ++ [e] in
      (Ok {| pa_element := e; pa_deps := fold_left (fun m x => minsert m (el_name x) x) all [] |}, st')
    | Err => (Err, st') | Panic => (Panic, st') | NoFuel => (NoFuel, st')
    end
  | Err => (Err, {| ps_deps := None; ps_stack := s1 |})
  | Panic => (Panic, {| ps_deps := None; ps_stack := s1 |})
  | NoFuel => (NoFuel, {| ps_deps := None; ps_stack := s1 |})
  end.
End Adapter.
