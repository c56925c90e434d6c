(* EvtModel.v - domain/languages/scripts/base/parsers/helper.go: the events that turn the
   root of a base-language text into a program, and NewEvents (sdk.go:65-77).
   Definitions only.
   An event is a finite program: it ends with an outcome or asks the manager to Trigger a
   name on the very root it was given (every call in helper.go passes root) and goes on
   with the answer; on an error it returns that error, as every call in helper.go does.
   A type assertion x.(T) that fails is a panic.  strconv.ParseFloat is the parameter
   parse_float (None: an error); log.Printf is not modelled.  Line numbers are those of helper.go. *)
From Coq Require Import Strings.String Strings.Byte.
From Verif Require Export Go RuleModel RootModel ParseModel BaseModel.
Open Scope list_scope.

(* what an event gives, besides texts: the objects of BaseModel.v, bool, uint8, uint16 *)
Inductive obj :=
| OProgram (x : program) | OHeaderVariables (x : list headervar) | OHeaderVariable (x : headervar)
| OInstructions (x : list instruction) | OInstruction (x : instruction) | OVoidCall (x : voidcall) | ODirection (x : direction)
| OForDeclaration (x : fordecl) | OForStatement (x : forstatement) | OIfDeclaration (x : ifdecl)
| OAssignment (x : assignment) | OAssignee (x : assignee) | OFirsts (x : list afirst) | OFirst (x : afirst) | ONames (x : list aname) | OName (x : aname)
| OAssignables (x : list assignable) | OAssignable (x : assignable) | OSingle (x : single) | OFetch (x : fetchelement) | OTotalValue (x : totalvalue)
| OTotalList (x : totallist) | OAppend (x : appending) | OSlice (x : slice) | OListValue (x : lvalue) | ODelimiter (x : delimiter) | OIndex (x : ivalue)
| OOperation (x : operation) | OCall (x : opcall) | OSuffix (x : opsuffix) | OElement (x : opelement) | OIncrement (x : increment)
| OValue (x : bvalue) | OVarDecls (x : list vardecl) | OVarDecl (x : vardecl) | OType (x : btype)
| OBool (b : bool) | OUint8 (n : N) | OUint16 (n : N).
Definition val : Type := value obj.

(* ---- event programs ---- *)
Inductive prog (A : Type) := Ret (r : res A) | Trigger (name : bytes) (k : val -> prog A).
Arguments Ret {A}. Arguments Trigger {A}.
Fixpoint pbind {A B} (p : prog A) (f : A -> prog B) : prog B :=
  match p with
  | Ret (Ok a) => f a
  | Ret Err => Ret Err
  | Ret Panic => Ret Panic
  | Ret NoFuel => Ret NoFuel
  | Trigger n k => Trigger n (fun v => pbind (k v) f)
  end.
Notation "x <-- m ;; k" := (pbind m (fun x => k)) (at level 61, m at next level, right associativity).
(* t: the possible outcomes of Trigger on the root of the event *)
Inductive runs {A} (t : bytes -> res val -> Prop) : prog A -> res A -> Prop :=
| rn_ret r : runs t (Ret r) r
| rn_ok name k v o : t name (Ok v) -> runs t (k v) o -> runs t (Trigger name k) o
| rn_err name k : t name Err -> runs t (Trigger name k) Err
| rn_panic name k : t name Panic -> runs t (Trigger name k) Panic.

(* ---- helpers ---- *)
(* nodes.go:72-78 Exists, :33-40 Fetch *)
Definition has (r : root) (name : string) : bool := existsb (fun n => bytes_eqb (no_name n) (bs name)) (ro_nodes r).
Definition fetch (r : root) (name : string) : res node :=
  match find (fun n => bytes_eqb (no_name n) (bs name)) (ro_nodes r) with Some n => Ok n | None => Err end.
(* result.go:19-26 *)
Definition first_of (v : val) : val := match v with VResult l => nth 0 l VNil | _ => VNil end.
Definition list_of (v : val) : list val := match v with VResult l => l | _ => [] end.
(* x.(T) *)
Definition asserts {X} (f : obj -> option X) (v : val) : res X :=
  match v with VObj o => match f o with Some x => Ok x | None => Panic end | _ => Panic end.
Definition as_text (v : val) : res bytes := match v with VText w => Ok w | _ => Panic end.
(* manager.Trigger(name, root) and .First() *)
Definition trig (name : string) : prog val := Trigger (bs name) (fun v => Ret (Ok v)).
Definition get {X} (name : string) (f : obj -> option X) : prog X := v <-- trig name ;; Ret (asserts f (first_of v)).
Definition get_text (name : string) : prog bytes := v <-- trig name ;; Ret (as_text (first_of v)).
(* if nodes.Exists(name) { ... } *)
Definition opt {X} (r : root) (name : string) (p : prog X) : prog (option X) := if has r name then x <-- p ;; Ret (Ok (Some x)) else Ret (Ok None).
Definition get_opt {X} (r : root) (name : string) (f : obj -> option X) : prog (option X) := opt r name (get name f).
(* the string of a builder field that starts as "" *)
Definition text_or (o : option bytes) : bytes := match o with Some w => w | None => [] end.
Definition name_opt (r : root) : prog bytes := w <-- opt r "variableName" (get_text "variableName") ;; Ret (Ok (text_or w)).
(* every element asserted in turn: for _, x := range result.List() { list = append(list, x.(T)) } *)
Definition all_of {X} (f : obj -> option X) (v : val) : res (list X) := mapM (asserts f) (list_of v).
(* return builder.Now() *)
Definition now {X} (f : X -> obj) (r : res X) : prog val := Ret (let* x := r in Ok (VObj (f x))).
(* return manager.Trigger(name, root) *)
Definition forward (name : string) : prog val := trig name.
(* x.(T) for the types T of helper.go *)
Definition is_first (x : obj) := match x with OFirst y => Some y | _ => None end.
Definition is_name (x : obj) := match x with OName y => Some y | _ => None end.
Definition is_instructions (x : obj) := match x with OInstructions y => Some y | _ => None end.
Definition is_assignable (x : obj) := match x with OAssignable y => Some y | _ => None end.
Definition is_operation (x : obj) := match x with OOperation y => Some y | _ => None end.
Definition is_element (x : obj) := match x with OElement y => Some y | _ => None end.
Definition is_value (x : obj) := match x with OValue y => Some y | _ => None end.
Definition is_vardecl (x : obj) := match x with OVarDecl y => Some y | _ => None end.
Definition is_type (x : obj) := match x with OType y => Some y | _ => None end.
Definition is_totallist (x : obj) := match x with OTotalList y => Some y | _ => None end.
Definition is_totalvalue (x : obj) := match x with OTotalValue y => Some y | _ => None end.
Definition is_listvalue (x : obj) := match x with OListValue y => Some y | _ => None end.
Definition is_single (x : obj) := match x with OSingle y => Some y | _ => None end.
Definition is_index (x : obj) := match x with OIndex y => Some y | _ => None end.
Definition is_assignables (x : obj) := match x with OAssignables y => Some y | _ => None end.
Definition is_uint8 (x : obj) := match x with OUint8 y => Some y | _ => None end.
(* helper.go, the events of types and kinds: flag = flag | TypeX under a condition *)
Definition flag_if (c : bool) (f : N) (flags : N) : N := if c then N.lor flags f else flags.

(* ---- strconv ---- *)
(* int(bitsize) outside of 0..64 is refused by ParseUint and ParseInt; 0 means 64 *)
Definition bits_of (bitsize : N) : N := if (bitsize =? 0)%N then 64 else bitsize.
(* strconv.ParseUint(w, 10, bits) *)
Definition parse_uint (w : bytes) (bitsize : N) : res N :=
  if (64 <? bitsize)%N then Err else
  match parse_digits w with None => Err | Some n => if (n <? 2 ^ bits_of bitsize)%N then Ok n else Err end.
(* strconv.ParseInt("-" + w, 10, bits): a number too large for ParseUint counts as the largest one *)
Definition parse_neg (w : bytes) (bitsize : N) : res Z :=
  if (64 <? bitsize)%N then Err else
  match parse_digits w with
  | None => Err
  | Some n => let n := N.min n (2 ^ bits_of bitsize - 1) in
              if (2 ^ (bits_of bitsize - 1) <? n)%N then Err else Ok (- Z.of_N n)%Z
  end.

Section Base.
Variable bitsize : N.
Variable parse_float : bytes -> N -> option N.
Notation vb_set ops := (fst (vb_now (fold_left vb_step ops vb_init))).

(* :51-69 *)
Definition ev_program (r : root) : prog val :=
  i <-- get "instructions" is_instructions ;;
  v <-- get_opt r "headerVariables" (fun x => match x with OHeaderVariables y => Some y | _ => None end) ;;
  now OProgram (program_now (Some i, v)).
(* :70-83 *)
Definition ev_headerVariables (r : root) : prog val :=
  v <-- trig "headerVariable" ;;
  l <-- Ret (all_of (fun x => match x with OHeaderVariable y => Some y | _ => None end) v) ;;
  now OHeaderVariables (nonempty_now (Some l)).
(* :84-110 *)
Definition ev_headerVariable (r : root) : prog val :=
  vi <-- trig "inputOutput" ;;
  vd <-- trig "variableDeclaration" ;;
  vk <-- trig "KEYNAME_PATTERN" ;;
  d <-- Ret (asserts is_vardecl (first_of vd)) ;;
  k <-- Ret (as_text (first_of vk)) ;;
  i <-- Ret (asserts (fun x => match x with OBool b => Some b | _ => None end) (first_of vi)) ;;
  now OHeaderVariable (headervar_now (negb (has r "QUESTION_MARK"), i, Some d, k)).
(* :111-118 *)
Definition ev_inputOutput (r : root) : prog val := Ret (Ok (VObj (OBool (has r "RIGHT_ARROW")))).
(* :119-132 *)
Definition ev_instructions (r : root) : prog val :=
  v <-- trig "instruction" ;;
  l <-- Ret (all_of (fun x => match x with OInstruction y => Some y | _ => None end) v) ;;
  now OInstructions (nonempty_now (Some l)).
(* :133-200 *)
Definition ev_instruction (r : root) : prog val :=
  a <-- get_opt r "assignment" (fun x => match x with OAssignment y => Some y | _ => None end) ;;
  d <-- get_opt r "variableDeclaration" is_vardecl ;;
  i <-- get_opt r "ifDeclaration" (fun x => match x with OIfDeclaration y => Some y | _ => None end) ;;
  f <-- get_opt r "forDeclaration" (fun x => match x with OForDeclaration y => Some y | _ => None end) ;;
  c <-- get_opt r "voidFuncCalls" (fun x => match x with OVoidCall y => Some y | _ => None end) ;;
  e <-- get_opt r "direction" (fun x => match x with ODirection y => Some y | _ => None end) ;;
  n <-- get_opt r "intIncrement" (fun x => match x with OIncrement y => Some y | _ => None end) ;;
  now OInstruction (instruction_now (a, d, i, f, c, e, n)).
(* :201-214 *)
Definition ev_voidFuncCalls (r : root) : prog val :=
  a <-- get_opt r "logFuncCall" is_assignable ;; now OVoidCall (voidcall_now a).
(* :215-217 *)
Definition ev_logFuncCall (r : root) : prog val := forward "assignable".
(* :218-230 *)
Definition ev_direction (r : root) : prog val := now ODirection (direction_now (has r "BREAK", has r "CONTINUE")).
(* :231-248 *)
Definition ev_forDeclaration (r : root) : prog val :=
  s <-- get "forStatement" (fun x => match x with OForStatement y => Some y | _ => None end) ;;
  i <-- get_opt r "instructions" is_instructions ;;
  now OForDeclaration (fordecl_now (Some s, i)).
(* :249-276; list[0] and list[1] *)
Definition ev_forStatement (r : root) : prog val :=
  if has r "forStatement" then forward "forStatement" else
  iv <-- opt r "assigneeNames" (l <-- get "assigneeNames" (fun x => match x with ONames y => Some y | _ => None end) ;;
                                Ret (match l with i :: v :: _ => Ok (i, v) | _ => Panic end)) ;;
  t <-- get_opt r "totalListValue" is_totalvalue ;;
  now OForStatement (forstatement_now (option_map fst iv, option_map snd iv, t)).
(* :277-299 *)
Definition ev_ifDeclaration (r : root) : prog val :=
  c <-- get_opt r "ifOperation" is_operation ;;
  i <-- get_opt r "instructions" is_instructions ;;
  now OIfDeclaration (ifdecl_now (c, i)).
(* :300-302 *)
Definition ev_ifOperation (r : root) : prog val := forward "operation".
(* :303-325 *)
Definition ev_assignment (r : root) : prog val :=
  a <-- get_opt r "assignee" (fun x => match x with OAssignee y => Some y | _ => None end) ;;
  l <-- get_opt r "assignables" is_assignables ;;
  now OAssignment (assignment_now (a, l)).
(* :326-348 *)
Definition ev_assignee (r : root) : prog val :=
  f <-- get_opt r "assigneeNameFirsts" (fun x => match x with OFirsts y => Some y | _ => None end) ;;
  n <-- get_opt r "assigneeNames" (fun x => match x with ONames y => Some y | _ => None end) ;;
  now OAssignee (assignee_now (f, n)).
(* :349-373, :400-424, :462-485, :1048-1071: an element and the elements after commas *)
Definition with_commas {X} (r : root) (name comma : string) (f : obj -> option X) : prog (list X) :=
  x <-- get name f ;;
  l <-- opt r comma (v <-- trig comma ;; Ret (all_of f v)) ;;
  Ret (Ok (x :: match l with Some l => l | None => [] end)).
Definition ev_assigneeNameFirsts (r : root) : prog val :=
  l <-- with_commas r "assigneeNameFirst" "commaAssigneeFirst" is_first ;; now OFirsts (nonempty_now (Some l)).
(* :374-376 *)
Definition ev_commaAssigneeFirst (r : root) : prog val := forward "assigneeNameFirst".
(* :377-399 *)
Definition ev_assigneeNameFirst (r : root) : prog val :=
  d <-- get_opt r "variableDeclaration" is_vardecl ;;
  n <-- get_opt r "assigneeName" is_name ;;
  now OFirst (afirst_now (d, n)).
(* :400-424 *)
Definition ev_assigneeNames (r : root) : prog val :=
  l <-- with_commas r "assigneeName" "commaAssigneeName" is_name ;; now ONames (nonempty_now (Some l)).
(* :425-427 *)
Definition ev_commaAssigneeName (r : root) : prog val := forward "assigneeName".
(* :428-445 *)
Definition ev_assigneeName (r : root) : prog val :=
  w <-- name_opt r ;; now OName (aname_now (has r "UNDERSCORE", w)).
(* :446-461 *)
Definition ev_slice (r : root) : prog val :=
  vl <-- trig "listValue" ;;
  vd <-- trig "sliceDelimiter" ;;
  l <-- Ret (asserts is_listvalue (first_of vl)) ;;
  d <-- Ret (asserts (fun x => match x with ODelimiter y => Some y | _ => None end) (first_of vd)) ;;
  now OSlice (slice_now (Some l, Some d)).
(* :462-485 *)
Definition ev_assignables (r : root) : prog val :=
  l <-- with_commas r "assignable" "commaAssignable" is_assignable ;; now OAssignables (assignables_now (Some l)).
(* :486-488 *)
Definition ev_commaAssignable (r : root) : prog val := forward "assignable".
(* :489-511 *)
Definition ev_assignable (r : root) : prog val :=
  l <-- get_opt r "totalListAssignable" is_totallist ;;
  s <-- get_opt r "singleAssignable" is_single ;;
  now OAssignable (assignable_now (l, s)).
(* :512-552 *)
Definition ev_singleAssignable (r : root) : prog val :=
  v <-- get_opt r "declarableValue" is_value ;;
  o <-- get_opt r "operation" is_operation ;;
  l <-- get_opt r "listAssignableToAssignables" is_totallist ;;
  f <-- get_opt r "listFetchElement" (fun x => match x with OFetch y => Some y | _ => None end) ;;
  now OSingle (single_now (v, o, l, f)).
(* :553-568 *)
Definition ev_listFetchElement (r : root) : prog val :=
  vl <-- trig "totalListValue" ;;
  vi <-- trig "listElementFetcher" ;;
  l <-- Ret (asserts is_totalvalue (first_of vl)) ;;
  i <-- Ret (asserts is_index (first_of vi)) ;;
  now OFetch (fetch_now (Some l, Some i)).
(* :569-571 *)
Definition ev_listElementFetcher (r : root) : prog val := forward "indexValue".
(* :572-574 *)
Definition ev_listAssignableToAssignables (r : root) : prog val := forward "totalListAssignable".
(* :575-597 *)
Definition ev_totalListValue (r : root) : prog val :=
  l <-- get_opt r "totalListAssignable" is_totallist ;;
  w <-- name_opt r ;;
  now OTotalValue (totalvalue_now (l, w)).
(* :598-629 *)
Definition ev_totalListAssignable (r : root) : prog val :=
  l <-- get_opt r "listValue" is_listvalue ;;
  s <-- get_opt r "slice" (fun x => match x with OSlice y => Some y | _ => None end) ;;
  a <-- get_opt r "listAppend" (fun x => match x with OAppend y => Some y | _ => None end) ;;
  now OTotalList (totallist_now (l, s, a)).
(* :630-645 *)
Definition ev_listAppend (r : root) : prog val :=
  vl <-- trig "listValue" ;;
  vs <-- trig "singleAssignable" ;;
  l <-- Ret (asserts is_listvalue (first_of vl)) ;;
  s <-- Ret (asserts is_single (first_of vs)) ;;
  now OAppend (append_now (Some l, Some s)).
(* :646-668 *)
Definition ev_listValue (r : root) : prog val :=
  l <-- get_opt r "listAssignable" is_assignables ;;
  w <-- name_opt r ;;
  now OListValue (lvalue_now (l, w)).
(* :669-675 *)
Definition ev_listAssignable (r : root) : prog val :=
  if has r "assignables" then forward "assignables" else now OAssignables (assignables_now None).
(* :676-689; indexValues[0] of an empty list panics, but a Result is never empty *)
Definition ev_sliceDelimiter (r : root) : prog val :=
  v <-- trig "indexValue" ;;
  a <-- Ret (match list_of v with _ :: y :: _ => let* x := asserts is_index y in Ok (Some x) | _ => Ok None end) ;;
  i <-- Ret (match list_of v with x :: _ => asserts is_index x | [] => Panic end) ;;
  now ODelimiter (delimiter_now (Some i, a)).
(* :690-722 *)
Definition ev_indexValue (r : root) : prog val :=
  v <-- opt r "INT_PATTERN" (w <-- get_text "INT_PATTERN" ;;
                             n <-- Ret (parse_uint w bitsize) ;;
                             Ret (vb_set [VBUint n])) ;;
  w <-- name_opt r ;;
  now OIndex (ivalue_now (v, w)).
(* :723-745 *)
Definition ev_operation (r : root) : prog val :=
  if has r "operationWithSuffix" then forward "operationWithSuffix" else
  if has r "operationFuncCalls" then
    c <-- get "operationFuncCalls" (fun x => match x with OCall y => Some y | _ => None end) ;;
    e <-- Ret (element_now (None, None, None, None, Some c)) ;;
    now OOperation (operation_now (Some e, None))
  else forward "operation".
(* :746-759 *)
Definition ev_operationFuncCalls (r : root) : prog val :=
  o <-- get_opt r "isNullFuncCall" is_operation ;; now OCall (opcall_now o).
(* :760-762 *)
Definition ev_isNullFuncCall (r : root) : prog val := forward "operation".
(* :763-785 *)
Definition ev_operationWithSuffix (r : root) : prog val :=
  e <-- get_opt r "operationElement" is_element ;;
  s <-- get_opt r "operationSuffix" (fun x => match x with OSuffix y => Some y | _ => None end) ;;
  now OOperation (operation_now (e, s)).
(* :786-808 *)
Definition ev_operationSuffix (r : root) : prog val :=
  o <-- get_opt r "operator" (fun x => match x with OUint16 n => Some n | _ => None end) ;;
  e <-- get_opt r "operationElement" is_element ;;
  now OSuffix (suffix_now (o, e)).
(* :809-855 *)
Definition ev_operationElement (r : root) : prog val :=
  b <-- opt r "boolValue" (v <-- get "boolValue" is_value ;;
                           Ret (if (N.land (ty_flag (va_type v)) TypeBoolFlag =? 0)%N then Err
                                else match va_element v with EBool b => Ok b | _ => Panic end)) ;;
  w <-- opt r "variableName" (get_text "variableName") ;;
  v <-- get_opt r "computableValue" is_value ;;
  o <-- get_opt r "operation" is_operation ;;
  now OElement (element_now (b, w, v, o, None)).
(* :856-867 *)
Definition ev_operator (r : root) : prog val :=
  if has r "operatorArithmetic" then forward "operatorArithmetic" else
  if has r "operatorRelational" then forward "operatorRelational" else forward "operatorLogical".
(* :868-888 *)
Definition ev_operatorArithmetic (r : root) : prog val :=
  Ret (Ok (VObj (OUint16 (flag_if (has r "DIV") OpAriDivide (flag_if (has r "STAR") OpAriMultiply (flag_if (has r "MINUS") OpAriMinus (flag_if (has r "PLUS") OpAriPlus OpArithmetic))))))).
(* :889-909 *)
Definition ev_operatorRelational (r : root) : prog val :=
  Ret (Ok (VObj (OUint16 (flag_if (has r "MORE") OpRelGreaterThan (flag_if (has r "LESS") OpRelLessThan (flag_if (has r "EXCLAMATION") OpRelNot (flag_if (has r "EQUAL") OpRelEqual OpRelational))))))).
(* :910-922 *)
Definition ev_operatorLogical (r : root) : prog val :=
  Ret (Ok (VObj (OUint16 (flag_if (has r "PIPE") OpLogOr (flag_if (has r "AND") OpLogAnd OpLogical))))).
(* :923-938 *)
Definition ev_intIncrement (r : root) : prog val :=
  w <-- get_text "variableName" ;;
  v <-- get "intIncrementValue" is_value ;;
  now OIncrement (increment_now (w, Some v)).
(* :939-951 *)
Definition ev_intIncrementValue (r : root) : prog val :=
  now OValue (vb_set ((if has r "PLUS" then [VBInt 1] else []) ++ (if has r "MINUS" then [VBInt (-1)] else []))).
(* :952-959 *)
Definition ev_declarableValue (r : root) : prog val :=
  if has r "computableValue" then forward "computableValue" else forward "primitiveValue".
(* :960-967 *)
Definition ev_computableValue (r : root) : prog val :=
  if has r "floatValue" then forward "floatValue" else forward "intValue".
(* :968-975 *)
Definition ev_primitiveValue (r : root) : prog val :=
  if has r "boolValue" then forward "boolValue" else forward "stringValue".
(* :976-984 *)
Definition ev_stringValue (r : root) : prog val :=
  w <-- get_text "EVERYTHING_EXCEPT_QUOTATION" ;; now OValue (vb_set [VBString w]).
(* :985-997 *)
Definition ev_boolValue (r : root) : prog val :=
  now OValue (vb_set ((if has r "TRUE" then [VBBool true] else []) ++ (if has r "FALSE" then [VBBool false] else []))).
(* :998-1022 *)
Definition ev_intValue (r : root) : prog val :=
  w <-- get_text "INT_PATTERN" ;;
  if has r "MINUS" then z <-- Ret (parse_neg w bitsize) ;; now OValue (vb_set [VBInt z])
  else n <-- Ret (parse_uint w bitsize) ;; now OValue (vb_set [VBUint n]).
(* :1023-1047; "%s" of an element that is not a text (none is: no event is registered as
   INT_PATTERN) is taken as the empty text *)
Definition text_of (v : val) : bytes := match v with VText w => w | _ => [] end.
Definition ev_floatValue (r : root) : prog val :=
  v <-- trig "INT_PATTERN" ;;
  match list_of v with
  | [a; b] =>
    x <-- Ret (match parse_float ((if has r "MINUS" then bs "-" else []) ++ text_of a ++ bs "." ++ text_of b) bitsize with Some x => Ok x | None => Err end) ;;
    now OValue (vb_set [VBFloat x])
  | _ => Ret Err
  end.
(* :1048-1071 *)
Definition ev_variableDeclarations (r : root) : prog val :=
  l <-- with_commas r "variableDeclaration" "commaVariableDeclaration" is_vardecl ;; now OVarDecls (vardecls_now (Some l)).
(* :1072-1074 *)
Definition ev_commaVariableDeclaration (r : root) : prog val := forward "variableDeclaration".
(* :1075-1087 *)
Definition ev_variableDeclaration (r : root) : prog val :=
  vt <-- trig "declarativeType" ;;
  vw <-- trig "variableName" ;;
  t <-- Ret (asserts is_type (first_of vt)) ;;
  w <-- Ret (as_text (first_of vw)) ;;
  now OVarDecl (vardecl_now (Some t, w)).
(* :1088-1090 *)
Definition ev_listType (r : root) : prog val := forward "declarativeType".
(* :1091-1130; casted, ok := result.First().(uint8); the state of the type builder is (dept, flag) *)
Definition if_cast {X} (f : obj -> option X) (v : val) : option X := match v with VObj o => f o | _ => None end.
Definition ev_declarativeType (r : root) : prog val :=
  p <-- opt r "primitiveType" (trig "primitiveType") ;;
  c <-- opt r "computableType" (trig "computableType") ;;
  l <-- opt r "listType" (trig "listType") ;;
  let b := (0%N, None) in
  let flagged (b : N * option N) (v : option val) := match v with Some v => match if_cast is_uint8 (first_of v) with Some f => (fst b, Some f) | None => b end | None => b end in
  let b := flagged (flagged b p) c in
  let b := match l with Some v => match if_cast is_type (first_of v) with Some t => (((ty_dept t + 1) mod 2 ^ 64)%N, Some (ty_flag t)) | None => b end | None => b end in
  now OType (type_now b).
(* :1131-1143 *)
Definition ev_primitiveType (r : root) : prog val :=
  Ret (Ok (VObj (OUint8 (flag_if (has r "STRING") TypeStringFlag (flag_if (has r "BOOL") TypeBoolFlag 0))))).
(* :1144-1160 *)
Definition ev_computableType (r : root) : prog val :=
  Ret (Ok (VObj (OUint8 (flag_if (has r "INT") TypeIntegerFlag (flag_if (has r "UINT") (N.lor TypeIntegerFlag TypeUnsignedFlag) (flag_if (has r "FLOAT") TypeFloatFlag 0)))))).
(* :1161-1178 *)
Definition ev_variableName (r : root) : prog val :=
  a <-- Ret (fetch r "FIRST_LETTER") ;;
  b <-- Ret (fetch r "MIN_MAJ_LETTERS") ;;
  Ret (Ok (VText (no_content a ++ no_content b))).

(* :50-1179: the map *)
Definition bodies : list (string * (root -> prog val)) := [
  ("program", ev_program); ("headerVariables", ev_headerVariables); ("headerVariable", ev_headerVariable); ("inputOutput", ev_inputOutput);
  ("instructions", ev_instructions); ("instruction", ev_instruction); ("voidFuncCalls", ev_voidFuncCalls); ("logFuncCall", ev_logFuncCall);
  ("direction", ev_direction); ("forDeclaration", ev_forDeclaration); ("forStatement", ev_forStatement); ("ifDeclaration", ev_ifDeclaration);
  ("ifOperation", ev_ifOperation); ("assignment", ev_assignment); ("assignee", ev_assignee); ("assigneeNameFirsts", ev_assigneeNameFirsts);
  ("commaAssigneeFirst", ev_commaAssigneeFirst); ("assigneeNameFirst", ev_assigneeNameFirst); ("assigneeNames", ev_assigneeNames);
  ("commaAssigneeName", ev_commaAssigneeName); ("assigneeName", ev_assigneeName); ("slice", ev_slice); ("assignables", ev_assignables);
  ("commaAssignable", ev_commaAssignable); ("assignable", ev_assignable); ("singleAssignable", ev_singleAssignable); ("listFetchElement", ev_listFetchElement);
  ("listElementFetcher", ev_listElementFetcher); ("listAssignableToAssignables", ev_listAssignableToAssignables); ("totalListValue", ev_totalListValue);
  ("totalListAssignable", ev_totalListAssignable); ("listAppend", ev_listAppend); ("listValue", ev_listValue); ("listAssignable", ev_listAssignable);
  ("sliceDelimiter", ev_sliceDelimiter); ("indexValue", ev_indexValue); ("operation", ev_operation); ("operationFuncCalls", ev_operationFuncCalls);
  ("isNullFuncCall", ev_isNullFuncCall); ("operationWithSuffix", ev_operationWithSuffix); ("operationSuffix", ev_operationSuffix);
  ("operationElement", ev_operationElement); ("operator", ev_operator); ("operatorArithmetic", ev_operatorArithmetic); ("operatorRelational", ev_operatorRelational);
  ("operatorLogical", ev_operatorLogical); ("intIncrement", ev_intIncrement); ("intIncrementValue", ev_intIncrementValue); ("declarableValue", ev_declarableValue);
  ("computableValue", ev_computableValue); ("primitiveValue", ev_primitiveValue); ("stringValue", ev_stringValue); ("boolValue", ev_boolValue);
  ("intValue", ev_intValue); ("floatValue", ev_floatValue); ("variableDeclarations", ev_variableDeclarations); ("commaVariableDeclaration", ev_commaVariableDeclaration);
  ("variableDeclaration", ev_variableDeclaration); ("listType", ev_listType); ("declarativeType", ev_declarativeType); ("primitiveType", ev_primitiveType);
  ("computableType", ev_computableType); ("variableName", ev_variableName)]%string.

(* sdk.go:65-77 NewEvents: one event per name.  An event calls the manager, which calls
   events: events_at n allows n calls inside of each other, base_events any number *)
Definition make_events (t : bytes -> root -> res val -> Prop) : events obj :=
  map (fun b => (bs (fst b), [fun r o => runs (fun name => t name r) (snd b r) o])) bodies.
Fixpoint events_at (n : nat) : events obj :=
  match n with
  | O => make_events (fun _ _ _ => False)
  | S n => make_events (trigger (events_at n))
  end.
Definition base_events : events obj :=
  map (fun b => (bs (fst b), [fun r o => exists n, runs (fun name => trigger (events_at n) name r) (snd b r) o])) bodies.
End Base.
