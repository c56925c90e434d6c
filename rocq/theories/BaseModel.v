(* BaseModel.v - domain/languages/scripts/base/parsers: the programs of the base language
   (the interfaces of sdk.go) and the builders that make them.  Definitions only; the
   events that call the builders are in EvtModel.v.
   An object is what its accessors show: one constructor per create function of its file.
   A builder is the tuple of its fields (in the order of its struct), the step of each of
   its methods and Now.  A nil interface, pointer or slice is None; a method without
   argument, such as IsBreak(), gives true.  A float64 is its bits. *)
From Coq Require Import Strings.String Strings.Byte.
From Verif Require Export Go.
Open Scope list_scope.

(* sdk.go:7-22 *)
Definition TypeUnsignedFlag : N := 1. Definition TypeIntegerFlag : N := 2. Definition TypeFloatFlag : N := 4.
Definition TypeStringFlag : N := 8. Definition TypeBoolFlag : N := 16.
(* sdk.go:24-63 *)
Definition OpArithmetic : N := 1. Definition OpAriPlus : N := 2. Definition OpAriMinus : N := 4. Definition OpAriMultiply : N := 8. Definition OpAriDivide : N := 16.
Definition OpLogical : N := 32. Definition OpLogAnd : N := 64. Definition OpLogOr : N := 128.
Definition OpRelational : N := 256. Definition OpRelNot : N := 512. Definition OpRelEqual : N := 1024. Definition OpRelLessThan : N := 2048. Definition OpRelGreaterThan : N := 4096.

(* ---- objects ---- *)
(* typ.go:8-11 *)
Record btype := BType { ty_dept : N; ty_flag : N }.
(* value.go:3-6; the element is an interface{}: one of the types a builder gives, or another *)
Inductive belement := EUint (n : N) | EInt (z : Z) | EFloat (bits : N) | EBool (b : bool) | EString (w : bytes) | EOther (n : N).
Record bvalue := BValue { va_type : btype; va_element : belement }.
(* variabledeclaration.go:3-6 *)
Record vardecl := VarDecl { vd_type : btype; vd_name : bytes }.
(* headervariable.go:3-8 *)
Record headervar := HeaderVar { hv_mandatory : bool; hv_input : bool; hv_decl : vardecl; hv_keyname : bytes }.
(* assigneename.go:3-16 *)
Inductive aname := ANVariable (w : bytes) | ANSkip.
(* assigneenamefirst.go:3-18 *)
Inductive afirst := AFDeclaration (d : vardecl) | AFName (n : aname).
(* assignee.go:3-18; assigneenamefirsts.go and assigneenames.go wrap a list *)
Inductive assignee := AEFirst (l : list afirst) | AEName (l : list aname).
(* indexvalue.go:3-18 *)
Inductive ivalue := IVValue (v : bvalue) | IVName (w : bytes).
(* slicedelimiter.go:3-19 *)
Record delimiter := Delimiter { de_index : ivalue; de_amount : option ivalue }.
(* operation.go:3-19, operationelement.go:3-39, operationfunccall.go:3-11, operationsuffix.go:3-6 *)
Inductive operation := Operation (e : opelement) (s : option opsuffix)
with opelement := OEBool (b : bool) | OEName (w : bytes) | OEValue (v : bvalue) | OEOperation (o : operation) | OECall (c : opcall)
with opcall := OCNull (o : operation)
with opsuffix := OpSuffix (operator : N) (e : opelement).
(* assignable.go:3-18, singleassignable.go:3-32, listfetchelement.go:3-6, totallistvalue.go:3-18,
   totallistassignable.go:3-25, listvalue.go:3-18, append.go:3-6, slice.go:3-6; assignables.go
   wraps a list *)
Inductive assignable := ASList (l : totallist) | ASSingle (s : single)
with single := SADeclarable (v : bvalue) | SAOperation (o : operation) | SAExtract (l : totallist) | SAFetch (f : fetchelement)
with fetchelement := FetchElement (l : totalvalue) (i : ivalue)
with totalvalue := TVAssignable (l : totallist) | TVName (w : bytes)
with totallist := TLValue (l : lvalue) | TLSlice (s : slice) | TLAppend (a : appending)
with lvalue := LVAssignables (l : list assignable) | LVName (w : bytes)
with appending := Append (l : lvalue) (s : single)
with slice := Slice (l : lvalue) (d : delimiter).
(* assignment.go:3-6 *)
Record assignment := Assignment { asg_assignee : assignee; asg_assignables : list assignable }.
(* intincrement.go:3-6 *)
Record increment := Increment { in_name : bytes; in_value : bvalue }.
(* direction.go:3-14 *)
Inductive direction := DBreak | DContinue.
(* voidfunccall.go:3-11 *)
Inductive voidcall := VCLog (a : assignable).
(* forstatement.go:3-7 *)
Record forstatement := ForStatement { fs_index : aname; fs_value : aname; fs_iterable : totalvalue }.
(* instruction.go:3-53, ifdeclaration.go:3-19, fordeclaration.go:3-19; instructions.go wraps a list *)
Inductive instruction := IAssignment (a : assignment) | IDeclaration (d : vardecl) | IIf (i : ifdecl) | IFor (f : fordecl) | ICall (c : voidcall) | IDirection (d : direction) | IIncrement (i : increment)
with ifdecl := IfDecl (condition : operation) (l : option (list instruction))
with fordecl := ForDecl (s : forstatement) (l : option (list instruction)).
(* program.go:3-19; headervariables.go wraps a list *)
Record program := Program { pr_instructions : list instruction; pr_variables : option (list headervar) }.

(* ---- what a caller of a builder does: Create (N) and the With methods, in order ---- *)
Inductive op1 (A : Type) := N1 | A1 (a : A).
Inductive op2 (A B : Type) := N2 | A2 (a : A) | B2 (b : B).
Inductive op3 (A B C : Type) := N3 | A3 (a : A) | B3 (b : B) | C3 (c : C).
Inductive op4 (A B C D : Type) := N4 | A4 (a : A) | B4 (b : B) | C4 (c : C) | D4 (d : D).
Inductive op5 (A B C D E : Type) := N5 | A5 (a : A) | B5 (b : B) | C5 (c : C) | D5 (d : D) | E5 (e : E).
Inductive op7 (A B C D E F G : Type) := N7 | A7 (a : A) | B7 (b : B) | C7 (c : C) | D7 (d : D) | E7 (e : E) | F7 (f : F) | G7 (g : G).
Arguments N1 {A}. Arguments A1 {A}. Arguments N2 {A B}. Arguments A2 {A B}. Arguments B2 {A B}.
Arguments N3 {A B C}. Arguments A3 {A B C}. Arguments B3 {A B C}. Arguments C3 {A B C}.
Arguments N4 {A B C D}. Arguments A4 {A B C D}. Arguments B4 {A B C D}. Arguments C4 {A B C D}. Arguments D4 {A B C D}.
Arguments N5 {A B C D E}. Arguments A5 {A B C D E}. Arguments B5 {A B C D E}. Arguments C5 {A B C D E}. Arguments D5 {A B C D E}. Arguments E5 {A B C D E}.
Arguments N7 {A B C D E F G}. Arguments A7 {A B C D E F G}. Arguments B7 {A B C D E F G}. Arguments C7 {A B C D E F G}. Arguments D7 {A B C D E F G}. Arguments E7 {A B C D E F G}. Arguments F7 {A B C D E F G}. Arguments G7 {A B C D E F G}.
(* the assignments of the With methods; init is the tuple of the create function.
   The two files of each builder are cited at its Now. *)
Definition step1 {A} (init : A) (b : A) (o : op1 A) : A := match o with N1 => init | A1 a => a end.
Definition step2 {A B} (init : A * B) (s : A * B) (o : op2 A B) : A * B :=
  let (x, y) := s in match o with N2 => init | A2 a => (a, y) | B2 b => (x, b) end.
Definition step3 {A B C} (init : A * B * C) (s : A * B * C) (o : op3 A B C) : A * B * C :=
  let '(x, y, z) := s in match o with N3 => init | A3 a => (a, y, z) | B3 b => (x, b, z) | C3 c => (x, y, c) end.
Definition step4 {A B C D} (init : A * B * C * D) (s : A * B * C * D) (o : op4 A B C D) : A * B * C * D :=
  let '(x, y, z, t) := s in match o with N4 => init | A4 a => (a, y, z, t) | B4 b => (x, b, z, t) | C4 c => (x, y, c, t) | D4 d => (x, y, z, d) end.
Definition step5 {A B C D E} (init : A * B * C * D * E) (s : A * B * C * D * E) (o : op5 A B C D E) : A * B * C * D * E :=
  let '(x, y, z, t, u) := s in match o with N5 => init | A5 a => (a, y, z, t, u) | B5 b => (x, b, z, t, u) | C5 c => (x, y, c, t, u) | D5 d => (x, y, z, d, u) | E5 e => (x, y, z, t, e) end.
Definition step7 {A B C D E F G} (init : A * B * C * D * E * F * G) (s : A * B * C * D * E * F * G) (o : op7 A B C D E F G) : A * B * C * D * E * F * G :=
  let '(x, y, z, t, u, v, w) := s in
  match o with N7 => init | A7 a => (a, y, z, t, u, v, w) | B7 b => (x, b, z, t, u, v, w) | C7 c => (x, y, c, t, u, v, w) | D7 d => (x, y, z, d, u, v, w)
             | E7 e => (x, y, z, t, e, v, w) | F7 f => (x, y, z, t, u, f, w) | G7 g => (x, y, z, t, u, v, g) end.

(* ---- Now ---- *)
(* append_builder.go:37-47; create :10-17, With :25-34 *)
Definition append_now (b : option lvalue * option single) : res appending :=
  match b with (None, _) => Err | (_, None) => Err | (Some l, Some a) => Ok (Append l a) end.
(* assignable_builder.go:37-47; create :10-17, With :25-34 *)
Definition assignable_now (b : option totallist * option single) : res assignable :=
  match b with (Some l, _) => Ok (ASList l) | (None, Some s) => Ok (ASSingle s) | (None, None) => Err end.
(* assignables_builder.go:27-33; create :7-13, With :21-24 *)
Definition assignables_now (b : option (list assignable)) : res (list assignable) :=
  Ok (match b with None => [] | Some l => l end).
(* assignee_builder.go:37-47; create :10-17, With :25-34 *)
Definition assignee_now (b : option (list afirst) * option (list aname)) : res assignee :=
  match b with (Some l, _) => Ok (AEFirst l) | (None, Some l) => Ok (AEName l) | (None, None) => Err end.
(* assigneename_builder.go:37-47; create :10-17, With :25-34; the fields are (isSkip, variable) *)
Definition aname_now (b : bool * bytes) : res aname :=
  match b with (_, c :: w) => Ok (ANVariable (c :: w)) | (true, []) => Ok ANSkip | (false, []) => Err end.
(* assigneenamefirst_builder.go:37-47; create :10-17, With :25-34 *)
Definition afirst_now (b : option vardecl * option aname) : res afirst :=
  match b with (Some d, _) => Ok (AFDeclaration d) | (None, Some n) => Ok (AFName n) | (None, None) => Err end.
(* a list that must not be empty: assigneenamefirsts_builder.go:29-39, assigneenames_builder.go:29-39,
   headervariables_builder.go:29-39, instructions_builder.go:29-39; create :9-15, With :23-26 *)
Definition nonempty_now {A} (b : option (list A)) : res (list A) :=
  let b := match b with Some [] => None | _ => b end in
  match b with None => Err | Some l => Ok l end.
(* assignment_builder.go:39-49; create :12-19, With :27-36 *)
Definition assignment_now (b : option assignee * option (list assignable)) : res assignment :=
  match b with (None, _) => Err | (_, None) => Err | (Some a, Some l) => Ok (Assignment a l) end.
(* direction_builder.go:37-47; create :10-17, With :25-34 *)
Definition direction_now (b : bool * bool) : res direction :=
  match b with (true, _) => Ok DBreak | (false, true) => Ok DContinue | (false, false) => Err end.
(* fordeclaration_builder.go:37-47; create :10-17, With :25-34 *)
Definition fordecl_now (b : option forstatement * option (list instruction)) : res fordecl :=
  match b with (None, _) => Err | (Some s, Some l) => Ok (ForDecl s (Some l)) | (Some s, None) => Ok (ForDecl s None) end.
(* forstatement_builder.go:45-59; create :11-19, With :27-42 *)
Definition forstatement_now (b : option aname * option aname * option totalvalue) : res forstatement :=
  match b with (None, _, _) => Err | (_, None, _) => Err | (_, _, None) => Err | (Some i, Some v, Some l) => Ok (ForStatement i v l) end.
(* headervariable_builder.go:53-63; create :12-21, With :29-50 *)
Definition headervar_now (b : bool * bool * option vardecl * bytes) : res headervar :=
  match b with (_, _, None, _) => Err | (_, _, _, []) => Err | (m, i, Some d, k) => Ok (HeaderVar m i d k) end.
(* ifdeclaration_builder.go:37-47; create :10-17, With :25-34 *)
Definition ifdecl_now (b : option operation * option (list instruction)) : res ifdecl :=
  match b with (None, _) => Err | (Some o, Some l) => Ok (IfDecl o (Some l)) | (Some o, None) => Ok (IfDecl o None) end.
(* indexvalue_builder.go:37-47; create :10-17, With :25-34 *)
Definition ivalue_now (b : option bvalue * bytes) : res ivalue :=
  match b with (Some v, _) => Ok (IVValue v) | (None, c :: w) => Ok (IVName (c :: w)) | (None, []) => Err end.
(* instruction_builder.go:77-107; create :15-27, With :35-74 *)
Definition instruction_now (b : option assignment * option vardecl * option ifdecl * option fordecl * option voidcall * option direction * option increment) : res instruction :=
  let '(a, v, i, f, c, d, n) := b in
  match a with Some x => Ok (IAssignment x) | None =>
  match v with Some x => Ok (IDeclaration x) | None =>
  match i with Some x => Ok (IIf x) | None =>
  match f with Some x => Ok (IFor x) | None =>
  match c with Some x => Ok (ICall x) | None =>
  match d with Some x => Ok (IDirection x) | None =>
  match n with Some x => Ok (IIncrement x) | None => Err end end end end end end end.
(* intincrement_builder.go:37-47; create :10-17, With :25-34 *)
Definition increment_now (b : bytes * option bvalue) : res increment :=
  match b with ([], _) => Err | (_, None) => Err | (w, Some v) => Ok (Increment w v) end.
(* listfetchelement_builder.go:37-47; create :10-17, With :25-34 *)
Definition fetch_now (b : option totalvalue * option ivalue) : res fetchelement :=
  match b with (None, _) => Err | (_, None) => Err | (Some l, Some i) => Ok (FetchElement l i) end.
(* listvalue_builder.go:37-47; create :10-17, With :25-34 *)
Definition lvalue_now (b : option (list assignable) * bytes) : res lvalue :=
  match b with (Some l, _) => Ok (LVAssignables l) | (None, c :: w) => Ok (LVName (c :: w)) | (None, []) => Err end.
(* operation.go:33-40 Optimize *)
Definition optimize (o : operation) : operation :=
  match o with Operation (OEOperation p) None => p | _ => o end.
(* operation_builder.go:37-47; create :10-17, With :25-34 *)
Definition operation_now (b : option opelement * option opsuffix) : res operation :=
  match b with (None, _) => Err | (Some e, Some s) => Ok (Operation e (Some s)) | (Some e, None) => Ok (optimize (Operation e None)) end.
(* operationelement_builder.go:61-83; create :13-23, With :31-58; the fields are (boolValue, variableName,
   computableValue, operation, fnCall), the call is tried before the operation *)
Definition element_now (b : option bool * option bytes * option bvalue * option operation * option opcall) : res opelement :=
  let '(b, w, v, o, c) := b in
  match b with Some x => Ok (OEBool x) | None =>
  match w with Some x => Ok (OEName x) | None =>
  match v with Some x => Ok (OEValue x) | None =>
  match c with Some x => Ok (OECall x) | None =>
  match o with Some x => Ok (OEOperation x) | None => Err end end end end end.
(* operationfunccall_builder.go:29-35; create :9-15, With :23-26 *)
Definition opcall_now (b : option operation) : res opcall := match b with Some o => Ok (OCNull o) | None => Err end.
(* operationsuffix_builder.go:37-47; create :10-17, With :25-34 *)
Definition suffix_now (b : option N * option opelement) : res opsuffix :=
  match b with (None, _) => Err | (_, None) => Err | (Some o, Some e) => Ok (OpSuffix o e) end.
(* program_builder.go:37-47; create :10-17, With :25-34 *)
Definition program_now (b : option (list instruction) * option (list headervar)) : res program :=
  match b with (None, _) => Err | (Some i, Some v) => Ok (Program i (Some v)) | (Some i, None) => Ok (Program i None) end.
(* singleassignable_builder.go:53-71; create :12-21, With :29-50 *)
Definition single_now (b : option bvalue * option operation * option totallist * option fetchelement) : res single :=
  let '(v, o, l, f) := b in
  match v with Some x => Ok (SADeclarable x) | None =>
  match o with Some x => Ok (SAOperation x) | None =>
  match l with Some x => Ok (SAExtract x) | None =>
  match f with Some x => Ok (SAFetch x) | None => Err end end end end.
(* slice_builder.go:37-47; create :10-17, With :25-34 *)
Definition slice_now (b : option lvalue * option delimiter) : res slice :=
  match b with (None, _) => Err | (_, None) => Err | (Some l, Some d) => Ok (Slice l d) end.
(* slicedelimiter_builder.go:37-47; create :10-17, With :25-34 *)
Definition delimiter_now (b : option ivalue * option ivalue) : res delimiter :=
  match b with (None, _) => Err | (Some i, Some a) => Ok (Delimiter i (Some a)) | (Some i, None) => Ok (Delimiter i None) end.
(* totallistassignable_builder.go:45-59; create :11-19, With :27-42 *)
Definition totallist_now (b : option lvalue * option slice * option appending) : res totallist :=
  let '(l, s, a) := b in
  match l with Some x => Ok (TLValue x) | None =>
  match s with Some x => Ok (TLSlice x) | None =>
  match a with Some x => Ok (TLAppend x) | None => Err end end end.
(* totallistvalue_builder.go:37-47; create :10-17, With :25-34 *)
Definition totalvalue_now (b : option totallist * bytes) : res totalvalue :=
  match b with (Some l, _) => Ok (TVAssignable l) | (None, c :: w) => Ok (TVName (c :: w)) | (None, []) => Err end.
(* type_builder.go:37-43; create :10-17, With :25-34; the fields are (dept, flag) *)
Definition type_now (b : N * option N) : res btype := match b with (_, None) => Err | (d, Some f) => Ok (BType d f) end.
(* variabledeclaration_builder.go:37-47; create :10-17, With :25-34 *)
Definition vardecl_now (b : option btype * bytes) : res vardecl :=
  match b with (None, _) => Err | (_, []) => Err | (Some t, w) => Ok (VarDecl t w) end.
(* variabledeclarations_builder.go:29-39; create :9-15, With :23-26: the first test never holds
   for a list that is empty but not nil *)
Definition vardecls_now (b : option (list vardecl)) : res (list vardecl) := match b with None => Err | Some l => Ok l end.
(* voidfunccall_builder.go:29-35; create :9-15, With :23-26 *)
Definition voidcall_now (b : option assignable) : res voidcall := match b with Some a => Ok (VCLog a) | None => Err end.

(* ---- the value builder: Now changes it ---- *)
(* value_builder.go:5-14; the type builder is always the one of NewTypeBuilder (sdk.go:254-258) *)
Record vbuilder := { vb_typ : option btype; vb_element : option belement; vb_uint : option N; vb_int : option Z; vb_float : option N; vb_bool : option bool; vb_str : option bytes }.
(* value_builder.go:16-31 *)
Definition vb_init : vbuilder := {| vb_typ := None; vb_element := None; vb_uint := None; vb_int := None; vb_float := None; vb_bool := None; vb_str := None |}.
(* value_builder.go:83-133 Now: the outcome and the builder afterwards; (flag, element) is what
   :85-114 leave in typeBuilder and app.element *)
Definition vb_now (b : vbuilder) : res bvalue * vbuilder :=
  match vb_typ b with
  | Some t => (match vb_element b with None => Err | Some e => Ok (BValue t e) end, b)
  | None =>
    let '(f, e) := (None, vb_element b) in
    let '(f, e) := match vb_uint b with Some x => (Some (N.lor TypeIntegerFlag TypeUnsignedFlag), Some (EUint x)) | None => (f, e) end in
    let '(f, e) := match vb_int b with Some x => (Some TypeIntegerFlag, Some (EInt x)) | None => (f, e) end in
    let '(f, e) := match vb_float b with Some x => (Some TypeFloatFlag, Some (EFloat x)) | None => (f, e) end in
    let '(f, e) := match vb_bool b with Some x => (Some TypeBoolFlag, Some (EBool x)) | None => (f, e) end in
    let '(f, e) := match vb_str b with Some x => (Some TypeStringFlag, Some (EString x)) | None => (f, e) end in
    let after t := {| vb_typ := t; vb_element := e; vb_uint := vb_uint b; vb_int := vb_int b; vb_float := vb_float b; vb_bool := vb_bool b; vb_str := vb_str b |} in
    match type_now (0%N, f) with
    | Ok t => (match e with None => Err | Some e => Ok (BValue t e) end, after (Some t))
    | Err => (Err, after None)
    | Panic => (Panic, after None)
    | NoFuel => (NoFuel, after None)
    end
  end.
(* value_builder.go:34-80 *)
Inductive vb_op := VBCreate | VBType (t : option btype) | VBElement (e : option belement) | VBUint (n : N) | VBInt (z : Z) | VBFloat (bits : N) | VBBool (b : bool) | VBString (w : bytes) | VBNow.
Definition vb_step (b : vbuilder) (o : vb_op) : vbuilder :=
  match o with
  | VBCreate => vb_init
  | VBType t => {| vb_typ := t; vb_element := vb_element b; vb_uint := vb_uint b; vb_int := vb_int b; vb_float := vb_float b; vb_bool := vb_bool b; vb_str := vb_str b |}
  | VBElement e => {| vb_typ := vb_typ b; vb_element := e; vb_uint := vb_uint b; vb_int := vb_int b; vb_float := vb_float b; vb_bool := vb_bool b; vb_str := vb_str b |}
  | VBUint n => {| vb_typ := vb_typ b; vb_element := vb_element b; vb_uint := Some n; vb_int := vb_int b; vb_float := vb_float b; vb_bool := vb_bool b; vb_str := vb_str b |}
  | VBInt z => {| vb_typ := vb_typ b; vb_element := vb_element b; vb_uint := vb_uint b; vb_int := Some z; vb_float := vb_float b; vb_bool := vb_bool b; vb_str := vb_str b |}
  | VBFloat x => {| vb_typ := vb_typ b; vb_element := vb_element b; vb_uint := vb_uint b; vb_int := vb_int b; vb_float := Some x; vb_bool := vb_bool b; vb_str := vb_str b |}
  | VBBool x => {| vb_typ := vb_typ b; vb_element := vb_element b; vb_uint := vb_uint b; vb_int := vb_int b; vb_float := vb_float b; vb_bool := Some x; vb_str := vb_str b |}
  | VBString w => {| vb_typ := vb_typ b; vb_element := vb_element b; vb_uint := vb_uint b; vb_int := vb_int b; vb_float := vb_float b; vb_bool := vb_bool b; vb_str := Some w |}
  | VBNow => snd (vb_now b)
  end.
(* typ.go:36-48 Compare *)
Definition type_compare (a b : btype) : res unit :=
  if negb (ty_dept a =? ty_dept b)%N then Err else if negb (ty_flag a =? ty_flag b)%N then Err else Ok tt.
