(* BaseSpec.v - vocabulary of the properties of the base language's builders. *)
From Coq Require Import Strings.String Strings.Byte.
From Verif Require Import Go DomainModel DomainSpec BaseModel.

(* the argument of the last call of a method since the last Create, else what the field
   starts with *)
Definition latest {O V} (init : V) (is_create : O -> bool) (arg : O -> option V) (ops : list O) : V :=
  fold_left (fun acc o => if is_create o then init else match arg o with Some v => v | None => acc end) ops init.
Section Fields.
Context {A B C D E F G : Type}.
Definition cr1 (o : op1 A) := match o with N1 => true | _ => false end.
Definition cr2 (o : op2 A B) := match o with N2 => true | _ => false end.
Definition cr3 (o : op3 A B C) := match o with N3 => true | _ => false end.
Definition cr4 (o : op4 A B C D) := match o with N4 => true | _ => false end.
Definition cr5 (o : op5 A B C D E) := match o with N5 => true | _ => false end.
Definition cr7 (o : op7 A B C D E F G) := match o with N7 => true | _ => false end.
Definition a1 i := latest i cr1 (fun o => match o with A1 x => Some x | _ => None end).
Definition a2 i := latest i cr2 (fun o => match o with A2 x => Some x | _ => None end).
Definition b2 i := latest i cr2 (fun o => match o with B2 x => Some x | _ => None end).
Definition a3 i := latest i cr3 (fun o => match o with A3 x => Some x | _ => None end).
Definition b3 i := latest i cr3 (fun o => match o with B3 x => Some x | _ => None end).
Definition c3 i := latest i cr3 (fun o => match o with C3 x => Some x | _ => None end).
Definition a4 i := latest i cr4 (fun o => match o with A4 x => Some x | _ => None end).
Definition b4 i := latest i cr4 (fun o => match o with B4 x => Some x | _ => None end).
Definition c4 i := latest i cr4 (fun o => match o with C4 x => Some x | _ => None end).
Definition d4 i := latest i cr4 (fun o => match o with D4 x => Some x | _ => None end).
Definition a5 i := latest i cr5 (fun o => match o with A5 x => Some x | _ => None end).
Definition b5 i := latest i cr5 (fun o => match o with B5 x => Some x | _ => None end).
Definition c5 i := latest i cr5 (fun o => match o with C5 x => Some x | _ => None end).
Definition d5 i := latest i cr5 (fun o => match o with D5 x => Some x | _ => None end).
Definition e5 i := latest i cr5 (fun o => match o with E5 x => Some x | _ => None end).
Definition a7 i := latest i cr7 (fun o => match o with A7 x => Some x | _ => None end).
Definition b7 i := latest i cr7 (fun o => match o with B7 x => Some x | _ => None end).
Definition c7 i := latest i cr7 (fun o => match o with C7 x => Some x | _ => None end).
Definition d7 i := latest i cr7 (fun o => match o with D7 x => Some x | _ => None end).
Definition e7 i := latest i cr7 (fun o => match o with E7 x => Some x | _ => None end).
Definition f7 i := latest i cr7 (fun o => match o with F7 x => Some x | _ => None end).
Definition g7 i := latest i cr7 (fun o => match o with G7 x => Some x | _ => None end).
End Fields.
(* the builder after the calls, from the create function's fields *)
Definition after1 {A} (i : A) (ops : list (op1 A)) : A := run (step1 i) i ops.
Definition after2 {A B} (i : A) (j : B) (ops : list (op2 A B)) := run (step2 (i, j)) (i, j) ops.
Definition after3 {A B C} (i : A) (j : B) (k : C) (ops : list (op3 A B C)) := run (step3 (i, j, k)) (i, j, k) ops.
Definition after4 {A B C D} (i : A) (j : B) (k : C) (l : D) (ops : list (op4 A B C D)) := run (step4 (i, j, k, l)) (i, j, k, l) ops.
Definition after5 {A B C D E} (ops : list (op5 (option A) (option B) (option C) (option D) (option E))) := run (step5 (None, None, None, None, None)) (None, None, None, None, None) ops.
Definition after7 {A B C D E F G} (ops : list (op7 (option A) (option B) (option C) (option D) (option E) (option F) (option G))) :=
  run (step7 (None, None, None, None, None, None, None)) (None, None, None, None, None, None, None) ops.

(* Now returns x exactly if P x, and an error if there is no such x *)
Definition builds {X} (r : res X) (P : X -> Prop) : Prop := (forall x, r = Ok x <-> P x) /\ (r = Err \/ exists x, r = Ok x).
(* the first alternative that was given *)
Definition first_given {X} (l : list (option X)) : option X := fold_right (fun o r => match o with Some x => Some x | None => r end) None l.
(* a name is given by a text that is not empty, a flag by being set *)
Definition named (w : bytes) : option bytes := match w with [] => None | _ => Some w end.
Definition flagged (b : bool) : option unit := if b then Some tt else None.

(* ---- the value builder ---- *)
Definition vcr (o : vb_op) := match o with VBCreate => true | _ => false end.
Definition last_type := latest None vcr (fun o => match o with VBType t => Some t | _ => None end).
Definition last_element := latest None vcr (fun o => match o with VBElement e => Some e | _ => None end).
Definition last_uint := latest None vcr (fun o => match o with VBUint n => Some (Some n) | _ => None end).
Definition last_int := latest None vcr (fun o => match o with VBInt n => Some (Some n) | _ => None end).
Definition last_float := latest None vcr (fun o => match o with VBFloat n => Some (Some n) | _ => None end).
Definition last_bool := latest None vcr (fun o => match o with VBBool n => Some (Some n) | _ => None end).
Definition last_string := latest None vcr (fun o => match o with VBString n => Some (Some n) | _ => None end).
(* the values of the plain types *)
Definition uint_value (n : N) := BValue (BType 0 (TypeIntegerFlag + TypeUnsignedFlag)) (EUint n).
Definition int_value (z : Z) := BValue (BType 0 TypeIntegerFlag) (EInt z).
Definition float_value (x : N) := BValue (BType 0 TypeFloatFlag) (EFloat x).
Definition bool_value (b : bool) := BValue (BType 0 TypeBoolFlag) (EBool b).
Definition string_value (w : bytes) := BValue (BType 0 TypeStringFlag) (EString w).
(* no earlier Now; nothing that restarts the builder or sets its type or element *)
Definition no_now (ops : list vb_op) : Prop := ~ In VBNow ops.
Definition keeps (o : vb_op) : Prop := match o with VBCreate | VBType _ | VBElement _ => False | _ => True end.
