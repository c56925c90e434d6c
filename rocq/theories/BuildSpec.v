(* BuildSpec.v - vocabulary of the properties of the lexer's builders, in addition to that
   of BaseSpec.v (the last argument given since Create, builds, first_given). *)
From Coq Require Import Strings.String Strings.Byte.
From Verif Require Import Go DomainModel DomainSpec BaseModel BaseSpec BuildModel.

(* an argument of type uint *)
Definition uint64 (o : option N) : Prop := forall n, o = Some n -> (n < 2 ^ 64)%N.
(* a list counts as given when it has an element *)
Definition filled {A} (o : option (list A)) : option (list A) := match o with Some (x :: l) => Some (x :: l) | _ => None end.
Section Fields.
Context {A B C D E F : Type}.
Definition cr6 (o : op6 A B C D E F) := match o with N6 => true | _ => false end.
Definition a6 i := latest i cr6 (fun o => match o with A6 x => Some x | _ => None end).
Definition b6 i := latest i cr6 (fun o => match o with B6 x => Some x | _ => None end).
Definition c6 i := latest i cr6 (fun o => match o with C6 x => Some x | _ => None end).
Definition d6 i := latest i cr6 (fun o => match o with D6 x => Some x | _ => None end).
Definition e6 i := latest i cr6 (fun o => match o with E6 x => Some x | _ => None end).
Definition f6 i := latest i cr6 (fun o => match o with F6 x => Some x | _ => None end).
Definition after6 (i : A) (j : B) (k : C) (l : D) (m : E) (n : F) (ops : list (op6 A B C D E F)) := run (step6 (i, j, k, l, m, n)) (i, j, k, l, m, n) ops.
End Fields.
