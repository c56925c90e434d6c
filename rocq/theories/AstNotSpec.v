(* AstNotSpec.v - vocabulary of C97: a grammar whose root token has a not-block. *)
From Coq Require Import Strings.String Strings.Byte.
From Verif Require Import Go DomainModel CardModel CardSpec PatModel PatSpec RuleModel RuleSpec PathModel PathSpec LexModel LexSpec AstModel AstSpec.

(* the path whose root is made of the lines of the block and of those of the not-block *)
Definition opened (p : path) : path :=
  {| pa_element := Element (el_name (pa_element p)) (el_must (pa_element p) ++ match el_not (pa_element p) with Some ls => ls | None => [] end) None;
     pa_deps := pa_deps p |}.
(* the line [i] of the list reads some text at the start of the script *)
Definition line_fits (channels : nat -> list path) (p : path) (ls : list line) (i : nat) (script : bytes) : Prop :=
  exists l text rest, nth_error ls i = Some l /\ script = text ++ rest /\ text <> [] /\ line_reads channels True (pa_deps p) true true l script rest.
