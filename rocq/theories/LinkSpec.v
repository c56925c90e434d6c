(* LinkSpec.v - vocabulary of C98. *)
From Coq Require Import Strings.String Strings.Byte.
From Verif Require Import Go DomainModel TextModel.
Open Scope list_scope.
(* x is the last of the list with P *)
Definition last_such {A} (P : A -> Prop) (l : list A) (x : A) : Prop :=
  exists before after, l = before ++ x :: after /\ P x /\ forall y, In y after -> ~ P y.
Definition is_local (name : bytes) (x : link) : Prop := lk_local x = name.
Definition is_reference (include ref : bytes) (x : link) : Prop := in_name (lk_include x) = include /\ lk_reference x = ref.
