(* EndLexProps.v - property theorem C94, the lexer: see EndProps.v. *)
From Coq Require Import Strings.String Strings.Byte Sorting.Permutation Lia.
From Verif Require Import Go DomainModel CardModel RuleModel PathModel PathSpec LexModel LexSpec OrdSpec EndSpec EndProofs EndProofs4.
Open Scope list_scope.

(* ---- C94 ---- *)
(* lexing ends when the left recursions are guarded, in a number of nested calls that grows
   with the length of the text *)
Theorem C94_guarded_recursion_ends :
  forall channels still depth root script st fuel,
  same_map channels -> (forall q, among channels q -> exists r, simple_channel q r) -> settles still depth root ->
  ls_pre st = false -> (length script + 2) * (depth + 2) <= fuel ->
  fst (to_token channels fuel root script st) <> NoFuel.
Proof. intros channels still depth root script st fuel Hm Hs He E L. exact (settled_ends channels Hm Hs still depth root He script st fuel E L). Qed.
Print Assumptions C94_guarded_recursion_ends.
