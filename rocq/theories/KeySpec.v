(* KeySpec.v - vocabulary of C103: what is assumed of the RSA library, and the last key given. *)
From Coq Require Import Strings.String Strings.Byte.
From Verif Require Import Go KeyModel.
Open Scope list_scope.

Record rsa_laws (R : rsa) : Prop := {
  (* what was encrypted for the public half is decrypted *)
  law_decrypt : forall rnd k m, length m + 66 <= rsa_size R (rsa_half R k) -> rsa_decrypt R k (rsa_encrypt R rnd (rsa_half R k) m) = Some m;
  (* what was written is parsed *)
  law_private : forall k, rsa_parse R (rsa_write R k) = Some k;
  law_public : forall p, rsa_parse_public R (rsa_write_public R p) = Some p
}.
Section Last.
Variable R : rsa.
(* the key last given since the builder was created, if any *)
Inductive last_private : list (kb_op R) -> option (rsa_private R) -> Prop :=
| lp_none : last_private [] None
| lp_create l : last_private (l ++ [KbCreate R]) None
| lp_given l k : last_private (l ++ [KbWithPK R k]) (Some k)
| lp_now l k : last_private l k -> last_private (l ++ [KbNow R]) k.
Inductive last_public : list (pkb_op R) -> option (rsa_public R) -> Prop :=
| lq_none : last_public [] None
| lq_create l : last_public (l ++ [PkbCreate R]) None
| lq_given l k : last_public (l ++ [PkbWithKey R k]) (Some k)
| lq_now l k : last_public l k -> last_public (l ++ [PkbNow R]) k.
End Last.
