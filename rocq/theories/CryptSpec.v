(* CryptSpec.v - vocabulary of the encryption properties *)
From Coq Require Import Strings.String Strings.Byte.
From Verif Require Import CryptModel.

(* what is assumed of AES and SHA-256: output sizes *)
Definition block_size (aes : bytes -> bytes -> bytes) : Prop :=
  forall key b, length (aes key b) = 16.
Definition key_size (sha256 : bytes -> bytes) : Prop := forall p, length (sha256 p) = 32.

(* pointwise exclusive or, as long as the shorter argument *)
Fixpoint xors (a b : bytes) : bytes :=
  match a, b with x :: a, y :: b => bxor x y :: xors a b | _, _ => [] end.

Definition toy_aes (key b : bytes) : bytes :=
  map (fun i => byte_of_N (N.of_nat ((i * 7 + length key + N.to_nat (Byte.to_N (nth i b x00))) mod 256))) (seq 0 16).
Definition toy_sha256 (p : bytes) : bytes := firstn 32 (p ++ repeat x00 32).
