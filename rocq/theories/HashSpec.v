(* HashSpec.v - the vocabulary in which the hash and hash tree properties are
   stated, independent of how the model builds trees. *)
From Verif Require Import Go HashModel.

(* what is assumed of crypto/sha512: its output has 64 bytes *)
Definition digest_size (sha512 : bytes -> bytes) : Prop :=
  forall b, length (sha512 b) = 64.

(* two different inputs with the same SHA-512 digest *)
Definition collision (sha512 : bytes -> bytes) : Prop :=
  exists x y, x <> y /\ sha512 x = sha512 y.

(* top-down Merkle root of 2^k digests: hash of (root of first half || root of second half) *)
Fixpoint merkle (sha512 : bytes -> bytes) (k : nat) (hs : list bytes) : bytes :=
  match k with
  | O => hd [] hs
  | S k => sha512 (merkle sha512 k (firstn (2 ^ k) hs) ++ merkle sha512 k (skipn (2 ^ k) hs))
  end.

(* a block leaf with digest [h] occurs at depth [d] below a leaf *)
Inductive at_depth : leaf -> nat -> bytes -> Prop :=
| at_block h : at_depth (BlockLeaf h) 0 h
| at_left h l r d x : at_depth l d x -> at_depth (ChildLeaf h l r) (S d) x
| at_right h l r d x : at_depth r d x -> at_depth (ChildLeaf h l r) (S d) x.

(* the digests of the tree's block leaves, as Compact().Leaves() reports them *)
Definition leaf_digests (t : hashtree) : list bytes := map leaf_head (snd (tree_compact t)).

(* [n] is the smallest power of two that is at least [m] *)
Definition smallest_pow2_ge (m n : nat) : Prop :=
  m <= n /\ (exists k, n = 2 ^ k) /\ forall j, m <= 2 ^ j -> n <= 2 ^ j.

(* [a] is a subsequence of [b] *)
Inductive subseq {A : Type} : list A -> list A -> Prop :=
| sub_nil : subseq [] []
| sub_take x a b : subseq a b -> subseq (x :: a) (x :: b)
| sub_skip x a b : subseq a b -> subseq a (x :: b).

(* a digest function to run examples with: first 64 bytes of the input padded
   with (the input's length mod 256) *)
Definition toy_sha (b : bytes) : bytes :=
  firstn 64 (b ++ repeat (byte_of_N (N.of_nat (length b) mod 256)) 64).
