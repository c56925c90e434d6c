(* B64Spec.v - vocabulary of C102: base64 (RFC 4648, the standard alphabet, with padding). *)
From Coq Require Import Strings.String Strings.Byte.
From Verif Require Import Go.
Open Scope list_scope.

Definition alphabet : bytes := bs "ABCDEFGHIJKLMNOPQRSTUVWXYZabcdefghijklmnopqrstuvwxyz0123456789+/".
(* the character c stands for the number n *)
Definition digit (c : byte) (n : nat) : Prop := nth_error alphabet n = Some c.
Definition number (b : byte) : nat := N.to_nat (Byte.to_N b).
(* what a text without line breaks stands for; [spare e] says which left-over bits are permitted *)
Inductive coded (spare : nat -> Prop) : bytes -> bytes -> Prop :=
| cd_end : coded spare [] []
| cd_one c1 c2 n1 n2 b e : digit c1 n1 -> digit c2 n2 -> n1 * 64 + n2 = number b * 16 + e -> e < 16 -> spare e ->
    coded spare [c1; c2; "="%byte; "="%byte] [b]
| cd_two c1 c2 c3 n1 n2 n3 a b e : digit c1 n1 -> digit c2 n2 -> digit c3 n3 -> (n1 * 64 + n2) * 64 + n3 = (number a * 256 + number b) * 4 + e -> e < 4 -> spare e ->
    coded spare [c1; c2; c3; "="%byte] [a; b]
| cd_three c1 c2 c3 c4 n1 n2 n3 n4 a b c text data : digit c1 n1 -> digit c2 n2 -> digit c3 n3 -> digit c4 n4 ->
    ((n1 * 64 + n2) * 64 + n3) * 64 + n4 = (number a * 256 + number b) * 256 + number c -> coded spare text data ->
    coded spare (c1 :: c2 :: c3 :: c4 :: text) (a :: b :: c :: data).
(* carriage returns and line feeds may stand anywhere *)
Inductive unbroken : bytes -> bytes -> Prop :=
| ub_end : unbroken [] []
| ub_break c s t : c = x0d \/ c = x0a -> unbroken s t -> unbroken (c :: s) t
| ub_keep c s t : c <> x0d -> c <> x0a -> unbroken s t -> unbroken (c :: s) (c :: t).

(* hexadecimal: two digits for every byte, small or capital letters *)
Definition hex_small : bytes := bs "0123456789abcdef".
Definition hex_capital : bytes := bs "0123456789ABCDEF".
Definition hex_is (c : byte) (n : nat) : Prop := nth_error hex_small n = Some c \/ nth_error hex_capital n = Some c.
Inductive hexed (is : byte -> nat -> Prop) : bytes -> bytes -> Prop :=
| hx_end : hexed is [] []
| hx_byte c1 c2 n1 n2 b s d : is c1 n1 -> is c2 n2 -> number b = n1 * 16 + n2 -> hexed is s d -> hexed is (c1 :: c2 :: s) (b :: d).
