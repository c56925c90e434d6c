(* Utf8Spec.v - UTF-8, RFC 3629: the bytes of a code point. *)
From Coq Require Import Strings.String Strings.Byte.
From Verif Require Import Go.
Open Scope list_scope.

(* the Unicode scalar values: no surrogates *)
Definition scalar_value (c : N) : Prop := (c < 0xD800 \/ 0xE000 <= c <= 0x10FFFF)%N.
Definition utf8 (c : N) : list N :=
  (if c <? 0x80 then [c]
   else if c <? 0x800 then [0xC0 + c / 0x40; 0x80 + c mod 0x40]
   else if c <? 0x10000 then [0xE0 + c / 0x1000; 0x80 + (c / 0x40) mod 0x40; 0x80 + c mod 0x40]
   else [0xF0 + c / 0x40000; 0x80 + (c / 0x1000) mod 0x40; 0x80 + (c / 0x40) mod 0x40; 0x80 + c mod 0x40])%N.
Definition character (w : bytes) : Prop := exists c, scalar_value c /\ map Byte.to_N w = utf8 c.
(* the character a text starts with; one byte, if what it starts with is not UTF-8 *)
Definition first_character (s w : bytes) : Prop :=
  exists r, s = w ++ r /\ (character w \/ (length w = 1 /\ forall w' r', s = w' ++ r' -> ~ character w')).

(* ---- white space ---- *)
(* the code points with the property White_Space of Unicode *)
Definition white_space (c : N) : Prop :=
  (9 <= c <= 13 \/ c = 0x20 \/ c = 0x85 \/ c = 0xA0 \/ c = 0x1680 \/ 0x2000 <= c <= 0x200A \/ c = 0x2028 \/ c = 0x2029 \/ c = 0x202F \/ c = 0x205F \/ c = 0x3000)%N.
Definition white (w : bytes) : Prop := exists c, white_space c /\ map Byte.to_N w = utf8 c.
Inductive white_text : bytes -> Prop :=
| white_end : white_text []
| white_more w r : white w -> white_text r -> white_text (w ++ r).
(* t is s without the white space around it *)
Definition trimmed (s t : bytes) : Prop :=
  exists p q, s = p ++ t ++ q /\ white_text p /\ white_text q /\ (forall w r, white w -> t <> w ++ r) /\ (forall w r, white w -> t <> r ++ w).
