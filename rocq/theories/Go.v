(* Go.v - the fragment of Go and its standard library used by the model:
   strings/byte slices, error returns, panics, hex, decimal numbers, Split,
   HasPrefix, TrimSpace, Join.  Definitions only; proofs in GoLemmas.v. *)
From Coq Require Import Init.Decimal Numbers.DecimalN.
From Coq Require Import Strings.Byte Strings.String.
From Coq Require Export List Arith NArith ZArith Bool.
Export ListNotations.

(* Go string and []byte: a finite sequence of bytes.  Immutability of strings is
   given; a []byte is modelled by its contents (no aliasing). *)
Notation byte := Coq.Init.Byte.byte.
Definition bytes := list byte.

(* a literal *)
Definition bs (s : string) : bytes := list_byte_of_string s.

(* Outcome of a Go call: (value, nil), (_, err), a run-time panic, or - only for
   functions modelled on explicit fuel - fuel exhausted. *)
Inductive res (A : Type) : Type :=
| Ok (a : A) | Err | Panic | NoFuel.
Arguments Ok {A} a.
Arguments Err {A}.
Arguments Panic {A}.
Arguments NoFuel {A}.

Definition bind {A B} (r : res A) (f : A -> res B) : res B :=
  match r with Ok a => f a | Err => Err | Panic => Panic | NoFuel => NoFuel end.
Notation "'let*' x := r 'in' k" := (bind r (fun x => k))
  (at level 61, x pattern, r at next level, right associativity).

Definition is_ok {A} (r : res A) : bool := match r with Ok _ => true | _ => false end.

(* for i, x := range l { y, err := f(x); if err != nil { return err }; out = append(out, y) } *)
Fixpoint mapM {A B} (f : A -> res B) (l : list A) : res (list B) :=
  match l with
  | [] => Ok []
  | x :: r => let* y := f x in let* ys := mapM f r in Ok (y :: ys)
  end.

(* == on strings, bytes.Compare(a,b) == 0 *)
Fixpoint bytes_eqb (a b : bytes) : bool :=
  match a, b with
  | [], [] => true
  | x :: a', y :: b' => Byte.eqb x y && bytes_eqb a' b'
  | _, _ => false
  end.

(* strings.HasPrefix(s, p) *)
Fixpoint has_prefix (p s : bytes) : bool :=
  match p, s with
  | [], _ => true
  | x :: p', y :: s' => Byte.eqb x y && has_prefix p' s'
  | _ :: _, [] => false
  end.

(* strings.HasSuffix(s, p) *)
Definition has_suffix (p s : bytes) : bool := has_prefix (rev p) (rev s).

(* strings.Split(s, sep) for a non-empty separator: scans left to right, cutting
   at every non-overlapping occurrence.  [skip] = separator bytes still to skip,
   [cur] = current piece, reversed. *)
Fixpoint split_go (sep : bytes) (skip : nat) (cur s : bytes) : list bytes :=
  match s with
  | [] => [rev cur]
  | c :: r =>
    match skip with
    | S k => split_go sep k cur r
    | O => if has_prefix sep s
           then rev cur :: split_go sep (length sep - 1) [] r
           else split_go sep O (c :: cur) r
    end
  end.
Definition strsplit (sep s : bytes) : list bytes := split_go sep 0 [] s.

(* strings.Join(l, sep) *)
Fixpoint join (sep : bytes) (l : list bytes) : bytes :=
  match l with
  | [] => []
  | [x] => x
  | x :: r => x ++ sep ++ join sep r
  end.

(* unicode.IsSpace on the UTF-8 of a rune: '\t', '\n', '\v', '\f', '\r', ' '; U+0085, U+00A0;
   U+1680, U+2000 to U+200A, U+2028, U+2029, U+202F, U+205F, U+3000 *)
Definition is_space (b : byte) : bool :=
  let n := Byte.to_N b in ((9 <=? n) && (n <=? 13) || (n =? 32))%N.
Definition is_space2 (a b : byte) : bool :=
  let m := Byte.to_N b in ((Byte.to_N a =? 0xC2) && ((m =? 0x85) || (m =? 0xA0)))%N.
Definition is_space3 (a b c : byte) : bool :=
  let n := Byte.to_N a in let m := Byte.to_N b in let k := Byte.to_N c in
  ((n =? 0xE1) && (m =? 0x9A) && (k =? 0x80)
   || (n =? 0xE2) && ((m =? 0x80) && ((0x80 <=? k) && (k <=? 0x8A) || (k =? 0xA8) || (k =? 0xA9) || (k =? 0xAF)) || (m =? 0x81) && (k =? 0x9F))
   || (n =? 0xE3) && (m =? 0x80) && (k =? 0x80))%N.
Fixpoint trim_left (s : bytes) : bytes :=
  match s with
  | [] => []
  | a :: r =>
    if is_space a then trim_left r
    else match r with
         | [] => s
         | b :: r2 =>
           if is_space2 a b then trim_left r2
           else match r2 with
                | [] => s
                | c :: r3 => if is_space3 a b c then trim_left r3 else s
                end
         end
  end.
(* the same from the end; the text and the answer are reversed *)
Fixpoint trim_back (s : bytes) : bytes :=
  match s with
  | [] => []
  | a :: r =>
    if is_space a then trim_back r
    else match r with
         | [] => s
         | b :: r2 =>
           if is_space2 b a then trim_back r2
           else match r2 with
                | [] => s
                | c :: r3 => if is_space3 c b a then trim_back r3 else s
                end
         end
  end.
(* strings.TrimSpace *)
Definition trim_space (s : bytes) : bytes := rev (trim_back (rev (trim_left s))).

(* encoding/hex: EncodeToString (lower case), fmt.Sprintf("%x", []byte) *)
Definition byte_of_N (n : N) : byte :=
  match Byte.of_N n with Some b => b | None => x00 end.
Definition hex_digit (n : N) : byte :=
  byte_of_N (if (n <? 10)%N then (48 + n) else (87 + n))%N.
Fixpoint hex_encode (s : bytes) : bytes :=
  match s with
  | [] => []
  | b :: r => hex_digit (Byte.to_N b / 16) :: hex_digit (Byte.to_N b mod 16) :: hex_encode r
  end.
(* hex.fromHexChar: accepts both cases *)
Definition unhex (b : byte) : option N :=
  let n := Byte.to_N b in
  if ((48 <=? n) && (n <=? 57))%N then Some (n - 48)%N
  else if ((97 <=? n) && (n <=? 102))%N then Some (n - 87)%N
  else if ((65 <=? n) && (n <=? 70))%N then Some (n - 55)%N
  else None.
(* hex.DecodeString: error on odd length or a non-hex character *)
Fixpoint hex_decode (s : bytes) : option bytes :=
  match s with
  | [] => Some []
  | [_] => None
  | a :: b :: r =>
    match unhex a, unhex b, hex_decode r with
    | Some x, Some y, Some t => Some (byte_of_N (16 * x + y) :: t)
    | _, _, _ => None
    end
  end.

(* decimal digits of a Coq Decimal.uint as ASCII bytes *)
Fixpoint uint_bytes (d : Decimal.uint) : bytes :=
  match d with
  | Nil => []
  | D0 d => "0"%byte :: uint_bytes d
  | D1 d => "1"%byte :: uint_bytes d
  | D2 d => "2"%byte :: uint_bytes d
  | D3 d => "3"%byte :: uint_bytes d
  | D4 d => "4"%byte :: uint_bytes d
  | D5 d => "5"%byte :: uint_bytes d
  | D6 d => "6"%byte :: uint_bytes d
  | D7 d => "7"%byte :: uint_bytes d
  | D8 d => "8"%byte :: uint_bytes d
  | D9 d => "9"%byte :: uint_bytes d
  end.
(* strconv.Itoa / fmt "%d" on a non-negative number *)
Definition itoa (n : N) : bytes := uint_bytes (N.to_uint n).
(* strconv.Itoa on an int *)
Definition itoaZ (z : Z) : bytes :=
  match z with
  | Zneg p => "-"%byte :: itoa (Npos p)
  | _ => itoa (Z.to_N z)
  end.

Fixpoint bytes_uint (s : bytes) : option Decimal.uint :=
  match s with
  | [] => Some Nil
  | c :: r =>
    match bytes_uint r with
    | None => None
    | Some d =>
      match c with
      | "0"%byte => Some (D0 d) | "1"%byte => Some (D1 d) | "2"%byte => Some (D2 d)
      | "3"%byte => Some (D3 d) | "4"%byte => Some (D4 d) | "5"%byte => Some (D5 d)
      | "6"%byte => Some (D6 d) | "7"%byte => Some (D7 d) | "8"%byte => Some (D8 d)
      | "9"%byte => Some (D9 d) | _ => None
      end
    end
  end.
Definition parse_digits (s : bytes) : option N :=
  match s with [] => None | _ => option_map N.of_uint (bytes_uint s) end.
(* strconv.Atoi on a 64-bit platform: optional sign, at least one decimal digit,
   value in [-2^63, 2^63). *)
Definition atoi (s : bytes) : option Z :=
  let '(neg, body) :=
    match s with
    | "-"%byte :: r => (true, r)
    | "+"%byte :: r => (false, r)
    | _ => (false, s)
    end in
  match parse_digits body with
  | None => None
  | Some n =>
    if neg
    then if (n <=? 2 ^ 63)%N then Some (- Z.of_N n)%Z else None
    else if (n <? 2 ^ 63)%N then Some (Z.of_N n) else None
  end.
(* uint(i) for an int i on a 64-bit platform: two's complement reinterpretation *)
Definition to_uint64 (z : Z) : N := Z.to_N (z mod 2 ^ 64).
(* int(u) for a uint u on a 64-bit platform: two's complement reinterpretation *)
Definition to_int64 (n : N) : Z :=
  let m := (n mod 2 ^ 64)%N in
  if (m <? 2 ^ 63)%N then Z.of_N m else (Z.of_N m - 2 ^ 64)%Z.
