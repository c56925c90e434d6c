(* Regex.v - the fragment of Go's package regexp used by the model: a parser of the
   patterns the code writes and a matcher with Go's leftmost-first preference, i.e. the
   first success of a backtracking search.  Definitions only.

   Fragment: literal characters, [..] and [^..] classes of ASCII characters, '.',
   captures, greedy '?' on anything, '*', '+', '*?' on one character, '{1}'.
   As in Go, a class and '.' consume one rune of the text (utf8.DecodeRuneInString: one byte
   where it is not valid UTF-8), and a search moves on by one rune.  The classes of the
   patterns used name ASCII characters only: a rune is in a class exactly if its first byte
   is, for a rune above ASCII, and a byte that is no rune (U+FFFD), is in the negated ones only. *)
From Coq Require Import Strings.String Strings.Byte.
From Verif Require Export Go.
Open Scope list_scope.

(* a class: the ranges listed, or everything else *)
Record cls := { cl_neg : bool; cl_ranges : list (byte * byte) }.
Definition in_range (b : byte) (r : byte * byte) : bool :=
  ((Byte.to_N (fst r) <=? Byte.to_N b) && (Byte.to_N b <=? Byte.to_N (snd r)))%N.
Definition in_class (c : cls) (b : byte) : bool := xorb (cl_neg c) (existsb (in_range b) (cl_ranges c)).
Definition lit (b : byte) : cls := {| cl_neg := false; cl_ranges := [(b, b)] |}.

Inductive re :=
| REps
| ROne (c : cls)
| RDot
| RStar (greedy : bool) (c : cls)
| RSeq (a b : re)
| ROpt (r : re)
| RCap (i : nat) (r : re)
| RNever.

(* utf8.DecodeRuneInString: the width of the first rune (1 if it is not valid UTF-8),
   for '.', which consumes a rune *)
Definition between (lo hi : N) (b : byte) : bool := ((lo <=? Byte.to_N b) && (Byte.to_N b <=? hi))%N.
Definition rune_width (s : bytes) : nat :=
  match s with
  | a :: b :: r =>
    if between 194 223 a && between 128 191 b then 2
    else
      match r with
      | c :: r' =>
        if ((between 224 224 a && between 160 191 b) || (between 225 236 a && between 128 191 b) || (between 237 237 a && between 128 159 b)
            || (between 238 239 a && between 128 191 b)) && between 128 191 c then 3
        else
          match r' with
          | d :: _ =>
            if ((between 240 240 a && between 144 191 b) || (between 241 243 a && between 128 191 b) || (between 244 244 a && between 128 143 b))
               && between 128 191 c && between 128 191 d then 4 else 1
          | [] => 1
          end
      | [] => 1
      end
  | _ => 1
  end.

(* captures: the last assignment to a number wins; "" when it took no part *)
Definition caps : Type := list (nat * bytes).
Fixpoint cap (c : caps) (i : nat) : bytes :=
  match c with [] => [] | (j, w) :: r => if j =? i then w else cap r i end.

(* [k] is what must match after the expression.  [skip] bytes of a rune are left to skip *)
Section Runes.
Context {A : Type} (c : cls) (k : bytes -> option A).
Fixpoint runes_greedy (skip : nat) (s : bytes) : option A :=
  match s with
  | [] => k []
  | b :: r =>
    match skip with
    | S n => runes_greedy n r
    | O => if in_class c b then match runes_greedy (pred (rune_width s)) r with Some x => Some x | None => k s end else k s
    end
  end.
Fixpoint runes_lazy (skip : nat) (s : bytes) : option A :=
  match s with
  | [] => k []
  | b :: r =>
    match skip with
    | S n => runes_lazy n r
    | O => match k s with
           | Some x => Some x
           | None => if in_class c b then runes_lazy (pred (rune_width s)) r else None
           end
    end
  end.
End Runes.
Fixpoint run {A} (r : re) (s : bytes) (cs : caps) (k : bytes -> caps -> option A) : option A :=
  match r with
  | REps => k s cs
  | ROne c => match s with b :: _ => if in_class c b then k (skipn (rune_width s) s) cs else None | [] => None end
  | RDot => match s with b :: _ => if Byte.eqb b x0a then None else k (skipn (rune_width s) s) cs | [] => None end
  | RStar true c => runes_greedy c (fun t => k t cs) 0 s
  | RStar false c => runes_lazy c (fun t => k t cs) 0 s
  | RSeq a b => run a s cs (fun t cs' => run b t cs' k)
  | ROpt a => match run a s cs k with Some x => Some x | None => k s cs end
  | RCap i a => run a s cs (fun t cs' => k t ((i, firstn (length s - length t) s) :: cs'))
  | RNever => None
  end.

(* a match: the whole text matched (number 0) and the captures *)
Record rmatch := { m_text : bytes; m_caps : caps }.
Definition m_cap (m : rmatch) (i : nat) : bytes := cap (m_caps m) i.
(* at the start of the text *)
Definition submatch_at (r : re) (s : bytes) : option rmatch :=
  run r s [] (fun t cs => Some {| m_text := firstn (length s - length t) s; m_caps := cs |}).
(* Regexp.FindStringSubmatch: the search moves on by one rune *)
Fixpoint find_runes (r : re) (skip : nat) (s : bytes) : option rmatch :=
  match skip, s with
  | S n, _ :: t => find_runes r n t
  | S _, [] => None
  | O, _ =>
    match submatch_at r s with
    | Some m => Some m
    | None => match s with [] => None | _ :: t => find_runes r (pred (rune_width s)) t end
    end
  end.
Definition find_submatch (r : re) (s : bytes) : option rmatch := find_runes r 0 s.
(* Regexp.FindAllStringSubmatch(s, -1): successive leftmost matches that do not overlap; an
   empty match right after a match is not reported.  [skip] bytes of a match or of a rune are
   left to skip, [after]: a match that is not empty ends here. *)
Fixpoint find_all_runes (r : re) (skip : nat) (after : bool) (s : bytes) : list rmatch :=
  match skip, s with
  | S n, _ :: t => find_all_runes r n after t
  | S _, [] => []
  | O, _ =>
    match submatch_at r s with
    | None => match s with [] => [] | _ :: t => find_all_runes r (pred (rune_width s)) false t end
    | Some m =>
      match m_text m with
      | [] => (if after then [] else [m]) ++ match s with [] => [] | _ :: t => find_all_runes r (pred (rune_width s)) false t end
      | _ :: w => m :: match s with [] => [] | _ :: t => find_all_runes r (length w) true t end
      end
    end
  end.
Definition find_all_submatch (r : re) (s : bytes) : list rmatch := find_all_runes r 0 false s.

(* ---- the patterns as text ---- *)
(* inside [..]: characters, ranges, escaped characters *)
Fixpoint parse_class (s : bytes) (acc : list (byte * byte)) : option (list (byte * byte) * bytes) :=
  match s with
  | [] => None
  | "]"%byte :: r => Some (rev acc, r)
  | "\"%byte :: b :: r => parse_class r ((b, b) :: acc)
  | a :: (("-"%byte :: b :: r') as r) =>
    match b with "]"%byte => parse_class r ((a, a) :: acc) | _ => parse_class r' ((a, b) :: acc) end
  | a :: r => parse_class r ((a, a) :: acc)
  end.
(* the quantifier after one character *)
Definition quantify (c : cls) (s : bytes) : re * bytes :=
  match s with
  | "*"%byte :: "?"%byte :: r => (RStar false c, r)
  | "*"%byte :: r => (RStar true c, r)
  | "+"%byte :: r => (RSeq (ROne c) (RStar true c), r)
  | "?"%byte :: r => (ROpt (ROne c), r)
  | "{"%byte :: "1"%byte :: "}"%byte :: r => (ROne c, r)
  | _ => (ROne c, s)
  end.
(* a sequence up to a closing parenthesis or the end; [n] is the next capture number *)
Fixpoint parse_seq (fuel : nat) (n : nat) (s : bytes) : option (re * nat * bytes) :=
  match fuel with
  | O => None
  | S f =>
    let continue (r : re) (n : nat) (t : bytes) :=
      match parse_seq f n t with Some (r', n', t') => Some (RSeq r r', n', t') | None => None end in
    match s with
    | [] => Some (REps, n, [])
    | ")"%byte :: _ => Some (REps, n, s)
    | "("%byte :: r =>
      match parse_seq f (S n) r with
      | Some (x, n', ")"%byte :: "?"%byte :: t) => continue (ROpt (RCap n x)) n' t
      | Some (x, n', ")"%byte :: t) => continue (RCap n x) n' t
      | _ => None
      end
    | "["%byte :: "^"%byte :: r =>
      match parse_class r [] with
      | Some (l, t) => let '(x, t') := quantify {| cl_neg := true; cl_ranges := l |} t in continue x n t'
      | None => None
      end
    | "["%byte :: r =>
      match parse_class r [] with
      | Some (l, t) => let '(x, t') := quantify {| cl_neg := false; cl_ranges := l |} t in continue x n t'
      | None => None
      end
    | "\"%byte :: b :: r => let '(x, t) := quantify (lit b) r in continue x n t
    | "."%byte :: r => continue RDot n r
    | b :: r => let '(x, t) := quantify (lit b) r in continue x n t
    end
  end.
(* regexp.MustCompile *)
Definition compile (s : bytes) : re :=
  match parse_seq (S (length s)) 1 s with Some (r, _, []) => r | _ => RNever end.
