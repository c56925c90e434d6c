(* LitSpec.v - vocabulary of C106: literals of the shipped language, their texts, the trees they
   are read as and the values they stand for.  Nothing here mentions the lexer, the grammar or
   the events. *)
From Coq Require Import Strings.String Strings.Byte.
From Verif Require Import Go DomainModel BaseModel BaseSpec PickSpec ProgSpec ListSpec.
Open Scope list_scope.

Definition digits : list byte := bs "0123456789".
Definition is_digits (w : bytes) : Prop := w <> [] /\ Forall (fun b => In b digits) w.
(* the number that digits denote *)
Definition number (w : bytes) : N := fold_left (fun n b => (10 * n + (Byte.to_N b - 48))%N) w 0%N.

(* spaces may stand after a minus and around a dot *)
Inductive literal :=
| LNatural (w : bytes)
| LNegative (g w : bytes)
| LFloat (minus : option bytes) (u g1 g2 v : bytes)
| LTruth (b : bool)
| LQuoted (w : bytes).
Definition literal_text (l : literal) : bytes :=
  match l with
  | LNatural w => w
  | LNegative g w => bs "-" ++ g ++ w
  | LFloat m u g1 g2 v => match m with Some g => bs "-" ++ g | None => [] end ++ u ++ g1 ++ bs "." ++ g2 ++ v
  | LTruth b => if b then bs "true" else bs "false"
  | LQuoted w => [x22] ++ w ++ [x22]
  end.
Definition good_literal (l : literal) : Prop :=
  match l with
  | LNatural w => is_digits w
  | LNegative g w => blank g /\ is_digits w
  | LFloat m u g1 g2 v => match m with Some g => blank g | None => True end /\ is_digits u /\ blank g1 /\ blank g2 /\ is_digits v
  | LTruth _ => True
  | LQuoted w => w <> [] /\ ~ In x22 w
  end.
(* what may follow: after a number no digit; after an integer, spaces or not, no dot and no comment *)
Definition no_digit (rest : bytes) : Prop := forall b r, rest = b :: r -> ~ In b digits.
Definition may_follow (l : literal) (rest : bytes) : Prop :=
  match l with
  | LNatural _ | LNegative _ _ => no_digit rest /\ (rest = [] \/ exists g b r, rest = g ++ b :: r /\ blank g /\ ~ In b spaces /\ b <> x2e /\ b <> x2f)
  | LFloat _ _ _ _ _ => no_digit rest
  | _ => True
  end.

(* ---- trees ---- *)
Definition under (n : string) (i : nat) (t : tree) : tree := Branch (bs n) i [t].
Definition sign_tree (m : option bytes) : list tree := match m with Some g => Text (bs "MINUS") (bs "-") :: gap_tree g | None => [] end.
Definition number_tree (w : bytes) : tree := Text (bs "INT_PATTERN") w.
Definition literal_tree (l : literal) : tree :=
  match l with
  | LNatural w => Branch (bs "intValue") 0 [number_tree w]
  | LNegative g w => Branch (bs "intValue") 0 (sign_tree (Some g) ++ [number_tree w])
  | LFloat m u g1 g2 v => Branch (bs "floatValue") 0 (sign_tree m ++ [number_tree u] ++ gap_tree g1 ++ [Text (bs "DOT") (bs ".")] ++ gap_tree g2 ++ [number_tree v])
  | LTruth true => Branch (bs "boolValue") 0 [Text (bs "TRUE") (bs "true")]
  | LTruth false => Branch (bs "boolValue") 1 [Text (bs "FALSE") (bs "false")]
  | LQuoted w => Branch (bs "stringValue") 0 [Text (bs "QUOTATION") [x22]; Text (bs "EVERYTHING_EXCEPT_QUOTATION") w; Text (bs "QUOTATION") [x22]]
  end.
(* computableValue, primitiveValue, declarableValue *)
Definition group_tree (l : literal) : tree :=
  match l with
  | LFloat _ _ _ _ _ => under "computableValue" 0 (literal_tree l)
  | LNatural _ | LNegative _ _ => under "computableValue" 1 (literal_tree l)
  | LTruth _ => under "primitiveValue" 0 (literal_tree l)
  | LQuoted _ => under "primitiveValue" 1 (literal_tree l)
  end.
Definition value_tree (l : literal) : tree :=
  match l with
  | LFloat _ _ _ _ _ | LNatural _ | LNegative _ _ => under "declarableValue" 0 (group_tree l)
  | LTruth _ | LQuoted _ => under "declarableValue" 1 (group_tree l)
  end.

(* the names of these tokens *)
Definition literal_name (l : literal) : string := match l with LNatural _ | LNegative _ _ => "intValue"%string | LFloat _ _ _ _ _ => "floatValue"%string | LTruth _ => "boolValue"%string | LQuoted _ => "stringValue"%string end.
Definition group_name (l : literal) : string := match l with LNatural _ | LNegative _ _ | LFloat _ _ _ _ _ => "computableValue"%string | _ => "primitiveValue"%string end.
Definition readings (l : literal) : list (string * tree) := [("declarableValue"%string, value_tree l); (group_name l, group_tree l); (literal_name l, literal_tree l)].

(* ---- values ---- *)
(* numbers have that many bits, 0 standing for 64; more than 64 are not supported *)
Definition width (bitsize : N) : N := if (bitsize =? 0)%N then 64 else bitsize.
Definition literal_value (bitsize : N) (parse_float : bytes -> N -> option N) (l : literal) : option bvalue :=
  match l with
  | LNatural w => if ((bitsize <=? 64) && (number w <? 2 ^ width bitsize))%N%bool then Some (uint_value (number w)) else None
  | LNegative _ w => if ((bitsize <=? 64) && (number w <=? 2 ^ (width bitsize - 1)))%N%bool then Some (int_value (- Z.of_N (number w))) else None
  | LFloat m u _ _ v => option_map float_value (parse_float (match m with Some _ => bs "-" | None => [] end ++ u ++ bs "." ++ v) bitsize)
  | LTruth b => Some (bool_value b)
  | LQuoted w => Some (string_value w)
  end.

