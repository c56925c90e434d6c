(* ProgSpec.v - vocabulary of C100: programs of the shipped language made of input and output
   variables, declarations, break, continue, increments and decrements; their texts and what
   they stand for.  Nothing here mentions the lexer, the grammar or the events. *)
From Coq Require Import Strings.String Strings.Byte.
From Verif Require Import Go DomainModel BaseModel BaseSpec.
Open Scope list_scope.

Definition lower : list byte := bs "abcdefghijklmnopqrstuvwxyz".
Definition upper : list byte := bs "ABCDEFGHIJKLMNOPQRSTUVWXYZ".
(* a space, a tab, an end of line *)
Definition spaces : list byte := [x20; x09; x0a].
Definition is_gap (g : bytes) : Prop := g <> [] /\ Forall (fun b => In b spaces) g.
(* a name: a small letter and at least one letter *)
Definition is_name (w : bytes) : Prop := exists a v, w = a :: v /\ In a lower /\ v <> [] /\ Forall (fun b => In b (lower ++ upper)) v.
(* the name of an input or output: small letters and underscores *)
Definition is_key (w : bytes) : Prop := w <> [] /\ Forall (fun b => In b (lower ++ [x5f])) w.

Inductive stype := SBool | SString | SFloat | SUint | SInt.
Definition type_text (t : stype) : bytes := match t with SBool => bs "bool" | SString => bs "string" | SFloat => bs "float" | SUint => bs "uint" | SInt => bs "int" end.
Definition type_value (t : stype) : N := match t with SBool => TypeBoolFlag | SString => TypeStringFlag | SFloat => TypeFloatFlag | SUint => TypeIntegerFlag + TypeUnsignedFlag | SInt => TypeIntegerFlag end%N.

Inductive stmt := SDeclare (t : stype) (gap name : bytes) | SBreak | SContinue | SUp (name : bytes) | SDown (name : bytes).
Definition stmt_text (s : stmt) : bytes :=
  match s with
  | SDeclare t g w => type_text t ++ g ++ w
  | SBreak => bs "break"
  | SContinue => bs "continue"
  | SUp w => w ++ bs "++"
  | SDown w => w ++ bs "--"
  end.
Definition stmt_value (s : stmt) : instruction :=
  match s with
  | SDeclare t _ w => IDeclaration (VarDecl (BType 0 (type_value t)) w)
  | SBreak => IDirection DBreak
  | SContinue => IDirection DContinue
  | SUp w => IIncrement (Increment w (int_value 1))
  | SDown w => IIncrement (Increment w (int_value (-1)))
  end.
(* names that are declared are none of the words of types and directions *)
Definition reserved : list bytes := [bs "bool"; bs "string"; bs "float"; bs "uint"; bs "int"; bs "break"; bs "continue"].
(* what an instruction can start with: a name that stands first may not *)
Definition openers : list bytes := [bs "bool"; bs "string"; bs "float"; bs "uint"; bs "int"; bs "list"; bs "if"; bs "for"; bs "log"; bs "break"; bs "continue"].
Definition good_stmt (s : stmt) : Prop :=
  match s with
  | SDeclare _ g w => is_gap g /\ is_name w /\ ~ In w reserved
  | SUp w | SDown w => is_name w /\ forall o, In o openers -> ~ exists v, w = o ++ v
  | _ => True
  end.

(* -> or <-, perhaps spaces, the declaration, a colon, the key; a question mark when it may be missing *)
Record hdr := Hdr { h_input : bool; h_gap : bytes; h_type : stype; h_space : bytes; h_name : bytes; h_key : bytes; h_optional : bool }.
Definition hdr_text (h : hdr) : bytes :=
  (if h_input h then bs "->" else bs "<-") ++ h_gap h ++ type_text (h_type h) ++ h_space h ++ h_name h ++ bs ":" ++ h_key h ++ (if h_optional h then bs "?" else []).
Definition hdr_value (h : hdr) : headervar := HeaderVar (negb (h_optional h)) (h_input h) (VarDecl (BType 0 (type_value (h_type h))) (h_name h)) (h_key h).
Definition good_hdr (h : hdr) : Prop :=
  Forall (fun b => In b spaces) (h_gap h) /\ is_gap (h_space h) /\ is_name (h_name h) /\ ~ In (h_name h) reserved /\ is_key (h_key h).

(* the texts in order, with a gap between every two of them *)
Inductive written : list bytes -> bytes -> Prop :=
| wr_one t : written [t] t
| wr_more t g l s : is_gap g -> written l s -> written (t :: l) (t ++ g ++ s).
(* a program: header variables, and at least one instruction; the first one does not occur again *)
Definition program_text (hs : list hdr) (l : list stmt) (s : bytes) : Prop :=
  written (map hdr_text hs ++ map stmt_text l) s /\ l <> [] /\ Forall good_hdr hs /\ Forall good_stmt l /\
  (forall x l', l = x :: l' -> ~ In (stmt_text x) (map stmt_text l')).
Definition program_value (hs : list hdr) (l : list stmt) : program := Program (map stmt_value l) (match hs with [] => None | _ => Some (map hdr_value hs) end).
