(* AsgSpec.v - vocabulary of C107: an assignment of one value to one name at the end of a text,
   its texts, the trees they are read as and what they stand for.  Nothing here mentions the
   lexer, the grammar or the events. *)
From Coq Require Import Strings.String Strings.Byte.
From Verif Require Import Go DomainModel BaseModel BaseSpec PickSpec ProgSpec ListSpec LitSpec.
Open Scope list_scope.

(* what is assigned: a name that is declared, a name, or nothing (an underscore) *)
Inductive target := TTyped (t : stype) (g w : bytes) | TNamed (w : bytes) | TSkipped.
Definition target_text (t : target) : bytes := match t with TTyped t g w => type_text t ++ g ++ w | TNamed w => w | TSkipped => bs "_" end.
(* the words a name may not begin with: it would be read as a type and a shorter name *)
Definition type_openers : list bytes := [bs "bool"; bs "string"; bs "float"; bs "uint"; bs "int"; bs "list"].
Definition good_target (t : target) : Prop :=
  match t with
  | TTyped _ g w => blank g /\ is_name w /\ ~ In w reserved
  | TNamed w => is_name w /\ forall o, In o type_openers -> ~ exists v, w = o ++ v
  | TSkipped => True
  end.
(* the value: a literal that is not true or false, or a word *)
Inductive given := GLiteral (l : literal) | GWord (w : bytes).
Definition given_text (v : given) : bytes := match v with GLiteral l => literal_text l | GWord w => w end.
Definition good_given (v : given) : Prop :=
  match v with GLiteral l => good_literal l /\ (forall b, l <> LTruth b) | GWord w => is_name w end.
(* the target, spaces, perhaps a colon and spaces, an equal sign, spaces, the value *)
Record setting := Setting { st_target : target; st_before : bytes; st_colon : option bytes; st_after : bytes; st_given : given }.
Definition colon_text (c : option bytes) : bytes := match c with Some g => bs ":" ++ g | None => [] end.
Definition setting_text (a : setting) : bytes := target_text (st_target a) ++ st_before a ++ colon_text (st_colon a) ++ bs "=" ++ st_after a ++ given_text (st_given a).
(* a declared name needs the colon *)
Definition good_setting (a : setting) : Prop :=
  good_target (st_target a) /\ blank (st_before a) /\ match st_colon a with Some g => blank g | None => forall t g w, st_target a <> TTyped t g w end /\ blank (st_after a) /\ good_given (st_given a).

(* ---- trees ---- *)
Definition word_shape (t : target) : tree := match t with TNamed w => under "assigneeName" 0 (name_shape w) | _ => Branch (bs "assigneeName") 1 [Text (bs "UNDERSCORE") (bs "_")] end.
Definition first_shape (t : target) : tree :=
  match t with
  | TTyped t g w => under "assigneeNameFirst" 0 (ldecl_tree (LPlain t) g w)
  | _ => under "assigneeNameFirst" 1 (word_shape t)
  end.
Definition assignee_shape (a : setting) : tree :=
  match st_colon a with
  | Some g => Branch (bs "assignee") 0 (Branch (bs "assigneeNameFirsts") 0 (first_shape (st_target a) :: gap_tree (st_before a)) :: Text (bs "COLON") (bs ":") :: gap_tree g ++ [Text (bs "EQUAL") (bs "=")])
  | None => Branch (bs "assignee") 1 (Branch (bs "assigneeNames") 0 (word_shape (st_target a) :: gap_tree (st_before a)) :: [Text (bs "EQUAL") (bs "=")])
  end.
Definition given_shape (v : given) : tree :=
  match v with
  | GLiteral l => under "assignable" 1 (under "singleAssignable" 0 (value_tree l))
  | GWord w => under "assignable" 0 (under "totalListAssignable" 0 (under "listValue" 1 (name_shape w)))
  end.
Definition setting_shape (a : setting) : tree :=
  Branch (bs "assignment") 0 (assignee_shape a :: gap_tree (st_after a) ++ [under "assignables" 0 (given_shape (st_given a))]).
(* alone in a program *)
Definition alone_shape (a : setting) : tree := under "program" 0 (under "instructions" 0 (under "instruction" 0 (setting_shape a))).

(* ---- values ---- *)
Definition word_value (t : target) : aname := match t with TNamed w => ANVariable w | _ => ANSkip end.
Definition target_value (a : setting) : assignee :=
  match st_colon a with
  | Some _ => AEFirst [match st_target a with TTyped t _ w => AFDeclaration (VarDecl (BType 0 (type_value t)) w) | t => AFName (word_value t) end]
  | None => AEName [word_value (st_target a)]
  end.
(* a word is the name of a list *)
Definition given_value (bitsize : N) (parse_float : bytes -> N -> option N) (v : given) : option assignable :=
  match v with
  | GLiteral l => option_map (fun x => ASSingle (SADeclarable x)) (literal_value bitsize parse_float l)
  | GWord w => Some (ASList (TLValue (LVName w)))
  end.
Definition setting_value (bitsize : N) (parse_float : bytes -> N -> option N) (a : setting) : option assignment :=
  option_map (fun v => Assignment (target_value a) [v]) (given_value bitsize parse_float (st_given a)).
