(* ListSpec.v - vocabulary of C105: list types of the shipped language nested to any depth, their
   texts and the trees they stand for.  Nothing here mentions the lexer or the grammar. *)
From Coq Require Import Strings.String Strings.Byte.
From Verif Require Import Go DomainModel PathModel AstModel PickSpec ProgSpec.
Open Scope list_scope.

(* a type: one of the five words, or a list of a type with spaces wherever there may be some *)
Inductive ltype := LPlain (t : stype) | LList (g1 g2 : bytes) (t : ltype) (g3 : bytes).
Fixpoint ltype_text (t : ltype) : bytes :=
  match t with
  | LPlain t => type_text t
  | LList g1 g2 t g3 => bs "list" ++ g1 ++ bs "<" ++ g2 ++ ltype_text t ++ g3 ++ bs ">"
  end.
Definition blank (g : bytes) : Prop := Forall (fun b => In b spaces) g.
Fixpoint good_ltype (t : ltype) : Prop :=
  match t with LPlain _ => True | LList g1 g2 t g3 => blank g1 /\ blank g2 /\ good_ltype t /\ blank g3 end.
Fixpoint ltype_depth (t : ltype) : nat := match t with LPlain _ => 0 | LList _ _ t _ => S (ltype_depth t) end.
(* the word inside all lists *)
Fixpoint core (t : ltype) : stype := match t with LPlain t => t | LList _ _ t _ => core t end.

(* the spaces are in the tree when there are some *)
Definition gap_tree (g : bytes) : list tree := match g with [] => [] | _ => [Text (bs "WHITESPACES") g] end.
Fixpoint ltype_tree (t : ltype) : tree :=
  match t with
  | LPlain SBool => Branch (bs "declarativeType") 0 [Branch (bs "primitiveType") 0 [Text (bs "BOOL") (bs "bool")]]
  | LPlain SString => Branch (bs "declarativeType") 0 [Branch (bs "primitiveType") 1 [Text (bs "STRING") (bs "string")]]
  | LPlain SFloat => Branch (bs "declarativeType") 1 [Branch (bs "computableType") 0 [Text (bs "FLOAT") (bs "float")]]
  | LPlain SUint => Branch (bs "declarativeType") 1 [Branch (bs "computableType") 1 [Text (bs "UINT") (bs "uint")]]
  | LPlain SInt => Branch (bs "declarativeType") 1 [Branch (bs "computableType") 2 [Text (bs "INT") (bs "int")]]
  | LList g1 g2 t g3 => Branch (bs "declarativeType") 2 [Branch (bs "listType") 0
      ([Text (bs "LIST") (bs "list")] ++ gap_tree g1 ++ [Text (bs "LESS") (bs "<")] ++ gap_tree g2 ++ [ltype_tree t] ++ gap_tree g3 ++ [Text (bs "MORE") (bs ">")])]
  end.
Definition name_shape (w : bytes) : tree := Branch (bs "variableName") 0 [Text (bs "FIRST_LETTER") (firstn 1 w); Text (bs "MIN_MAJ_LETTERS") (skipn 1 w)].
(* a declaration: a type, perhaps spaces, a name *)
Definition ldecl_text (t : ltype) (g w : bytes) : bytes := ltype_text t ++ g ++ w.
Definition ldecl_tree (t : ltype) (g w : bytes) : tree := Branch (bs "variableDeclaration") 0 ([ltype_tree t] ++ gap_tree g ++ [name_shape w]).
