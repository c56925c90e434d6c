(* AdeqProofs.v - the shipped tokens, computed. *)
From Coq Require Import Strings.String Strings.Byte.
From Verif Require Import Go GoLemmas DomainModel CardModel PatModel RuleModel PathModel PathSpec LexModel AstModel RootModel RootSpec TextModel GramModel OrdProofs2 EvtSpec AdeqSpec.
Open Scope string_scope.
Open Scope list_scope.

Inductive shape := R (name : string) (c : cardinality) | P (name : string) (c : cardinality) (specs : list (string * specific)).
Definition specific_eqb (a b : specific) : bool :=
  match a, b with
  | SAmount n, SAmount m => (n =? m)%N
  | SRange a None, SRange b None => (a =? b)%N
  | SRange a (Some x), SRange b (Some y) => ((a =? b) && (x =? y))%N
  | _, _ => false
  end.
Definition card_eqb (a b : cardinality) : bool :=
  match a, b with
  | COptional, COptional | CMandatory, CMandatory | CNonZero, CNonZero | CZero, CZero => true
  | CSpecific x, CSpecific y => specific_eqb x y
  | _, _ => false
  end.
Section All2.
Context {A B : Type} (f : A -> B -> bool).
Fixpoint all2 (l : list A) (m : list B) : bool := match l, m with [], [] => true | a :: l, b :: m => f a b && all2 l m | _, _ => false end.
Lemma all2_ok l m : all2 l m = true -> Forall2 (fun a b => f a b = true) l m.
Proof. revert m. induction l as [|a l IH]; intros [|b m] H; cbn in H; try discriminate; [constructor|]. apply andb_prop in H. constructor; [apply H|apply IH, H]. Qed.
End All2.
Definition el_is (s : shape) (e : telem) : bool :=
  card_eqb (match s with R _ c => c | P _ c _ => c end) (eff_card e) &&
  match s, te_content e with
  | R n _, TRule r => bytes_eqb (bs n) (rl_name r)
  | P n _ sp, TRef r => bytes_eqb (bs n) (tr_name r) && all2 (fun x y => bytes_eqb (bs (fst x)) (ts_name y) && specific_eqb (snd x) (ts_card y)) sp (match tr_specs r with Some l => l | None => [] end)
  | _, _ => false
  end.
Definition token_is (x : string * list (list shape)) (t : token) : bool :=
  bytes_eqb (bs (fst x)) (t_name t) && all2 (fun l m => all2 el_is l (elements m)) (snd x) (t_must t) && match t_not t with None => true | Some _ => false end.
Definition shapes : list (string * list (list shape)) :=
  [("program", [[P "headerVariables" COptional []; P "instructions" CMandatory []]]);
   ("headerVariables", [[P "headerVariable" CNonZero []]]);
   ("headerVariable", [[P "inputOutput" CMandatory []; P "variableDeclaration" CMandatory []; R "COLON" CMandatory; R "KEYNAME_PATTERN" CMandatory; R "QUESTION_MARK" COptional]]);
   ("inputOutput", [[R "RIGHT_ARROW" CMandatory]; [R "LEFT_ARROW" CMandatory]]);
   ("instructions", [[P "instruction" CNonZero []]]);
   ("instruction", [[P "assignment" CMandatory []]; [P "variableDeclaration" CMandatory []]; [P "ifDeclaration" CMandatory []]; [P "forDeclaration" CMandatory []]; [P "voidFuncCalls" CMandatory []]; [P "direction" CMandatory []]; [P "intIncrement" CMandatory []]]);
   ("direction", [[R "BREAK" CMandatory]; [R "CONTINUE" CMandatory]]);
   ("voidFuncCalls", [[P "logFuncCall" CMandatory []]]);
   ("logFuncCall", [[R "LOG_FUNC" CMandatory; R "OPEN_PARENTHESIS" CMandatory; P "assignable" CMandatory []; R "CLOSE_PARENTHESIS" CMandatory]]);
   ("listAppend", [[R "APPEND" CMandatory; P "listValue" CMandatory []; R "COMMA" CMandatory; P "singleAssignable" CMandatory []]]);
   ("slice", [[P "listValue" CMandatory []; R "OPEN_SQUARE_BRACKET" CMandatory; P "sliceDelimiter" CMandatory []; R "CLOSE_SQUARE_BRACKET" CMandatory]]);
   ("sliceDelimiter", [[P "indexValue" CMandatory []; R "COLON" CMandatory; P "indexValue" COptional []]]);
   ("indexValue", [[R "INT_PATTERN" CMandatory]; [P "variableName" CMandatory []]]);
   ("forDeclaration", [[R "FOR" CMandatory; P "forStatement" CMandatory []; R "OPEN_BRACKET" CMandatory; P "instructions" COptional []; R "CLOSE_BRACKET" CMandatory]]);
   ("forStatement", [[P "assigneeNames" CMandatory [("commaAssigneeName", SAmount 1)]; R "COLON" CMandatory; R "EQUAL" CMandatory; P "totalListValue" CMandatory []]; [R "OPEN_PARENTHESIS" CMandatory; P "forStatement" CMandatory []; R "CLOSE_PARENTHESIS" CMandatory]]);
   ("ifDeclaration", [[P "ifOperation" CMandatory []; R "OPEN_BRACKET" CMandatory; P "instructions" COptional []; R "CLOSE_BRACKET" CMandatory]]);
   ("ifOperation", [[R "IF" CMandatory; P "operation" CMandatory []]]);
   ("operation", [[P "operationWithSuffix" CMandatory []]; [P "operationFuncCalls" CMandatory []]; [R "OPEN_PARENTHESIS" CMandatory; P "operation" CMandatory []; R "CLOSE_PARENTHESIS" CMandatory]]);
   ("operationWithSuffix", [[P "operationElement" CMandatory []; P "operationSuffix" COptional []]]);
   ("operationSuffix", [[P "operator" CMandatory []; P "operationElement" CMandatory []]]);
   ("operationElement", [[P "boolValue" CMandatory []]; [P "variableName" CMandatory []]; [P "computableValue" CMandatory []]; [P "operation" CMandatory []]]);
   ("operationFuncCalls", [[P "isNullFuncCall" CMandatory []]]);
   ("isNullFuncCall", [[R "IS_NULL_FUNC" CMandatory; R "OPEN_PARENTHESIS" CMandatory; P "operation" CMandatory []; R "CLOSE_PARENTHESIS" CMandatory]]);
   ("operator", [[P "operatorArithmetic" CMandatory []]; [P "operatorRelational" CMandatory []]; [P "operatorLogical" CMandatory []]]);
   ("operatorArithmetic", [[R "PLUS" CMandatory]; [R "MINUS" CMandatory]; [R "STAR" CMandatory]; [R "DIV" CMandatory]]);
   ("operatorRelational", [[R "LESS" CMandatory; R "EQUAL" COptional]; [R "MORE" CMandatory; R "EQUAL" COptional]; [R "EXCLAMATION" CMandatory; R "EQUAL" CMandatory]; [R "EQUAL" (CSpecific (SAmount 2))]]);
   ("operatorLogical", [[R "AND" (CSpecific (SAmount 2))]; [R "PIPE" (CSpecific (SAmount 2))]]);
   ("assignment", [[P "assignee" CMandatory []; P "assignables" CMandatory []]]);
   ("assignee", [[P "assigneeNameFirsts" CMandatory []; R "COLON" CMandatory; R "EQUAL" CMandatory]; [P "assigneeNames" CMandatory []; R "EQUAL" CMandatory]]);
   ("assigneeNameFirsts", [[P "assigneeNameFirst" CMandatory []; P "commaAssigneeFirst" CZero []]]);
   ("commaAssigneeFirst", [[R "COMMA" CMandatory; P "assigneeNameFirst" CMandatory []]]);
   ("assigneeNameFirst", [[P "variableDeclaration" CMandatory []]; [P "assigneeName" CMandatory []]]);
   ("assigneeNames", [[P "assigneeName" CMandatory []; P "commaAssigneeName" CZero []]]);
   ("commaAssigneeName", [[R "COMMA" CMandatory; P "assigneeName" CMandatory []]]);
   ("assigneeName", [[P "variableName" CMandatory []]; [R "UNDERSCORE" CMandatory]]);
   ("assignables", [[P "assignable" CMandatory []; P "commaAssignable" CZero []]]);
   ("commaAssignable", [[R "COMMA" CMandatory; P "assignable" CMandatory []]]);
   ("assignable", [[P "totalListAssignable" CMandatory []]; [P "singleAssignable" CMandatory []]]);
   ("singleAssignable", [[P "declarableValue" CMandatory []]; [P "operation" CMandatory []]; [P "listAssignableToAssignables" CMandatory []]; [P "listFetchElement" CMandatory []]]);
   ("listFetchElement", [[P "totalListValue" CMandatory []; P "listElementFetcher" CMandatory []]]);
   ("listElementFetcher", [[R "OPEN_SQUARE_BRACKET" CMandatory; P "indexValue" CMandatory []; R "CLOSE_SQUARE_BRACKET" CMandatory]]);
   ("listAssignableToAssignables", [[P "totalListAssignable" CMandatory []; R "DOT" (CSpecific (SAmount 3))]; [R "OPEN_PARENTHESIS" CMandatory; P "totalListAssignable" CMandatory []; R "CLOSE_PARENTHESIS" CMandatory; R "DOT" (CSpecific (SAmount 3))]]);
   ("totalListValue", [[P "variableName" CMandatory []]; [P "totalListAssignable" CMandatory []]]);
   ("totalListAssignable", [[P "listValue" CMandatory []]; [P "slice" CMandatory []]; [P "listAppend" CMandatory []]]);
   ("listValue", [[P "listAssignable" CMandatory []]; [P "variableName" CMandatory []]]);
   ("listAssignable", [[R "OPEN_SQUARE_BRACKET" CMandatory; P "assignables" COptional []; R "CLOSE_SQUARE_BRACKET" CMandatory]]);
   ("intIncrement", [[P "variableName" CMandatory []; P "intIncrementValue" CMandatory []]]);
   ("intIncrementValue", [[R "PLUS" CMandatory; R "PLUS" CMandatory]; [R "MINUS" CMandatory; R "MINUS" CMandatory]]);
   ("declarableValue", [[P "computableValue" CMandatory []]; [P "primitiveValue" CMandatory []]]);
   ("computableValue", [[P "floatValue" CMandatory []]; [P "intValue" CMandatory []]]);
   ("primitiveValue", [[P "boolValue" CMandatory []]; [P "stringValue" CMandatory []]]);
   ("stringValue", [[R "QUOTATION" CMandatory; R "EVERYTHING_EXCEPT_QUOTATION" CMandatory; R "QUOTATION" CMandatory]]);
   ("boolValue", [[R "TRUE" CMandatory]; [R "FALSE" CMandatory]]);
   ("intValue", [[R "MINUS" COptional; R "INT_PATTERN" CMandatory]]);
   ("floatValue", [[R "MINUS" COptional; R "INT_PATTERN" CMandatory; R "DOT" CMandatory; R "INT_PATTERN" CMandatory]]);
   ("variableDeclarations", [[P "variableDeclaration" CMandatory []; P "commaVariableDeclaration" CZero []]]);
   ("commaVariableDeclaration", [[R "COMMA" CMandatory; P "variableDeclaration" CMandatory []]]);
   ("variableDeclaration", [[P "declarativeType" CMandatory []; P "variableName" CMandatory []]]);
   ("declarativeType", [[P "primitiveType" CMandatory []]; [P "computableType" CMandatory []]; [P "listType" CMandatory []]]);
   ("listType", [[R "LIST" CMandatory; R "LESS" CMandatory; P "declarativeType" CMandatory []; R "MORE" CMandatory]]);
   ("primitiveType", [[R "BOOL" CMandatory]; [R "STRING" CMandatory]]);
   ("computableType", [[R "FLOAT" CMandatory]; [R "UINT" CMandatory]; [R "INT" CMandatory]]);
   ("variableName", [[R "FIRST_LETTER" CMandatory; R "MIN_MAJ_LETTERS" CMandatory]])].
Lemma shapes_check : match shipped_tokens base_tokens with Ok u => all2 token_is shapes (table_all (fst u)) | _ => false end = true.
Proof. vm_compute. reflexivity. Qed.
