(* EvtSpec.v - the base language as its grammar (resources/base/tokens.alex) defines it, and
   what a text of it means.  Of the model only the roots and the objects are used: nothing
   here mentions the events, the builders or the manager. *)
From Coq Require Import Strings.String Strings.Byte Sorting.Permutation.
From Verif Require Import Go DomainModel RuleModel AstModel RootModel RootSpec BaseModel BaseSpec EvtModel.
Open Scope string_scope.
Open Scope list_scope.

(* ---- roots ---- *)
(* the root q occurs inside of r, at any depth *)
Definition inside (q r : root) : Prop := exists c, container_in c (ro_nodes r) /\ co_root c = Some q.
(* a root and its parts: for each name, in any order, the texts and tokens of that name *)
Inductive part := T (w : bytes) | K (r : root).
Definition part_container (n : string) (p : part) : container :=
  match p with T w => Container w (bs n) None | K r => Container (ro_content r) (bs n) (Some r) end.
Definition part_node (x : string * list part) : node := Node (bs (fst x)) (map (part_container (fst x)) (snd x)).
(* spaces and comments (channels.alex) may stand between them *)
Definition channel_names : list string := ["WHITESPACES"; "MULTI_LINE_COMMENT"; "SINGLE_LINE_COMMENT"].
Definition blank (x : string * list part) : Prop := In (fst x) channel_names /\ exists ws, snd x = map T ws.
Definition parts (r : root) (l : list (string * list part)) : Prop :=
  exists ch, Forall blank ch /\ Permutation (ro_nodes r) (map part_node (l ++ ch)).

(* ---- numbers ---- *)
Definition digit (b : byte) (d : N) : Prop := (d < 10)%N /\ Byte.to_N b = (48 + d)%N.
(* the text is the decimal numeral of n, with any leading zeros *)
Inductive numeral : bytes -> N -> Prop :=
| num_one b d : digit b d -> numeral [b] d
| num_more w n b d : numeral w n -> digit b d -> numeral (w ++ [b]) (10 * n + d)%N.

Section Meaning.
(* NewEvents(bitsize): numbers have that many bits, 0 standing for 64; strconv.ParseFloat *)
Variable bitsize : N.
Variable parse_float : bytes -> N -> option N.
Definition bits : N := if (bitsize =? 0)%N then 64 else bitsize.
Definition fits (w : bytes) (n : N) : Prop := numeral w n /\ (bitsize <= 64)%N /\ (n < 2 ^ bits)%N.
(* the largest negative number has one bit less *)
Definition fits_negative (w : bytes) (n : N) : Prop := numeral w n /\ (bitsize <= 64)%N /\ (n < 2 ^ bits)%N /\ (n <= 2 ^ (bits - 1))%N.

(* a part that may be missing *)
Definition some (n : string) (l : list root) : list (string * list part) := match l with [] => [] | _ => [(n, map K l)] end.
(* variableName: FIRST_LETTER MIN_MAJ_LETTERS *)
Inductive spells : root -> bytes -> Prop :=
| sp_name r a b w : parts r [("FIRST_LETTER", map T a); ("MIN_MAJ_LETTERS", map T b)] -> w = concat a ++ concat b -> w <> [] -> spells r w.
(* n: the name of the token; r: its root; x: what it means *)
Inductive means : string -> root -> obj -> Prop :=
(* program: headerVariables? instructions *)
| me_program r q i : parts r [("instructions", [K q])] -> means "instructions" q (OInstructions i) -> means "program" r (OProgram (Program i None))
| me_program_header r q i p v : parts r [("headerVariables", [K p]); ("instructions", [K q])] -> means "headerVariables" p (OHeaderVariables v) -> means "instructions" q (OInstructions i) ->
    means "program" r (OProgram (Program i (Some v)))
(* headerVariables: headerVariable+ *)
| me_headers r l v : parts r [("headerVariable", map K l)] -> l <> [] -> each "headerVariable" l (map OHeaderVariable v) -> means "headerVariables" r (OHeaderVariables v)
(* headerVariable: inputOutput variableDeclaration COLON KEYNAME_PATTERN QUESTION_MARK? *)
| me_header r p i q d a k : parts r [("inputOutput", [K p]); ("variableDeclaration", [K q]); ("COLON", [T a]); ("KEYNAME_PATTERN", [T k])] -> k <> [] ->
    means "inputOutput" p (OBool i) -> means "variableDeclaration" q (OVarDecl d) -> means "headerVariable" r (OHeaderVariable (HeaderVar true i d k))
| me_header_optional r p i q d a k b : parts r [("inputOutput", [K p]); ("variableDeclaration", [K q]); ("COLON", [T a]); ("KEYNAME_PATTERN", [T k]); ("QUESTION_MARK", [T b])] -> k <> [] ->
    means "inputOutput" p (OBool i) -> means "variableDeclaration" q (OVarDecl d) -> means "headerVariable" r (OHeaderVariable (HeaderVar false i d k))
(* inputOutput: RIGHT_ARROW | LEFT_ARROW *)
| me_input r a : parts r [("RIGHT_ARROW", [T a])] -> means "inputOutput" r (OBool true)
| me_output r a : parts r [("LEFT_ARROW", [T a])] -> means "inputOutput" r (OBool false)
(* instructions: instruction+ *)
| me_instructions r l v : parts r [("instruction", map K l)] -> l <> [] -> each "instruction" l (map OInstruction v) -> means "instructions" r (OInstructions v)
(* instruction: assignment | variableDeclaration | ifDeclaration | forDeclaration | voidFuncCalls | direction | intIncrement *)
| me_i_assignment r q x : parts r [("assignment", [K q])] -> means "assignment" q (OAssignment x) -> means "instruction" r (OInstruction (IAssignment x))
| me_i_declaration r q x : parts r [("variableDeclaration", [K q])] -> means "variableDeclaration" q (OVarDecl x) -> means "instruction" r (OInstruction (IDeclaration x))
| me_i_if r q x : parts r [("ifDeclaration", [K q])] -> means "ifDeclaration" q (OIfDeclaration x) -> means "instruction" r (OInstruction (IIf x))
| me_i_for r q x : parts r [("forDeclaration", [K q])] -> means "forDeclaration" q (OForDeclaration x) -> means "instruction" r (OInstruction (IFor x))
| me_i_call r q x : parts r [("voidFuncCalls", [K q])] -> means "voidFuncCalls" q (OVoidCall x) -> means "instruction" r (OInstruction (ICall x))
| me_i_direction r q x : parts r [("direction", [K q])] -> means "direction" q (ODirection x) -> means "instruction" r (OInstruction (IDirection x))
| me_i_increment r q x : parts r [("intIncrement", [K q])] -> means "intIncrement" q (OIncrement x) -> means "instruction" r (OInstruction (IIncrement x))
(* direction: BREAK | CONTINUE *)
| me_break r a : parts r [("BREAK", [T a])] -> means "direction" r (ODirection DBreak)
| me_continue r a : parts r [("CONTINUE", [T a])] -> means "direction" r (ODirection DContinue)
(* voidFuncCalls: logFuncCall *)
| me_void r q x : parts r [("logFuncCall", [K q])] -> means "logFuncCall" q (OAssignable x) -> means "voidFuncCalls" r (OVoidCall (VCLog x))
(* logFuncCall: LOG_FUNC ( assignable ) *)
| me_log r a b q x c : parts r [("LOG_FUNC", [T a]); ("OPEN_PARENTHESIS", [T b]); ("assignable", [K q]); ("CLOSE_PARENTHESIS", [T c])] -> means "assignable" q (OAssignable x) -> means "logFuncCall" r (OAssignable x)
(* listAppend: APPEND listValue COMMA singleAssignable *)
| me_append r a p l b q s : parts r [("APPEND", [T a]); ("listValue", [K p]); ("COMMA", [T b]); ("singleAssignable", [K q])] ->
    means "listValue" p (OListValue l) -> means "singleAssignable" q (OSingle s) -> means "listAppend" r (OAppend (Append l s))
(* slice: listValue [ sliceDelimiter ] *)
| me_slice r p l a q d b : parts r [("listValue", [K p]); ("OPEN_SQUARE_BRACKET", [T a]); ("sliceDelimiter", [K q]); ("CLOSE_SQUARE_BRACKET", [T b])] ->
    means "listValue" p (OListValue l) -> means "sliceDelimiter" q (ODelimiter d) -> means "slice" r (OSlice (Slice l d))
(* sliceDelimiter: indexValue COLON indexValue? *)
| me_delimiter r p i a : parts r [("indexValue", [K p]); ("COLON", [T a])] -> means "indexValue" p (OIndex i) -> means "sliceDelimiter" r (ODelimiter (Delimiter i None))
| me_delimiter2 r p i a q j : parts r [("indexValue", [K p; K q]); ("COLON", [T a])] -> means "indexValue" p (OIndex i) -> means "indexValue" q (OIndex j) -> means "sliceDelimiter" r (ODelimiter (Delimiter i (Some j)))
(* indexValue: INT_PATTERN | variableName *)
| me_index r w n : parts r [("INT_PATTERN", [T w])] -> fits w n -> means "indexValue" r (OIndex (IVValue (uint_value n)))
| me_index_name r q w : parts r [("variableName", [K q])] -> spells q w -> means "indexValue" r (OIndex (IVName w))
(* forDeclaration: FOR forStatement { instructions? } *)
| me_for r a p s b c : parts r [("FOR", [T a]); ("forStatement", [K p]); ("OPEN_BRACKET", [T b]); ("CLOSE_BRACKET", [T c])] -> means "forStatement" p (OForStatement s) -> means "forDeclaration" r (OForDeclaration (ForDecl s None))
| me_for_body r a p s b c q i : parts r [("FOR", [T a]); ("forStatement", [K p]); ("OPEN_BRACKET", [T b]); ("instructions", [K q]); ("CLOSE_BRACKET", [T c])] -> means "forStatement" p (OForStatement s) -> means "instructions" q (OInstructions i) ->
    means "forDeclaration" r (OForDeclaration (ForDecl s (Some i)))
(* forStatement: assigneeNames, of two names, COLON EQUAL totalListValue | ( forStatement ) *)
| me_for_statement r p i v a b q l : parts r [("assigneeNames", [K p]); ("COLON", [T a]); ("EQUAL", [T b]); ("totalListValue", [K q])] -> means "assigneeNames" p (ONames [i; v]) -> means "totalListValue" q (OTotalValue l) ->
    means "forStatement" r (OForStatement (ForStatement i v l))
| me_for_group r a q s b : parts r [("OPEN_PARENTHESIS", [T a]); ("forStatement", [K q]); ("CLOSE_PARENTHESIS", [T b])] -> means "forStatement" q (OForStatement s) -> means "forStatement" r (OForStatement s)
(* ifDeclaration: ifOperation { instructions? } *)
| me_if r p o b c : parts r [("ifOperation", [K p]); ("OPEN_BRACKET", [T b]); ("CLOSE_BRACKET", [T c])] -> means "ifOperation" p (OOperation o) -> means "ifDeclaration" r (OIfDeclaration (IfDecl o None))
| me_if_body r p o b c q i : parts r [("ifOperation", [K p]); ("OPEN_BRACKET", [T b]); ("instructions", [K q]); ("CLOSE_BRACKET", [T c])] -> means "ifOperation" p (OOperation o) -> means "instructions" q (OInstructions i) ->
    means "ifDeclaration" r (OIfDeclaration (IfDecl o (Some i)))
(* ifOperation: IF operation *)
| me_if_operation r a q o : parts r [("IF", [T a]); ("operation", [K q])] -> means "operation" q (OOperation o) -> means "ifOperation" r (OOperation o)
(* operation: operationWithSuffix | operationFuncCalls | ( operation ) *)
| me_operation r q o : parts r [("operationWithSuffix", [K q])] -> means "operationWithSuffix" q (OOperation o) -> means "operation" r (OOperation o)
| me_operation_call r q c : parts r [("operationFuncCalls", [K q])] -> means "operationFuncCalls" q (OCall c) -> means "operation" r (OOperation (Operation (OECall c) None))
| me_operation_group r a q o b : parts r [("OPEN_PARENTHESIS", [T a]); ("operation", [K q]); ("CLOSE_PARENTHESIS", [T b])] -> means "operation" q (OOperation o) -> means "operation" r (OOperation o)
(* operationWithSuffix: operationElement operationSuffix?; an operation alone is that operation *)
| me_alone r q e : parts r [("operationElement", [K q])] -> means "operationElement" q (OElement e) -> (forall o, e <> OEOperation o) -> means "operationWithSuffix" r (OOperation (Operation e None))
| me_alone_operation r q o : parts r [("operationElement", [K q])] -> means "operationElement" q (OElement (OEOperation o)) -> means "operationWithSuffix" r (OOperation o)
| me_suffixed r p e q s : parts r [("operationElement", [K p]); ("operationSuffix", [K q])] -> means "operationElement" p (OElement e) -> means "operationSuffix" q (OSuffix s) -> means "operationWithSuffix" r (OOperation (Operation e (Some s)))
(* operationSuffix: operator operationElement *)
| me_suffix r p o q e : parts r [("operator", [K p]); ("operationElement", [K q])] -> means "operator" p (OUint16 o) -> means "operationElement" q (OElement e) -> means "operationSuffix" r (OSuffix (OpSuffix o e))
(* operationElement: boolValue | variableName | computableValue | operation *)
| me_e_bool r q b : parts r [("boolValue", [K q])] -> means "boolValue" q (OValue (bool_value b)) -> means "operationElement" r (OElement (OEBool b))
| me_e_name r q w : parts r [("variableName", [K q])] -> spells q w -> means "operationElement" r (OElement (OEName w))
| me_e_value r q v : parts r [("computableValue", [K q])] -> means "computableValue" q (OValue v) -> means "operationElement" r (OElement (OEValue v))
| me_e_operation r q o : parts r [("operation", [K q])] -> means "operation" q (OOperation o) -> means "operationElement" r (OElement (OEOperation o))
(* operationFuncCalls: isNullFuncCall *)
| me_call r q o : parts r [("isNullFuncCall", [K q])] -> means "isNullFuncCall" q (OOperation o) -> means "operationFuncCalls" r (OCall (OCNull o))
(* isNullFuncCall: IS_NULL_FUNC ( operation ) *)
| me_is_null r a b q o c : parts r [("IS_NULL_FUNC", [T a]); ("OPEN_PARENTHESIS", [T b]); ("operation", [K q]); ("CLOSE_PARENTHESIS", [T c])] -> means "operation" q (OOperation o) -> means "isNullFuncCall" r (OOperation o)
(* operator: operatorArithmetic | operatorRelational | operatorLogical *)
| me_operator n r q o : In n ["operatorArithmetic"; "operatorRelational"; "operatorLogical"] -> parts r [(n, [K q])] -> means n q (OUint16 o) -> means "operator" r (OUint16 o)
(* operatorArithmetic: PLUS | MINUS | STAR | DIV *)
| me_plus r a : parts r [("PLUS", [T a])] -> means "operatorArithmetic" r (OUint16 (OpArithmetic + OpAriPlus))
| me_minus r a : parts r [("MINUS", [T a])] -> means "operatorArithmetic" r (OUint16 (OpArithmetic + OpAriMinus))
| me_star r a : parts r [("STAR", [T a])] -> means "operatorArithmetic" r (OUint16 (OpArithmetic + OpAriMultiply))
| me_div r a : parts r [("DIV", [T a])] -> means "operatorArithmetic" r (OUint16 (OpArithmetic + OpAriDivide))
(* operatorRelational: LESS EQUAL? | MORE EQUAL? | EXCLAMATION EQUAL | EQUAL{2} *)
| me_less r a : parts r [("LESS", [T a])] -> means "operatorRelational" r (OUint16 (OpRelational + OpRelLessThan))
| me_less_equal r a b : parts r [("LESS", [T a]); ("EQUAL", [T b])] -> means "operatorRelational" r (OUint16 (OpRelational + OpRelLessThan + OpRelEqual))
| me_more r a : parts r [("MORE", [T a])] -> means "operatorRelational" r (OUint16 (OpRelational + OpRelGreaterThan))
| me_more_equal r a b : parts r [("MORE", [T a]); ("EQUAL", [T b])] -> means "operatorRelational" r (OUint16 (OpRelational + OpRelGreaterThan + OpRelEqual))
| me_not_equal r a b : parts r [("EXCLAMATION", [T a]); ("EQUAL", [T b])] -> means "operatorRelational" r (OUint16 (OpRelational + OpRelNot + OpRelEqual))
| me_equal r l : parts r [("EQUAL", map T l)] -> l <> [] -> means "operatorRelational" r (OUint16 (OpRelational + OpRelEqual))
(* operatorLogical: AND{2} | PIPE{2} *)
| me_and r l : parts r [("AND", map T l)] -> l <> [] -> means "operatorLogical" r (OUint16 (OpLogical + OpLogAnd))
| me_or r l : parts r [("PIPE", map T l)] -> l <> [] -> means "operatorLogical" r (OUint16 (OpLogical + OpLogOr))
(* assignment: assignee assignables *)
| me_assignment r p a q l : parts r [("assignee", [K p]); ("assignables", [K q])] -> means "assignee" p (OAssignee a) -> means "assignables" q (OAssignables l) -> means "assignment" r (OAssignment (Assignment a l))
(* assignee: assigneeNameFirsts COLON EQUAL | assigneeNames EQUAL *)
| me_assignee_first r q l a b : parts r [("assigneeNameFirsts", [K q]); ("COLON", [T a]); ("EQUAL", [T b])] -> means "assigneeNameFirsts" q (OFirsts l) -> means "assignee" r (OAssignee (AEFirst l))
| me_assignee r q l b : parts r [("assigneeNames", [K q]); ("EQUAL", [T b])] -> means "assigneeNames" q (ONames l) -> means "assignee" r (OAssignee (AEName l))
(* assigneeNameFirsts: assigneeNameFirst commaAssigneeFirst*; commaAssigneeFirst: COMMA assigneeNameFirst *)
| me_firsts r q x cs l : parts r (("assigneeNameFirst", [K q]) :: some "commaAssigneeFirst" cs) -> means "assigneeNameFirst" q (OFirst x) -> each "commaAssigneeFirst" cs (map OFirst l) -> means "assigneeNameFirsts" r (OFirsts (x :: l))
| me_comma_first r a q x : parts r [("COMMA", [T a]); ("assigneeNameFirst", [K q])] -> means "assigneeNameFirst" q (OFirst x) -> means "commaAssigneeFirst" r (OFirst x)
(* assigneeNameFirst: variableDeclaration | assigneeName *)
| me_first_declaration r q x : parts r [("variableDeclaration", [K q])] -> means "variableDeclaration" q (OVarDecl x) -> means "assigneeNameFirst" r (OFirst (AFDeclaration x))
| me_first_name r q x : parts r [("assigneeName", [K q])] -> means "assigneeName" q (OName x) -> means "assigneeNameFirst" r (OFirst (AFName x))
(* assigneeNames: assigneeName commaAssigneeName*; commaAssigneeName: COMMA assigneeName *)
| me_names r q x cs l : parts r (("assigneeName", [K q]) :: some "commaAssigneeName" cs) -> means "assigneeName" q (OName x) -> each "commaAssigneeName" cs (map OName l) -> means "assigneeNames" r (ONames (x :: l))
| me_comma_name r a q x : parts r [("COMMA", [T a]); ("assigneeName", [K q])] -> means "assigneeName" q (OName x) -> means "commaAssigneeName" r (OName x)
(* assigneeName: variableName | UNDERSCORE *)
| me_name r q w : parts r [("variableName", [K q])] -> spells q w -> means "assigneeName" r (OName (ANVariable w))
| me_skip r a : parts r [("UNDERSCORE", [T a])] -> means "assigneeName" r (OName ANSkip)
(* assignables: assignable commaAssignable*; commaAssignable: COMMA assignable *)
| me_assignables r q x cs l : parts r (("assignable", [K q]) :: some "commaAssignable" cs) -> means "assignable" q (OAssignable x) -> each "commaAssignable" cs (map OAssignable l) -> means "assignables" r (OAssignables (x :: l))
| me_comma_assignable r a q x : parts r [("COMMA", [T a]); ("assignable", [K q])] -> means "assignable" q (OAssignable x) -> means "commaAssignable" r (OAssignable x)
(* assignable: totalListAssignable | singleAssignable *)
| me_a_list r q x : parts r [("totalListAssignable", [K q])] -> means "totalListAssignable" q (OTotalList x) -> means "assignable" r (OAssignable (ASList x))
| me_a_single r q x : parts r [("singleAssignable", [K q])] -> means "singleAssignable" q (OSingle x) -> means "assignable" r (OAssignable (ASSingle x))
(* singleAssignable: declarableValue | operation | listAssignableToAssignables | listFetchElement *)
| me_s_value r q x : parts r [("declarableValue", [K q])] -> means "declarableValue" q (OValue x) -> means "singleAssignable" r (OSingle (SADeclarable x))
| me_s_operation r q x : parts r [("operation", [K q])] -> means "operation" q (OOperation x) -> means "singleAssignable" r (OSingle (SAOperation x))
| me_s_extract r q x : parts r [("listAssignableToAssignables", [K q])] -> means "listAssignableToAssignables" q (OTotalList x) -> means "singleAssignable" r (OSingle (SAExtract x))
| me_s_fetch r q x : parts r [("listFetchElement", [K q])] -> means "listFetchElement" q (OFetch x) -> means "singleAssignable" r (OSingle (SAFetch x))
(* listFetchElement: totalListValue listElementFetcher *)
| me_fetch r p l q i : parts r [("totalListValue", [K p]); ("listElementFetcher", [K q])] -> means "totalListValue" p (OTotalValue l) -> means "listElementFetcher" q (OIndex i) -> means "listFetchElement" r (OFetch (FetchElement l i))
(* listElementFetcher: [ indexValue ] *)
| me_fetcher r a q i b : parts r [("OPEN_SQUARE_BRACKET", [T a]); ("indexValue", [K q]); ("CLOSE_SQUARE_BRACKET", [T b])] -> means "indexValue" q (OIndex i) -> means "listElementFetcher" r (OIndex i)
(* listAssignableToAssignables: totalListAssignable DOT{3} | ( totalListAssignable ) DOT{3} *)
| me_extract r q x l : parts r [("totalListAssignable", [K q]); ("DOT", map T l)] -> means "totalListAssignable" q (OTotalList x) -> means "listAssignableToAssignables" r (OTotalList x)
| me_extract_group r a q x b l : parts r [("OPEN_PARENTHESIS", [T a]); ("totalListAssignable", [K q]); ("CLOSE_PARENTHESIS", [T b]); ("DOT", map T l)] -> means "totalListAssignable" q (OTotalList x) -> means "listAssignableToAssignables" r (OTotalList x)
(* totalListValue: variableName | totalListAssignable *)
| me_v_name r q w : parts r [("variableName", [K q])] -> spells q w -> means "totalListValue" r (OTotalValue (TVName w))
| me_v_list r q x : parts r [("totalListAssignable", [K q])] -> means "totalListAssignable" q (OTotalList x) -> means "totalListValue" r (OTotalValue (TVAssignable x))
(* totalListAssignable: listValue | slice | listAppend *)
| me_l_value r q x : parts r [("listValue", [K q])] -> means "listValue" q (OListValue x) -> means "totalListAssignable" r (OTotalList (TLValue x))
| me_l_slice r q x : parts r [("slice", [K q])] -> means "slice" q (OSlice x) -> means "totalListAssignable" r (OTotalList (TLSlice x))
| me_l_append r q x : parts r [("listAppend", [K q])] -> means "listAppend" q (OAppend x) -> means "totalListAssignable" r (OTotalList (TLAppend x))
(* listValue: listAssignable | variableName *)
| me_list r q l : parts r [("listAssignable", [K q])] -> means "listAssignable" q (OAssignables l) -> means "listValue" r (OListValue (LVAssignables l))
| me_list_name r q w : parts r [("variableName", [K q])] -> spells q w -> means "listValue" r (OListValue (LVName w))
(* listAssignable: [ assignables? ] *)
| me_list_empty r a b : parts r [("OPEN_SQUARE_BRACKET", [T a]); ("CLOSE_SQUARE_BRACKET", [T b])] -> means "listAssignable" r (OAssignables [])
| me_list_full r a q l b : parts r [("OPEN_SQUARE_BRACKET", [T a]); ("assignables", [K q]); ("CLOSE_SQUARE_BRACKET", [T b])] -> means "assignables" q (OAssignables l) -> means "listAssignable" r (OAssignables l)
(* intIncrement: variableName intIncrementValue; intIncrementValue: PLUS PLUS | MINUS MINUS *)
| me_increment r p w q v : parts r [("variableName", [K p]); ("intIncrementValue", [K q])] -> spells p w -> means "intIncrementValue" q (OValue v) -> means "intIncrement" r (OIncrement (Increment w v))
| me_up r a b : parts r [("PLUS", [T a; T b])] -> means "intIncrementValue" r (OValue (int_value 1))
| me_down r a b : parts r [("MINUS", [T a; T b])] -> means "intIncrementValue" r (OValue (int_value (-1)))
(* declarableValue: computableValue | primitiveValue; computableValue: floatValue | intValue; primitiveValue: boolValue | stringValue *)
| me_declarable n m r q v : In (n, m) [("declarableValue", "computableValue"); ("declarableValue", "primitiveValue"); ("computableValue", "floatValue"); ("computableValue", "intValue"); ("primitiveValue", "boolValue"); ("primitiveValue", "stringValue")] ->
    parts r [(m, [K q])] -> means m q (OValue v) -> means n r (OValue v)
(* stringValue: QUOTATION EVERYTHING_EXCEPT_QUOTATION QUOTATION *)
| me_string r a b w : parts r [("QUOTATION", [T a; T b]); ("EVERYTHING_EXCEPT_QUOTATION", [T w])] -> means "stringValue" r (OValue (string_value w))
(* boolValue: TRUE | FALSE *)
| me_true r a : parts r [("TRUE", [T a])] -> means "boolValue" r (OValue (bool_value true))
| me_false r a : parts r [("FALSE", [T a])] -> means "boolValue" r (OValue (bool_value false))
(* intValue: MINUS? INT_PATTERN *)
| me_uint r w n : parts r [("INT_PATTERN", [T w])] -> fits w n -> means "intValue" r (OValue (uint_value n))
| me_int r a w n : parts r [("MINUS", [T a]); ("INT_PATTERN", [T w])] -> fits_negative w n -> means "intValue" r (OValue (int_value (- Z.of_N n)))
(* floatValue: MINUS? INT_PATTERN DOT INT_PATTERN *)
| me_float r u a v x : parts r [("INT_PATTERN", [T u; T v]); ("DOT", [T a])] -> parse_float (u ++ bs "." ++ v) bitsize = Some x -> means "floatValue" r (OValue (float_value x))
| me_float_minus r b u a v x : parts r [("MINUS", [T b]); ("INT_PATTERN", [T u; T v]); ("DOT", [T a])] -> parse_float (bs "-" ++ u ++ bs "." ++ v) bitsize = Some x -> means "floatValue" r (OValue (float_value x))
(* variableDeclarations: variableDeclaration commaVariableDeclaration*; commaVariableDeclaration: COMMA variableDeclaration *)
| me_declarations r q x cs l : parts r (("variableDeclaration", [K q]) :: some "commaVariableDeclaration" cs) -> means "variableDeclaration" q (OVarDecl x) -> each "commaVariableDeclaration" cs (map OVarDecl l) -> means "variableDeclarations" r (OVarDecls (x :: l))
| me_comma_declaration r a q x : parts r [("COMMA", [T a]); ("variableDeclaration", [K q])] -> means "variableDeclaration" q (OVarDecl x) -> means "commaVariableDeclaration" r (OVarDecl x)
(* variableDeclaration: declarativeType variableName *)
| me_declaration r p t q w : parts r [("declarativeType", [K p]); ("variableName", [K q])] -> means "declarativeType" p (OType t) -> spells q w -> means "variableDeclaration" r (OVarDecl (VarDecl t w))
(* declarativeType: primitiveType | computableType | listType; listType: LIST LESS declarativeType MORE.
   The depth is how many lists are nested, in a uint *)
| me_type_plain n r q f : In n ["primitiveType"; "computableType"] -> parts r [(n, [K q])] -> means n q (OUint8 f) -> means "declarativeType" r (OType (BType 0 f))
| me_type_list r q t : parts r [("listType", [K q])] -> means "listType" q (OType t) -> means "declarativeType" r (OType (BType ((ty_dept t + 1) mod 2 ^ 64) (ty_flag t)))
| me_list_type r a b q t c : parts r [("LIST", [T a]); ("LESS", [T b]); ("declarativeType", [K q]); ("MORE", [T c])] -> means "declarativeType" q (OType t) -> means "listType" r (OType t)
(* primitiveType: BOOL | STRING; computableType: FLOAT | UINT | INT *)
| me_type_bool r a : parts r [("BOOL", [T a])] -> means "primitiveType" r (OUint8 TypeBoolFlag)
| me_type_string r a : parts r [("STRING", [T a])] -> means "primitiveType" r (OUint8 TypeStringFlag)
| me_type_float r a : parts r [("FLOAT", [T a])] -> means "computableType" r (OUint8 TypeFloatFlag)
| me_type_uint r a : parts r [("UINT", [T a])] -> means "computableType" r (OUint8 (TypeIntegerFlag + TypeUnsignedFlag))
| me_type_int r a : parts r [("INT", [T a])] -> means "computableType" r (OUint8 TypeIntegerFlag)
with each : string -> list root -> list obj -> Prop :=
| each_nil n : each n [] []
| each_cons n q l x o : means n q x -> each n l o -> each n (q :: l) (x :: o).
End Meaning.

(* ---- ambiguity ---- *)
(* nothing bears that name in the node, at any depth *)
Definition absent (name : bytes) (x : node) : Prop := (forall n, node_in n [x] -> no_name n <> name) /\ (forall c, container_in c [x] -> co_name c <> name).
(* a node of tokens, or a key name *)
Definition sought (y : node) : Prop := (exists c, In c (no_list y) /\ co_root c <> None) \/ no_name y = bs "KEYNAME_PATTERN".
(* wherever a token is a part of another one, nothing of its name occurs in the other parts *)
Definition clear (r : root) : Prop :=
  forall q x y, q = r \/ inside q r -> In x (ro_nodes q) -> In y (ro_nodes q) -> no_name x <> no_name y -> sought y -> absent (no_name y) x.

(* ---- kinds ---- *)
(* the kind of object that a token of the name stands for *)
Definition kind (n : string) (x : obj) : Prop :=
  match x with
  | OProgram _ => n = "program" | OHeaderVariables _ => n = "headerVariables" | OHeaderVariable _ => n = "headerVariable"
  | OInstructions _ => n = "instructions" | OInstruction _ => n = "instruction" | OVoidCall _ => n = "voidFuncCalls" | ODirection _ => n = "direction"
  | OForDeclaration _ => n = "forDeclaration" | OForStatement _ => n = "forStatement" | OIfDeclaration _ => n = "ifDeclaration"
  | OAssignment _ => n = "assignment" | OAssignee _ => n = "assignee" | OFirsts _ => n = "assigneeNameFirsts" | OFirst _ => In n ["assigneeNameFirst"; "commaAssigneeFirst"]
  | ONames _ => n = "assigneeNames" | OName _ => In n ["assigneeName"; "commaAssigneeName"]
  | OAssignables _ => In n ["assignables"; "listAssignable"] | OAssignable _ => In n ["assignable"; "commaAssignable"; "logFuncCall"] | OSingle _ => n = "singleAssignable"
  | OFetch _ => n = "listFetchElement" | OTotalValue _ => n = "totalListValue" | OTotalList _ => In n ["totalListAssignable"; "listAssignableToAssignables"]
  | OAppend _ => n = "listAppend" | OSlice _ => n = "slice" | OListValue _ => n = "listValue" | ODelimiter _ => n = "sliceDelimiter" | OIndex _ => In n ["indexValue"; "listElementFetcher"]
  | OOperation _ => In n ["operation"; "operationWithSuffix"; "ifOperation"; "isNullFuncCall"] | OCall _ => n = "operationFuncCalls" | OSuffix _ => n = "operationSuffix" | OElement _ => n = "operationElement"
  | OIncrement _ => n = "intIncrement"
  | OValue _ => In n ["declarableValue"; "computableValue"; "primitiveValue"; "floatValue"; "intValue"; "boolValue"; "stringValue"; "intIncrementValue"]
  | OVarDecls _ => n = "variableDeclarations" | OVarDecl _ => In n ["variableDeclaration"; "commaVariableDeclaration"] | OType _ => In n ["declarativeType"; "listType"]
  | OBool _ => n = "inputOutput" | OUint8 _ => In n ["primitiveType"; "computableType"] | OUint16 _ => In n ["operator"; "operatorArithmetic"; "operatorRelational"; "operatorLogical"]
  end.
(* no token of the name occurs inside of r *)
Definition free (name : string) (r : root) : Prop := forall k, node_in k (ro_nodes r) -> no_name k <> bs name.
