(* EvtProps.v - property theorems C86, C87: the events of the base language
   (domain/languages/scripts/base/parsers: NewEvents).  base_events is the map of events,
   app_execute base_events r the possible outcomes of Execute on the root r - Nodes.Scan goes
   over maps, in any order.  What a root means is defined in EvtSpec.v, from the grammar alone. *)
From Coq Require Import Strings.String Strings.Byte Sorting.Permutation Lia.
From Verif Require Import Go GoLemmas RuleModel RootModel RootSpec ParseModel BaseModel BaseSpec EvtModel EvtSpec EvtProofs EvtProofs2 EvtProofs3 EvtProofs4 EvtProofs5.
Open Scope string_scope.
Open Scope list_scope.

(* ---- C86: the events always end ---- *)
(* how deeply roots are nested *)
Theorem C86_roots_shrink :
  forall q r, inside q r -> r_height q < r_height r.
Proof. exact height_inside. Qed.
Print Assumptions C86_roots_shrink.

(* what Trigger gives on a root depends on what the events give on the roots inside of it, only *)
Theorem C86_trigger_looks_inside :
  forall (E E' : events obj) name r,
  (forall q, inside q r -> forall n o, execute_events E n q o <-> execute_events E' n q o) ->
  forall o, trigger E name r o <-> trigger E' name r o.
Proof. intros E E' name r H o. split; apply trigger_below; intros q Hq n x; apply H; exact Hq. Qed.
Print Assumptions C86_trigger_looks_inside.

(* no more events call each other than roots are nested *)
Theorem C86_calls_are_bounded :
  forall bitsize parse_float n r, r_height r <= n ->
  forall name o, execute_events (base_events bitsize parse_float) name r o <-> execute_events (events_at bitsize parse_float n) name r o.
Proof. intros b f n r H name o. destruct (base_at b f n r H) as [A B]. split; [apply A|apply B]. Qed.
Print Assumptions C86_calls_are_bounded.

(* Execute ends for every root, in every order of the maps: with a value, an error or a panic *)
Theorem C86_execute_always_ends :
  forall bitsize parse_float r,
  (exists o, app_execute (base_events bitsize parse_float) r o) /\
  ~ app_execute (base_events bitsize parse_float) r NoFuel.
Proof.
  intros b f r. split.
  - destruct (base_total b f r (ro_name r)) as (o & H & _). eexists. apply execute_outcomes. exists o. split; [exact H|reflexivity].
  - intros H. apply execute_outcomes in H. destruct H as (x & Hx & E). destruct x as [[[l|] v]| | |]; try discriminate; [destruct v; try discriminate; destruct l; discriminate|destruct v; discriminate|]. exact (base_no_fuel b f _ _ Hx).
Qed.
Print Assumptions C86_execute_always_ends.

(* ---- C87: the meaning of a text ---- *)
(* what the text means is among what Execute can return, whatever the nesting *)
Theorem C87_right_reading_is_possible :
  forall bitsize parse_float n r x,
  means bitsize parse_float n r x -> ro_name r = bs n ->
  app_execute (base_events bitsize parse_float) r (Ok (VObj x)).
Proof. exact means_possible. Qed.
Print Assumptions C87_right_reading_is_possible.

(* it is the only outcome where no part has, in another part, a token of its name *)
Theorem C87_only_reading_when_clear :
  forall bitsize parse_float n r x,
  means bitsize parse_float n r x -> ro_name r = bs n -> clear r ->
  forall o, app_execute (base_events bitsize parse_float) r o <-> o = Ok (VObj x).
Proof. exact means_only. Qed.
Print Assumptions C87_only_reading_when_clear.

(* so a text has at most one meaning there *)
Theorem C87_clear_meaning_is_unique :
  forall bitsize parse_float n r x y,
  means bitsize parse_float n r x -> means bitsize parse_float n r y -> ro_name r = bs n -> clear r -> x = y.
Proof.
  intros b f n r x y H H' E C. assert (K := proj1 (C87_only_reading_when_clear b f n r x H E C _) (means_possible b f n r y H' E)). congruence.
Qed.
Print Assumptions C87_clear_meaning_is_unique.

(* a program:  -> uint ab : k?   ab = -5   if isNull(ab) { @log(true) }   cd++ *)
Definition tok (n : string) (l : list (string * list part)) : root := Root (concat (map (fun x => concat (map co_content (no_list (part_node x)))) l)) (bs n) (map part_node l).
Definition t (w : string) : part := T (bs w).
(* the same, with spaces somewhere between its parts *)
Definition spaced (n : string) (l : list (string * list part)) : root := tok n (l ++ [("WHITESPACES", [t " "; t "  "]); ("MULTI_LINE_COMMENT", [t "/* so */"])]).
Lemma spaced_parts n l : parts (spaced n l) l.
Proof. exists [("WHITESPACES", [t " "; t "  "]); ("MULTI_LINE_COMMENT", [t "/* so */"])]. split; [|apply Permutation_refl]. constructor; [split; [left; reflexivity|exists [bs " "; bs "  "]; reflexivity]|]. constructor; [split; [right; left; reflexivity|exists [bs "/* so */"]; reflexivity]|constructor]. Qed.
Ltac pp := first [apply exactly; apply Permutation_refl | apply spaced_parts].
Definition name_tok (a b : string) : root := tok "variableName" [("FIRST_LETTER", [t a]); ("MIN_MAJ_LETTERS", [t b])].
Definition wrap (n m : string) (r : root) : root := tok n [(m, [K r])].
Definition operand (r : root) (m : string) : root := wrap "operation" "operationWithSuffix" (wrap "operationWithSuffix" "operationElement" (wrap "operationElement" m r)).
Definition minus_five : root := wrap "assignable" "singleAssignable" (wrap "singleAssignable" "declarableValue" (wrap "declarableValue" "computableValue" (wrap "computableValue" "intValue"
  (tok "intValue" [("MINUS", [t "-"]); ("INT_PATTERN", [t "5"])])))).
Definition yes : root := wrap "assignable" "singleAssignable" (wrap "singleAssignable" "declarableValue" (wrap "declarableValue" "primitiveValue" (wrap "primitiveValue" "boolValue" (tok "boolValue" [("TRUE", [t "true"])])))).
Definition header : root := spaced "headerVariable" [("inputOutput", [K (tok "inputOutput" [("RIGHT_ARROW", [t "->"])])]);
  ("variableDeclaration", [K (tok "variableDeclaration" [("declarativeType", [K (wrap "declarativeType" "computableType" (tok "computableType" [("UINT", [t "uint"])]))]); ("variableName", [K (name_tok "a" "b")])])]);
  ("COLON", [t ":"]); ("KEYNAME_PATTERN", [t "k"]); ("QUESTION_MARK", [t "?"])].
Definition assign : root := spaced "assignment" [("assignee", [K (tok "assignee" [("assigneeNames", [K (wrap "assigneeNames" "assigneeName" (wrap "assigneeName" "variableName" (name_tok "a" "b")))]); ("EQUAL", [t "="])])]);
  ("assignables", [K (wrap "assignables" "assignable" minus_five)])].
Definition log_yes : root := wrap "instruction" "voidFuncCalls" (wrap "voidFuncCalls" "logFuncCall" (tok "logFuncCall" [("LOG_FUNC", [t "@log"]); ("OPEN_PARENTHESIS", [t "("]); ("assignable", [K yes]); ("CLOSE_PARENTHESIS", [t ")"])])).
Definition is_null : root := tok "isNullFuncCall" [("IS_NULL_FUNC", [t "isNull"]); ("OPEN_PARENTHESIS", [t "("]); ("operation", [K (operand (name_tok "a" "b") "variableName")]); ("CLOSE_PARENTHESIS", [t ")"])].
Definition if_null : root := spaced "ifDeclaration" [("ifOperation", [K (tok "ifOperation" [("IF", [t "if"]); ("operation", [K (wrap "operation" "operationFuncCalls" (wrap "operationFuncCalls" "isNullFuncCall" is_null))])])]);
  ("OPEN_BRACKET", [t "{"]); ("instructions", [K (wrap "instructions" "instruction" log_yes)]); ("CLOSE_BRACKET", [t "}"])].
Definition plus_plus : root := tok "intIncrement" [("variableName", [K (name_tok "c" "d")]); ("intIncrementValue", [K (tok "intIncrementValue" [("PLUS", [t "+"; t "+"])])])].
Definition small_program : root := spaced "program" [("headerVariables", [K (tok "headerVariables" [("headerVariable", [K header])])]);
  ("instructions", [K (tok "instructions" [("instruction", [K (wrap "instruction" "assignment" assign); K (wrap "instruction" "ifDeclaration" if_null); K (wrap "instruction" "intIncrement" plus_plus)])])])].
Definition small_meaning : program :=
  Program [IAssignment (Assignment (AEName [ANVariable (bs "ab")]) [ASSingle (SADeclarable (int_value (-5)))]);
           IIf (IfDecl (Operation (OECall (OCNull (Operation (OEName (bs "ab")) None))) None) (Some [ICall (VCLog (ASSingle (SADeclarable (bool_value true))))]));
           IIncrement (Increment (bs "cd") (int_value 1))]
          (Some [HeaderVar false true (VarDecl (BType 0 (TypeIntegerFlag + TypeUnsignedFlag)) (bs "ab")) (bs "k")]).
Lemma name_spells a b : bs a ++ bs b <> [] -> spells (name_tok a b) (bs a ++ bs b).
Proof. intros H. eapply (sp_name _ [bs a] [bs b]); [pp|cbn; rewrite !app_nil_r; reflexivity|exact H]. Qed.
Lemma small_means : means 32 (fun _ _ => None) "program" small_program (OProgram small_meaning).
Proof.
  eapply me_program_header; [pp| |].
  - eapply (me_headers _ _ _ [header] [_]); [pp|discriminate|]. apply each_cons; [|apply each_nil].
    eapply me_header_optional; [pp|discriminate|eapply me_input; pp|]. eapply me_declaration; [pp| |apply (name_spells "a" "b"); discriminate].
    eapply (me_type_plain _ _ "computableType"); [right; left; reflexivity|pp|]. eapply me_type_uint; pp.
  - eapply (me_instructions _ _ _ [_; _; _] [_; _; _]); [pp|discriminate|]. apply each_cons; [|apply each_cons; [|apply each_cons; [|apply each_nil]]].
    + eapply me_i_assignment; [pp|]. eapply me_assignment; [pp| |].
      * eapply me_assignee; [pp|]. eapply (me_names _ _ _ _ _ [] []); [pp| |apply each_nil]. eapply me_name; [pp|apply (name_spells "a" "b"); discriminate].
      * eapply (me_assignables _ _ _ _ _ [] []); [pp| |apply each_nil]. eapply me_a_single; [pp|]. eapply me_s_value; [pp|].
        eapply (me_declarable _ _ _ "computableValue"); [left; reflexivity|pp|]. eapply (me_declarable _ _ _ "intValue"); [do 3 right; left; reflexivity|pp|].
        eapply (me_int _ _ _ _ (bs "5") 5); [pp|]. split; [|repeat split; vm_compute; discriminate]. apply num_one. split; reflexivity.
    + eapply me_i_if; [pp|]. eapply me_if_body; [pp| |].
      * eapply me_if_operation; [pp|]. eapply me_operation_call; [pp|]. eapply me_call; [pp|]. eapply me_is_null; [pp|].
        eapply me_operation; [pp|]. eapply me_alone; [pp| |discriminate]. eapply me_e_name; [pp|apply (name_spells "a" "b"); discriminate].
      * eapply (me_instructions _ _ _ [_] [_]); [pp|discriminate|]. apply each_cons; [|apply each_nil]. eapply me_i_call; [pp|]. eapply me_void; [pp|].
        eapply me_log; [pp|]. eapply me_a_single; [pp|]. eapply me_s_value; [pp|].
        eapply (me_declarable _ _ _ "primitiveValue"); [right; left; reflexivity|pp|]. eapply (me_declarable _ _ _ "boolValue"); [do 4 right; left; reflexivity|pp|]. eapply me_true. pp.
    + eapply me_i_increment; [pp|]. eapply me_increment; [pp|apply (name_spells "c" "d"); discriminate|]. eapply me_up. pp.
Qed.
Lemma small_clear : clear small_program.
Proof. apply check_clear. vm_compute. reflexivity. Qed.
Example C87_small_program : forall o, app_execute (base_events 32 (fun _ _ => None)) small_program o <-> o = Ok (VObj (OProgram small_meaning)).
Proof. apply (C87_only_reading_when_clear _ _ "program" _ _ small_means); [reflexivity|exact small_clear]. Qed.
