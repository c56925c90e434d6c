(* EvtReadProps.v - property theorems C88-C90: all that Execute of the base language can
   return for a syntax tree, over every order in which Nodes.Scan visits its maps.
   means, clear, free and kind are defined in EvtSpec.v. *)
From Coq Require Import Strings.String Strings.Byte Sorting.Permutation Lia.
From Verif Require Import Go GoLemmas RuleModel RootModel RootSpec ParseModel BaseModel BaseSpec EvtModel EvtSpec EvtProofs EvtProofs2 EvtProofs3 EvtProofs4 EvtProofs5 EvtProofs6 EvtProofs7 EvtProps.
Open Scope string_scope.
Open Scope list_scope.

(* ---- C88: no syntax tree makes the events fail ---- *)
Theorem C88_grammatical_never_fails :
  forall bitsize parse_float n r x,
  means bitsize parse_float n r x -> ro_name r = bs n ->
  forall o, app_execute (base_events bitsize parse_float) r o -> exists y, o = Ok (VObj y) /\ kind n y.
Proof. exact never_lemma. Qed.
Print Assumptions C88_grammatical_never_fails.

(* for a program: it is a program, never an error and never a panic *)
Theorem C88_program_gives_a_program :
  forall bitsize parse_float r x,
  means bitsize parse_float "program" r x -> ro_name r = bs "program" ->
  (exists p, app_execute (base_events bitsize parse_float) r (Ok (VObj (OProgram p)))) /\
  forall o, app_execute (base_events bitsize parse_float) r o -> exists p, o = Ok (VObj (OProgram p)).
Proof.
  intros b f r x H E. assert (A : forall o, app_execute (base_events b f) r o -> exists p, o = Ok (VObj (OProgram p))).
  { intros o Ho. destruct (C88_grammatical_never_fails b f _ r x H E o Ho) as (y & -> & Ky). destruct y; cbn in Ky; try discriminate; try (exfalso; intuition discriminate). eexists. reflexivity. }
  split; [|exact A]. assert (P := C87_right_reading_is_possible b f _ r x H E). destruct (A _ P) as (p & Ep). exists p. rewrite <- Ep. exact P.
Qed.
Print Assumptions C88_program_gives_a_program.
(* the program of C87_small_program is such a tree *)
Example C88_case : exists x, means 32 (fun _ _ => None) "program" small_program x /\ ro_name small_program = bs "program".
Proof. exists (OProgram small_meaning). split; [exact small_means|reflexivity]. Qed.

(* a tree that is not of the grammar can make them panic: a list of one name in a for *)
Definition one_name_for : root := tok "forStatement" [("assigneeNames", [K (wrap "assigneeNames" "assigneeName" (wrap "assigneeName" "variableName" (name_tok "a" "b")))]); ("COLON", [t ":"]); ("EQUAL", [t "="]);
  ("totalListValue", [K (wrap "totalListValue" "variableName" (name_tok "c" "d"))])].
Theorem C88_one_name_panics :
  forall bitsize parse_float, app_execute (base_events bitsize parse_float) one_name_for Panic.
Proof.
  intros b f. apply execute_outcomes. exists Panic. split; [|reflexivity]. change (ro_name one_name_for) with (bs "forStatement"). apply base_fix.
  change (body_of b f (bs "forStatement")) with (Some ev_forStatement). exists Panic. split; [|split; [discriminate|reflexivity]]. unfold ev_forStatement. change (has one_name_for "forStatement") with false. cbv iota.
  assert (P : parts one_name_for [("assigneeNames", [K (wrap "assigneeNames" "assigneeName" (wrap "assigneeName" "variableName" (name_tok "a" "b")))]); ("COLON", [t ":"]); ("EQUAL", [t "="]); ("totalListValue", [K (wrap "totalListValue" "variableName" (name_tok "c" "d"))])]) by pp.
  assert (M : means b f "assigneeNames" (wrap "assigneeNames" "assigneeName" (wrap "assigneeName" "variableName" (name_tok "a" "b"))) (ONames [ANVariable (bs "ab")])).
  { eapply (me_names _ _ _ _ _ [] []); [pp| |apply each_nil]. eapply me_name; [pp|apply (name_spells "a" "b"); discriminate]. }
  assert (G := proj1 (means_gives False b f) _ _ _ M (fun X => match X with end)).
  assert (Tr : ans False (trigger (base_events b f) (bs "assigneeNames") one_name_for) (Ok (VResult [VObj (ONames [ANVariable (bs "ab")])]))).
  { eapply (trigger_parts False b f _ _ "assigneeNames" _ [_] P); [repeat constructor; cbn; intuition discriminate|left; reflexivity|constructor; [exact G|constructor]|discriminate|intros []|reflexivity]. }
  unfold opt. change (has one_name_for "assigneeNames") with true. cbv iota. unfold get, trig. cbn [pbind]. eapply rn_ok; [exact (proj1 Tr)|]. cbn. apply rn_ret.
Qed.
Print Assumptions C88_one_name_panics.

(* ---- C89: an operation between two elements ---- *)
(* in some order of the maps the left element is read as the right one *)
Theorem C89_left_operand_may_be_the_right_one :
  forall bitsize parse_float r p s o q ep op eq,
  parts r [("operationElement", [K p]); ("operationSuffix", [K s])] -> parts s [("operator", [K o]); ("operationElement", [K q])] ->
  means bitsize parse_float "operationElement" p (OElement ep) -> means bitsize parse_float "operator" o (OUint16 op) -> means bitsize parse_float "operationElement" q (OElement eq) ->
  clear p -> clear s -> free "operationSuffix" p -> ro_name r = bs "operationWithSuffix" ->
  forall out, app_execute (base_events bitsize parse_float) r out <->
    out = Ok (VObj (OOperation (Operation ep (Some (OpSuffix op eq))))) \/ out = Ok (VObj (OOperation (Operation eq (Some (OpSuffix op eq))))).
Proof. exact operands_two. Qed.
Print Assumptions C89_left_operand_may_be_the_right_one.

(* ab - cd *)
Definition element_tok (a b : string) : root := wrap "operationElement" "variableName" (name_tok a b).
Definition minus_tok : root := wrap "operator" "operatorArithmetic" (tok "operatorArithmetic" [("MINUS", [t "-"])]).
Definition suffix_tok : root := spaced "operationSuffix" [("operator", [K minus_tok]); ("operationElement", [K (element_tok "c" "d")])].
Definition difference : root := spaced "operationWithSuffix" [("operationElement", [K (element_tok "a" "b")]); ("operationSuffix", [K suffix_tok])].
Definition minus_flag : N := (OpArithmetic + OpAriMinus)%N.
Definition minus_of (a b : string) : obj := OOperation (Operation (OEName (bs a)) (Some (OpSuffix minus_flag (OEName (bs b))))).
Lemma element_means b f x y : bs x ++ bs y <> [] -> means b f "operationElement" (element_tok x y) (OElement (OEName (bs x ++ bs y))).
Proof. intros H. eapply me_e_name; [pp|apply name_spells; exact H]. Qed.
Lemma minus_means b f : means b f "operator" minus_tok (OUint16 minus_flag).
Proof. eapply (me_operator _ _ "operatorArithmetic"); [left; reflexivity|pp|]. eapply me_minus. pp. Qed.
Theorem C89_ab_minus_cd :
  forall bitsize parse_float,
  means bitsize parse_float "operationWithSuffix" difference (minus_of "ab" "cd") /\
  forall out, app_execute (base_events bitsize parse_float) difference out <-> out = Ok (VObj (minus_of "ab" "cd")) \/ out = Ok (VObj (minus_of "cd" "cd")).
Proof.
  intros b f. split.
  - eapply me_suffixed; [pp|apply element_means; discriminate|]. eapply me_suffix; [pp|apply minus_means|apply (element_means _ _ "c" "d"); discriminate].
  - eapply C89_left_operand_may_be_the_right_one; [pp|pp|apply (element_means _ _ "a" "b"); discriminate|apply minus_means|apply (element_means _ _ "c" "d"); discriminate|apply check_clear; vm_compute; reflexivity|apply check_clear; vm_compute; reflexivity| |reflexivity].
    intros k Hk E. destruct (names_nodes k _ Hk (bs "operationSuffix")) as (z & [<-|[]] & I); [left; symmetry; exact E|]. revert I. apply member_false. vm_compute. reflexivity.
Qed.
Print Assumptions C89_ab_minus_cd.

(* so a text is not always read as what it means *)
Theorem C89_always_the_right_reading_refuted :
  ~ (forall bitsize parse_float n r x o, means bitsize parse_float n r x -> ro_name r = bs n -> app_execute (base_events bitsize parse_float) r o -> o = Ok (VObj x)).
Proof.
  intros H. destruct (C89_ab_minus_cd 64 (fun _ _ => None)) as [M X]. assert (K := H _ _ _ _ _ _ M eq_refl (proj2 (X _) (or_intror eq_refl))). discriminate.
Qed.
Print Assumptions C89_always_the_right_reading_refuted.

(* ---- C90: lists ---- *)
(* in some order of the maps the first element of a list is read as the second one *)
Theorem C90_values :
  forall bitsize parse_float r q x c1 a q1 x1 cs l,
  parts r [("assignable", [K q]); ("commaAssignable", map K (c1 :: cs))] -> parts c1 [("COMMA", [T a]); ("assignable", [K q1])] ->
  means bitsize parse_float "assignable" q (OAssignable x) -> means bitsize parse_float "assignable" q1 (OAssignable x1) -> each bitsize parse_float "commaAssignable" cs (map OAssignable l) ->
  clear q -> clear q1 -> (forall c, In c cs -> clear c) -> free "commaAssignable" q -> ro_name r = bs "assignables" ->
  forall out, app_execute (base_events bitsize parse_float) r out <-> out = Ok (VObj (OAssignables (x :: x1 :: l))) \/ out = Ok (VObj (OAssignables (x1 :: x1 :: l))).
Proof. exact assignables_two. Qed.
Print Assumptions C90_values.
Theorem C90_new_names :
  forall bitsize parse_float r q x c1 a q1 x1 cs l,
  parts r [("assigneeNameFirst", [K q]); ("commaAssigneeFirst", map K (c1 :: cs))] -> parts c1 [("COMMA", [T a]); ("assigneeNameFirst", [K q1])] ->
  means bitsize parse_float "assigneeNameFirst" q (OFirst x) -> means bitsize parse_float "assigneeNameFirst" q1 (OFirst x1) -> each bitsize parse_float "commaAssigneeFirst" cs (map OFirst l) ->
  clear q -> clear q1 -> (forall c, In c cs -> clear c) -> free "commaAssigneeFirst" q -> ro_name r = bs "assigneeNameFirsts" ->
  forall out, app_execute (base_events bitsize parse_float) r out <-> out = Ok (VObj (OFirsts (x :: x1 :: l))) \/ out = Ok (VObj (OFirsts (x1 :: x1 :: l))).
Proof. exact firsts_two. Qed.
Print Assumptions C90_new_names.
Theorem C90_declarations :
  forall bitsize parse_float r q x c1 a q1 x1 cs l,
  parts r [("variableDeclaration", [K q]); ("commaVariableDeclaration", map K (c1 :: cs))] -> parts c1 [("COMMA", [T a]); ("variableDeclaration", [K q1])] ->
  means bitsize parse_float "variableDeclaration" q (OVarDecl x) -> means bitsize parse_float "variableDeclaration" q1 (OVarDecl x1) -> each bitsize parse_float "commaVariableDeclaration" cs (map OVarDecl l) ->
  clear q -> clear q1 -> (forall c, In c cs -> clear c) -> free "commaVariableDeclaration" q -> ro_name r = bs "variableDeclarations" ->
  forall out, app_execute (base_events bitsize parse_float) r out <-> out = Ok (VObj (OVarDecls (x :: x1 :: l))) \/ out = Ok (VObj (OVarDecls (x1 :: x1 :: l))).
Proof. exact declarations_two. Qed.
Print Assumptions C90_declarations.
(* every list of two or more names *)
Theorem C90_names :
  forall bitsize parse_float r x x1 l,
  means bitsize parse_float "assigneeNames" r (ONames (x :: x1 :: l)) -> ro_name r = bs "assigneeNames" ->
  forall out, app_execute (base_events bitsize parse_float) r out <-> out = Ok (VObj (ONames (x :: x1 :: l))) \/ out = Ok (VObj (ONames (x1 :: x1 :: l))).
Proof. intros b f r x x1 l H E. apply (outcomes_two b f _ _ _ _ E). apply names_two_events. exact H. Qed.
Print Assumptions C90_names.
(* for index, value := list: the index may be read as the value *)
Theorem C90_for_index_may_be_the_value :
  forall bitsize parse_float r p i v a b q l,
  parts r [("assigneeNames", [K p]); ("COLON", [T a]); ("EQUAL", [T b]); ("totalListValue", [K q])] ->
  means bitsize parse_float "assigneeNames" p (ONames [i; v]) -> means bitsize parse_float "totalListValue" q (OTotalValue l) -> clear q -> ro_name r = bs "forStatement" ->
  forall out, app_execute (base_events bitsize parse_float) r out <-> out = Ok (VObj (OForStatement (ForStatement i v l))) \/ out = Ok (VObj (OForStatement (ForStatement v v l))).
Proof. exact for_two. Qed.
Print Assumptions C90_for_index_may_be_the_value.

(* i, v := cd *)
Definition name_of_tok (a b : string) : root := wrap "assigneeName" "variableName" (name_tok a b).
Definition two_names : root := tok "assigneeNames" [("assigneeName", [K (name_of_tok "i" "x")]); ("commaAssigneeName", [K (tok "commaAssigneeName" [("COMMA", [t ","]); ("assigneeName", [K (name_of_tok "v" "y")])])])].
Definition for_tok : root := spaced "forStatement" [("assigneeNames", [K two_names]); ("COLON", [t ":"]); ("EQUAL", [t "="]); ("totalListValue", [K (wrap "totalListValue" "variableName" (name_tok "c" "d"))])].
Example C90_case : forall out, app_execute (base_events 64 (fun _ _ => None)) for_tok out <->
  out = Ok (VObj (OForStatement (ForStatement (ANVariable (bs "ix")) (ANVariable (bs "vy")) (TVName (bs "cd"))))) \/
  out = Ok (VObj (OForStatement (ForStatement (ANVariable (bs "vy")) (ANVariable (bs "vy")) (TVName (bs "cd"))))).
Proof.
  assert (N : forall a b, bs a ++ bs b <> [] -> means 64 (fun _ _ => None) "assigneeName" (name_of_tok a b) (OName (ANVariable (bs a ++ bs b)))) by (intros a b H; eapply me_name; [pp|apply name_spells; exact H]).
  eapply C90_for_index_may_be_the_value; [pp| |eapply me_v_name; [pp|apply (name_spells "c" "d"); discriminate]|apply check_clear; vm_compute; reflexivity|reflexivity].
  eapply (me_names _ _ _ _ _ [_] [_]); [pp|apply (N "i" "x"); discriminate|]. apply each_cons; [|apply each_nil]. eapply me_comma_name; [pp|apply (N "v" "y"); discriminate].
Qed.
