(* BaseProps.v - property theorems C82-C85: the builders of the base language's programs
   (domain/languages/scripts/base/parsers).  ops is any sequence of calls on a builder,
   after2 ... the builder after these calls, a2, b2, ... the argument last given to each of
   its methods since the last Create (BaseSpec.v). *)
From Coq Require Import Strings.String Strings.Byte Lia.
From Verif Require Import Go GoLemmas DomainModel DomainSpec BaseModel BaseSpec BaseProofs.
Open Scope list_scope.

(* the proof for a builder: its fields are the last arguments; then by cases *)
Ltac builder := 
  first [rewrite run1 | rewrite run2 | rewrite run3 | rewrite run4 | rewrite run5 | rewrite run7];
  repeat match goal with |- context [a1 ?i ?l] => destruct (a1 i l) | |- context [a2 ?i ?l] => destruct (a2 i l) | |- context [b2 ?i ?l] => destruct (b2 i l)
  | |- context [a3 ?i ?l] => destruct (a3 i l) | |- context [b3 ?i ?l] => destruct (b3 i l) | |- context [c3 ?i ?l] => destruct (c3 i l)
  | |- context [a4 ?i ?l] => destruct (a4 i l) | |- context [b4 ?i ?l] => destruct (b4 i l) | |- context [c4 ?i ?l] => destruct (c4 i l) | |- context [d4 ?i ?l] => destruct (d4 i l)
  | |- context [a5 ?i ?l] => destruct (a5 i l) | |- context [b5 ?i ?l] => destruct (b5 i l) | |- context [c5 ?i ?l] => destruct (c5 i l) | |- context [d5 ?i ?l] => destruct (d5 i l) | |- context [e5 ?i ?l] => destruct (e5 i l)
  | |- context [a7 ?i ?l] => destruct (a7 i l) | |- context [b7 ?i ?l] => destruct (b7 i l) | |- context [c7 ?i ?l] => destruct (c7 i l) | |- context [d7 ?i ?l] => destruct (d7 i l) | |- context [e7 ?i ?l] => destruct (e7 i l) | |- context [f7 ?i ?l] => destruct (f7 i l) | |- context [g7 ?i ?l] => destruct (g7 i l)
  end;
  first [ eapply builds_ok; [reflexivity|]; intros; cbn; split; [intros ->; repeat eexists; try reflexivity; try discriminate | intros; repeat match goal with H : exists _, _ |- _ => destruct H | H : _ /\ _ |- _ => destruct H | H : Some _ = Some _ |- _ => inversion H; clear H; subst end; try subst; first [reflexivity | congruence]]
        | eapply builds_err; [reflexivity|]; intros ? K; cbn in K; repeat match goal with H : exists _, _ |- _ => destruct H | H : _ /\ _ |- _ => destruct H end; congruence ].

(* ---- C82: objects with parts ---- *)
Theorem C82_append :
  forall ops,
  builds (append_now (after2 None None ops)) (fun x => exists p q, a2 None ops = Some p /\ b2 None ops = Some q /\ x = Append p q).
Proof.
  intros. unfold flagged, named. builder.
Qed.
Print Assumptions C82_append.

Theorem C82_slice :
  forall ops,
  builds (slice_now (after2 None None ops)) (fun x => exists p q, a2 None ops = Some p /\ b2 None ops = Some q /\ x = Slice p q).
Proof.
  intros. unfold flagged, named. builder.
Qed.
Print Assumptions C82_slice.

Theorem C82_assignment :
  forall ops,
  builds (assignment_now (after2 None None ops)) (fun x => exists p q, a2 None ops = Some p /\ b2 None ops = Some q /\ x = Assignment p q).
Proof.
  intros. unfold flagged, named. builder.
Qed.
Print Assumptions C82_assignment.

Theorem C82_list_fetch_element :
  forall ops,
  builds (fetch_now (after2 None None ops)) (fun x => exists p q, a2 None ops = Some p /\ b2 None ops = Some q /\ x = FetchElement p q).
Proof.
  intros. unfold flagged, named. builder.
Qed.
Print Assumptions C82_list_fetch_element.

Theorem C82_operation_suffix :
  forall ops,
  builds (suffix_now (after2 None None ops)) (fun x => exists p q, a2 None ops = Some p /\ b2 None ops = Some q /\ x = OpSuffix p q).
Proof.
  intros. unfold flagged, named. builder.
Qed.
Print Assumptions C82_operation_suffix.

Theorem C82_int_increment :
  forall ops,
  builds (increment_now (after2 [] None ops)) (fun x => exists p q, a2 [] ops = p /\ p <> [] /\ b2 None ops = Some q /\ x = Increment p q).
Proof.
  intros. unfold flagged, named. builder.
Qed.
Print Assumptions C82_int_increment.

Theorem C82_variable_declaration :
  forall ops,
  builds (vardecl_now (after2 None [] ops)) (fun x => exists p q, a2 None ops = Some p /\ b2 [] ops = q /\ q <> [] /\ x = VarDecl p q).
Proof.
  intros. unfold flagged, named. builder.
Qed.
Print Assumptions C82_variable_declaration.

Theorem C82_program :
  forall ops,
  builds (program_now (after2 None None ops)) (fun x => exists p, a2 None ops = Some p /\ x = Program p (b2 None ops)).
Proof.
  intros. unfold flagged, named. builder.
Qed.
Print Assumptions C82_program.

Theorem C82_for_declaration :
  forall ops,
  builds (fordecl_now (after2 None None ops)) (fun x => exists p, a2 None ops = Some p /\ x = ForDecl p (b2 None ops)).
Proof.
  intros. unfold flagged, named. builder.
Qed.
Print Assumptions C82_for_declaration.

Theorem C82_if_declaration :
  forall ops,
  builds (ifdecl_now (after2 None None ops)) (fun x => exists p, a2 None ops = Some p /\ x = IfDecl p (b2 None ops)).
Proof.
  intros. unfold flagged, named. builder.
Qed.
Print Assumptions C82_if_declaration.

Theorem C82_slice_delimiter :
  forall ops,
  builds (delimiter_now (after2 None None ops)) (fun x => exists p, a2 None ops = Some p /\ x = Delimiter p (b2 None ops)).
Proof.
  intros. unfold flagged, named. builder.
Qed.
Print Assumptions C82_slice_delimiter.

Theorem C82_for_statement :
  forall ops,
  builds (forstatement_now (after3 None None None ops)) (fun x => exists p q r, a3 None ops = Some p /\ b3 None ops = Some q /\ c3 None ops = Some r /\ x = ForStatement p q r).
Proof.
  intros. unfold flagged, named. builder.
Qed.
Print Assumptions C82_for_statement.

Theorem C82_header_variable :
  forall ops,
  builds (headervar_now (after4 false false None [] ops)) (fun x => exists p q, c4 None ops = Some p /\ d4 [] ops = q /\ q <> [] /\ x = HeaderVar (a4 false ops) (b4 false ops) p q).
Proof.
  intros. unfold flagged, named. builder.
Qed.
Print Assumptions C82_header_variable.

(* an operation without suffix on a parenthesised operation is that operation *)
Theorem C82_operation :
  forall ops,
  builds (operation_now (after2 None None ops)) (fun x => exists e, a2 None ops = Some e /\ (match b2 None ops, e with None, OEOperation o => x = o | s, _ => x = Operation e s end)).
Proof.
  intros. rewrite run2. destruct (a2 None ops) as [e|]; [|apply builds_err; [reflexivity|]; intros x (e & E & _); discriminate].
  destruct (b2 None ops) as [t|]; [|destruct e]; (eapply builds_ok; [reflexivity|]; intros x; cbn; split; [intros ->; eexists; split; reflexivity|intros (e' & E & K); injection E as <-; exact K]).
Qed.
Print Assumptions C82_operation.

Example C82_example :
  append_now (after2 None None [A2 (Some (LVName (bs "xs"))); B2 (Some (SAOperation (Operation (OEBool true) None))); A2 (Some (LVName (bs "ys")))]) =
    Ok (Append (LVName (bs "ys")) (SAOperation (Operation (OEBool true) None))) /\
  append_now (after2 None None [A2 (Some (LVName (bs "xs"))); N2; B2 (Some (SAOperation (Operation (OEBool true) None)))]) = Err /\
  operation_now (after2 None None [A2 (Some (OEOperation (Operation (OEName (bs "x")) None)))]) = Ok (Operation (OEName (bs "x")) None).
Proof. repeat split. Qed.

(* ---- C83: alternatives: the first one given, in a fixed order ---- *)
Theorem C83_assignable :
  forall ops,
  builds (assignable_now (after2 None None ops)) (fun x => first_given [option_map ASList (a2 None ops); option_map ASSingle (b2 None ops)] = Some x).
Proof.
  intros. unfold flagged, named. builder.
Qed.
Print Assumptions C83_assignable.

Theorem C83_assignee :
  forall ops,
  builds (assignee_now (after2 None None ops)) (fun x => first_given [option_map AEFirst (a2 None ops); option_map AEName (b2 None ops)] = Some x).
Proof.
  intros. unfold flagged, named. builder.
Qed.
Print Assumptions C83_assignee.

Theorem C83_assignee_name :
  forall ops,
  builds (aname_now (after2 false [] ops)) (fun x => first_given [option_map ANVariable (named (b2 [] ops)); option_map (fun _ => ANSkip) (flagged (a2 false ops))] = Some x).
Proof.
  intros. unfold flagged, named. builder.
Qed.
Print Assumptions C83_assignee_name.

Theorem C83_assignee_name_first :
  forall ops,
  builds (afirst_now (after2 None None ops)) (fun x => first_given [option_map AFDeclaration (a2 None ops); option_map AFName (b2 None ops)] = Some x).
Proof.
  intros. unfold flagged, named. builder.
Qed.
Print Assumptions C83_assignee_name_first.

Theorem C83_direction :
  forall ops,
  builds (direction_now (after2 false false ops)) (fun x => first_given [option_map (fun _ => DBreak) (flagged (a2 false ops)); option_map (fun _ => DContinue) (flagged (b2 false ops))] = Some x).
Proof.
  intros. unfold flagged, named. builder.
Qed.
Print Assumptions C83_direction.

Theorem C83_index_value :
  forall ops,
  builds (ivalue_now (after2 None [] ops)) (fun x => first_given [option_map IVValue (a2 None ops); option_map IVName (named (b2 [] ops))] = Some x).
Proof.
  intros. unfold flagged, named. builder.
Qed.
Print Assumptions C83_index_value.

Theorem C83_list_value :
  forall ops,
  builds (lvalue_now (after2 None [] ops)) (fun x => first_given [option_map LVAssignables (a2 None ops); option_map LVName (named (b2 [] ops))] = Some x).
Proof.
  intros. unfold flagged, named. builder.
Qed.
Print Assumptions C83_list_value.

Theorem C83_total_list_value :
  forall ops,
  builds (totalvalue_now (after2 None [] ops)) (fun x => first_given [option_map TVAssignable (a2 None ops); option_map TVName (named (b2 [] ops))] = Some x).
Proof.
  intros. unfold flagged, named. builder.
Qed.
Print Assumptions C83_total_list_value.

Theorem C83_total_list_assignable :
  forall ops,
  builds (totallist_now (after3 None None None ops)) (fun x => first_given [option_map TLValue (a3 None ops); option_map TLSlice (b3 None ops); option_map TLAppend (c3 None ops)] = Some x).
Proof.
  intros. unfold flagged, named. builder.
Qed.
Print Assumptions C83_total_list_assignable.

Theorem C83_single_assignable :
  forall ops,
  builds (single_now (after4 None None None None ops)) (fun x => first_given [option_map SADeclarable (a4 None ops); option_map SAOperation (b4 None ops); option_map SAExtract (c4 None ops); option_map SAFetch (d4 None ops)] = Some x).
Proof.
  intros. unfold flagged, named. builder.
Qed.
Print Assumptions C83_single_assignable.

Theorem C83_operation_element :
  forall ops,
  builds (element_now (after5 ops)) (fun x => first_given [option_map OEBool (a5 None ops); option_map OEName (b5 None ops); option_map OEValue (c5 None ops); option_map OECall (e5 None ops); option_map OEOperation (d5 None ops)] = Some x).
Proof.
  intros. unfold flagged, named. builder.
Qed.
Print Assumptions C83_operation_element.

Theorem C83_instruction :
  forall ops,
  builds (instruction_now (after7 ops)) (fun x => first_given [option_map IAssignment (a7 None ops); option_map IDeclaration (b7 None ops); option_map IIf (c7 None ops); option_map IFor (d7 None ops); option_map ICall (e7 None ops); option_map IDirection (f7 None ops); option_map IIncrement (g7 None ops)] = Some x).
Proof.
  intros. unfold flagged, named. builder.
Qed.
Print Assumptions C83_instruction.

Theorem C83_void_func_call :
  forall ops,
  builds (voidcall_now (after1 None ops)) (fun x => first_given [option_map VCLog (a1 None ops)] = Some x).
Proof.
  intros. unfold flagged, named. builder.
Qed.
Print Assumptions C83_void_func_call.

Theorem C83_operation_func_call :
  forall ops,
  builds (opcall_now (after1 None ops)) (fun x => first_given [option_map OCNull (a1 None ops)] = Some x).
Proof.
  intros. unfold flagged, named. builder.
Qed.
Print Assumptions C83_operation_func_call.

Example C83_example :
  instruction_now (after7 [F7 (Some DBreak); B7 (Some (VarDecl (BType 0 8) (bs "x")))]) = Ok (IDeclaration (VarDecl (BType 0 8) (bs "x"))) /\
  aname_now (after2 false [] [A2 true; B2 (bs "x")]) = Ok (ANVariable (bs "x")) /\ aname_now (after2 false [] [B2 (bs "x"); N2]) = Err.
Proof. repeat split. Qed.

(* ---- C84: lists ---- *)
(* assignee names, first assignee names, header variables and instructions: one or more *)
Theorem C84_one_or_more :
  forall A (ops : list (op1 (option (list A)))),
  builds (nonempty_now (after1 None ops)) (fun x => a1 None ops = Some x /\ x <> []).
Proof.
  intros. rewrite run1. destruct (a1 None ops) as [[|y l]|].
  - apply builds_err; [reflexivity|]. intros x [E N]. inversion E. congruence.
  - eapply builds_ok; [reflexivity|]. intros x. split; [intros ->; split; [reflexivity|discriminate]|intros [E _]; congruence].
  - apply builds_err; [reflexivity|]. intros x [E N]. discriminate.
Qed.
Print Assumptions C84_one_or_more.

(* assignables: any number, none when nothing is given *)
Theorem C84_assignables :
  forall ops,
  assignables_now (after1 None ops) = Ok (match a1 None ops with Some l => l | None => [] end).
Proof. intros. rewrite run1. reflexivity. Qed.
Print Assumptions C84_assignables.

(* variable declarations: the test for an empty list never holds, an empty list passes *)
Theorem C84_variable_declarations :
  forall ops,
  builds (vardecls_now (after1 None ops)) (fun x => a1 None ops = Some x).
Proof. intros. builder. Qed.
Print Assumptions C84_variable_declarations.
Theorem C84_variable_declarations_are_not_empty_refuted :
  exists ops, vardecls_now (after1 None ops) = Ok [].
Proof. exists [A1 (Some [])]. reflexivity. Qed.
Print Assumptions C84_variable_declarations_are_not_empty_refuted.
Example C84_example : nonempty_now (after1 None [A1 (Some [ANSkip]); A1 (Some [ANVariable (bs "x"); ANSkip])]) = Ok [ANVariable (bs "x"); ANSkip] /\ nonempty_now (after1 None [A1 (Some (@nil aname))]) = Err.
Proof. repeat split. Qed.

(* ---- C85: types and values ---- *)
Theorem C85_type :
  forall ops,
  builds (type_now (after2 0%N None ops)) (fun x => exists f, b2 None ops = Some f /\ x = BType (a2 0%N ops) f).
Proof. intros. builder. Qed.
Print Assumptions C85_type.
Theorem C85_types_compare :
  forall a b, type_compare a b = Ok tt <-> a = b.
Proof.
  intros [d f] [d' f']. unfold type_compare. cbn. destruct (N.eqb_spec d d'), (N.eqb_spec f f'); cbn; subst; split; intros; try congruence; try reflexivity; discriminate.
Qed.
Print Assumptions C85_types_compare.
(* a value with a type needs an element; without a type it is of the last of the five kinds
   that was given, in the order uint, int, float, bool, string, whatever the order of the calls *)
Theorem C85_value :
  forall ops, no_now ops ->
  builds (fst (vb_now (run vb_step vb_init ops))) (fun x =>
    match last_type ops with
    | Some t => exists e, last_element ops = Some e /\ x = BValue t e
    | None => first_given [option_map string_value (last_string ops); option_map bool_value (last_bool ops); option_map float_value (last_float ops); option_map int_value (last_int ops); option_map uint_value (last_uint ops)] = Some x
    end).
Proof.
  intros ops H. rewrite (vb_run ops H). unfold vb_now. cbn [vb_typ vb_element vb_uint vb_int vb_float vb_bool vb_str].
  destruct (last_type ops) as [t|].
  - destruct (last_element ops) as [e|]; cbn [fst].
    + eapply builds_ok; [reflexivity|]. intros x. split; [intros ->; eauto|intros (e' & E & ->); congruence].
    + apply builds_err; [reflexivity|]. intros x (e' & E & _). discriminate.
  - destruct (last_string ops), (last_bool ops), (last_float ops), (last_int ops), (last_uint ops);
    first [eapply builds_ok; [reflexivity|]; intros x; cbn; split; [intros ->; reflexivity|intros E; injection E as <-; reflexivity]|apply builds_err; [reflexivity|]; intros x; discriminate].
Qed.
Print Assumptions C85_value.
(* once Now has succeeded, every later Now returns the same value, unless the builder is
   restarted or its type or element are given *)
Theorem C85_now_fixes_the_value :
  forall before after v,
  fst (vb_now (run vb_step vb_init before)) = Ok v -> Forall keeps after ->
  fst (vb_now (run vb_step vb_init (before ++ VBNow :: after))) = Ok v.
Proof.
  intros before after v E F. destruct (vb_now_after _ _ E) as [T L]. unfold run in *. rewrite fold_left_app. cbn [fold_left vb_step].
  destruct (vb_keeps after _ _ _ T L F) as [T' L']. unfold run in *. rewrite (vb_now_typed _ _ _ T' L'). destruct v; reflexivity.
Qed.
Print Assumptions C85_now_fixes_the_value.
(* so a value given after a first Now is lost *)
Theorem C85_a_later_value_is_used_refuted :
  exists ops w, last_string ops = Some w /\ last_type ops = None /\ fst (vb_now (run vb_step vb_init ops)) = Ok (uint_value 1).
Proof. exists [VBUint 1; VBNow; VBString (bs "a")], (bs "a"). repeat split. Qed.
Print Assumptions C85_a_later_value_is_used_refuted.
Example C85_example :
  fst (vb_now (run vb_step vb_init [VBString (bs "a"); VBUint 7])) = Ok (string_value (bs "a")) /\
  fst (vb_now (run vb_step vb_init [VBBool false; VBCreate; VBInt (-3)])) = Ok (int_value (-3)) /\
  fst (vb_now (run vb_step vb_init [VBType (Some (BType 2 4)); VBUint 7])) = Err.
Proof. repeat split. Qed.
