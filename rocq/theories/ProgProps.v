(* ProgProps.v - property theorem C100: programs, from their text to what they stand for.
   program_text and program_value are defined in ProgSpec.v. *)
From Coq Require Import Strings.String Strings.Byte Sorting.Permutation Lia.
From Verif Require Import Go GoLemmas DomainModel RuleModel PathModel LexModel CardModel AstModel TextModel SuiteModel AppModel GramModel RootModel ParseModel BaseModel BaseSpec EvtModel EvtSpec EvtProofs EvtProofs2 EvtProofs3 EvtProofs5 EvtProps OrdSpec OrdProofs2 RootProofs AdeqSpec AdeqProps ProgSpec ProgProofs10 RootSpec.
Open Scope string_scope.
Open Scope list_scope.

(* Parser.AST accepts the whole text, ToRoot gives a root, and Execute gives the program *)
Theorem C100_program_executes :
  forall rules_file tokens_file order lex_fuel fuel bitsize parse_float hs l x s,
  an_order order -> tx_prefix x = false -> (length (tx_content x) + 2) * 22 <= lex_fuel -> program_text hs l (tx_content x) ->
  exists a r,
    fst (app_ast rules_file tokens_file order lex_fuel fuel [] {| rt_root := bs "program"; rt_rest := {| mu_container := base_texts; mu_channels := base_channels |} |} x) = Ok (ASuccess a) /\
    at_discovery a = tx_content x /\ fst (to_root a s) = Ok (Some r) /\
    forall o, app_execute (base_events bitsize parse_float) r o <-> o = Ok (VObj (OProgram (program_value hs l))).
Proof. intros rf tf order lf f b pf hs l x s O. exact (program_executes rf tf order O lf f b pf hs l x s). Qed.
Print Assumptions C100_program_executes.

(* a text is the text of one program only *)
Theorem C100_text_means_one_program :
  forall hs l hs' l' s, program_text hs l s -> program_text hs' l' s -> program_value hs l = program_value hs' l'.
Proof.
  intros hs l hs' l' s P P'. set (x := {| tx_content := s; tx_prefix := false; tx_suffix := false |}).
  destruct (program_executes no_files no_files in_order (fun l _ => Permutation_refl l) ((length s + 2) * 22) 1 32 (fun _ _ => None) hs l x [] eq_refl (le_n _) P) as (a & r & Ha & _ & Hr & H).
  destruct (program_executes no_files no_files in_order (fun l _ => Permutation_refl l) ((length s + 2) * 22) 1 32 (fun _ _ => None) hs' l' x [] eq_refl (le_n _) P') as (a' & r' & Ha' & _ & Hr' & H').
  rewrite Ha in Ha'. injection Ha' as <-. rewrite Hr in Hr'. injection Hr' as <-.
  assert (K := proj1 (H' _) (proj2 (H _) eq_refl)). congruence.
Qed.
Print Assumptions C100_text_means_one_program.

(* ---- a case ---- *)
Definition a_program : string := "->uint ab:key_x
<- float  cD:out?
int  count
count++ break
 aB--
aB--".
Definition nl : byte := x0a.
Definition a_headers : list hdr :=
  [{| h_input := true; h_gap := []; h_type := SUint; h_space := bs " "; h_name := bs "ab"; h_key := bs "key_x"; h_optional := false |};
   {| h_input := false; h_gap := bs " "; h_type := SFloat; h_space := bs "  "; h_name := bs "cD"; h_key := bs "out"; h_optional := true |}].
Definition a_body : list stmt := [SDeclare SInt (bs "  ") (bs "count"); SUp (bs "count"); SBreak; SDown (bs "aB"); SDown (bs "aB")].
Definition all_in (l w : bytes) : bool := forallb (fun b => existsb (Byte.eqb b) l) w.
Lemma all_in_ok l w : all_in l w = true -> Forall (fun b => In b l) w.
Proof. intros H. apply Forall_forall. intros b Ib. unfold all_in in H. rewrite forallb_forall in H. assert (Hb := H b Ib). apply existsb_exists in Hb. destruct Hb as (c & Ic & E). apply Byte.byte_dec_bl in E. subst c. exact Ic. Qed.
Ltac letters := apply all_in_ok; vm_compute; reflexivity.
Ltac gap := split; [discriminate|letters].
Lemma name_ok a v : all_in lower [a] = true -> v <> [] -> all_in (lower ++ upper) v = true -> is_name (a :: v).
Proof. intros A N V. exists a, v. split; [reflexivity|]. split; [exact (Forall_inv (all_in_ok _ _ A))|]. split; [exact N|apply all_in_ok, V]. Qed.
Ltac name := apply name_ok; [vm_compute; reflexivity|discriminate|vm_compute; reflexivity].
Ltac apart := vm_compute; intros H; repeat (destruct H as [H|H]; [discriminate H|]); exact H.
Ltac away := let o := fresh in let Io := fresh in let v := fresh in let Ev := fresh in intros o Io (v & Ev); vm_compute in Io; repeat (destruct Io as [<-|Io]; [discriminate Ev|]); destruct Io.
Lemma a_program_text : program_text a_headers a_body (bs a_program).
Proof.
  split; [|split; [discriminate|split; [|split]]].
  - change (bs a_program) with (hdr_text (nth 0 a_headers (Hdr true [] SInt [] [] [] true)) ++ [nl] ++ hdr_text (nth 1 a_headers (Hdr true [] SInt [] [] [] true)) ++ [nl] ++ bs "int  count" ++ [nl] ++ bs "count++" ++ bs " " ++ bs "break" ++ [nl; x20] ++ bs "aB--" ++ [nl] ++ bs "aB--").
    do 6 (apply wr_more; [gap|]). apply wr_one.
  - apply Forall_cons; [|apply Forall_cons; [|apply Forall_nil]]; unfold good_hdr; cbn [h_gap h_space h_name h_key nth].
    + split; [letters|]. split; [gap|]. split; [name|]. split; [apart|gap].
    + split; [letters|]. split; [gap|]. split; [name|]. split; [apart|gap].
  - constructor; [split; [gap|split; [name|apart]]|].
    constructor; [split; [name|away]|]. constructor; [exact I|]. do 2 (constructor; [split; [name|away]|]). constructor.
  - intros x l' E. injection E as <- <-. apart.
Qed.
Example C100_case : forall parse_float order, an_order order -> exists a r,
  fst (app_ast no_files no_files order 2500 1 [] {| rt_root := bs "program"; rt_rest := {| mu_container := base_texts; mu_channels := base_channels |} |} {| tx_content := bs a_program; tx_prefix := false; tx_suffix := false |}) = Ok (ASuccess a) /\
  fst (to_root a []) = Ok (Some r) /\
  forall o, app_execute (base_events 64 parse_float) r o <-> o = Ok (VObj (OProgram (Program
    [IDeclaration (VarDecl (BType 0 TypeIntegerFlag) (bs "count")); IIncrement (Increment (bs "count") (int_value 1)); IDirection DBreak; IIncrement (Increment (bs "aB") (int_value (-1))); IIncrement (Increment (bs "aB") (int_value (-1)))]
    (Some [HeaderVar true true (VarDecl (BType 0 (TypeIntegerFlag + TypeUnsignedFlag)%N) (bs "ab")) (bs "key_x"); HeaderVar false false (VarDecl (BType 0 TypeFloatFlag) (bs "cD")) (bs "out")])))).
Proof.
  intros f order O. assert (F : Nat.leb ((length (bs a_program) + 2) * 22) 2500 = true) by (vm_compute; reflexivity). apply Nat.leb_le in F.
  destruct (program_executes no_files no_files order O 2500 1 64 f a_headers a_body {| tx_content := bs a_program; tx_prefix := false; tx_suffix := false |} [] eq_refl F a_program_text) as (a & r & Ha & _ & Hr & H).
  exists a, r. split; [exact Ha|]. split; [exact Hr|]. exact H.
Qed.
Print Assumptions C100_case.

(* ---- the first instruction may not occur again ---- *)
Definition break_root : root := Root (bs "break") (bs "direction") [part_node ("BREAK", [T (bs "break")])].
Definition second_break : root := Root (nl :: bs "break") (bs "instruction") [part_node ("WHITESPACES", [T [nl]]); part_node ("direction", [K break_root])].
Definition breaks : root := Root (bs "break" ++ nl :: bs "break") (bs "instructions") [part_node ("instruction", [K break_root; K second_break])].
Definition breaks_root : root := Root (bs "break" ++ nl :: bs "break") (bs "program") [part_node ("instructions", [K breaks])].
Lemma breaks_check : match shipped_ast "program" "break
break" with Ok (ASuccess a) => fst (to_root a []) | _ => Err end = Ok (Some breaks_root).
Proof. vm_compute. reflexivity. Qed.
Lemma breaks_whole : case_check "program" "break
break" (fun _ _ => true) = true.
Proof. vm_compute. reflexivity. Qed.
Lemma only_fails (evs : events obj) n q ps r : ro_nodes r = [part_node (n, K q :: ps)] -> (forall x, execute_events evs (bs n) q x <-> x = Err) -> forall x, trigger evs (bs n) r x <-> x = Err.
Proof.
  intros Er E.
  assert (F : forall x, fetch_or_execute evs (bs n) (part_container n (K q)) x <-> x = Err).
  { intros x. split; [intros H; inversion H as [X|q' p Hq He]; subst; [discriminate X|injection Hq as <-; apply E, He]|intros ->; eapply fe_root; [reflexivity|apply E; reflexivity]]. }
  assert (N : forall s, scan_nodes (bs n) (ro_nodes r) s <-> s = SFound (FNode (part_node (n, K q :: ps)))).
  { intros s. rewrite Er. split.
    - intros Hs. inversion Hs as [? l' ? Pm Hl]; subst. eapply list_exact; [exact Hl|eapply Permutation_in; [exact Pm|left; reflexivity]|reflexivity|]. intros y Hy. apply (Permutation_in _ (Permutation_sym Pm)) in Hy. destruct Hy as [<-|[]]. left. reflexivity.
    - intros ->. apply scan_first; [left; reflexivity|reflexivity]. }
  assert (L : forall x, event_list evs (bs n) (no_list (part_node (n, K q :: ps))) x <-> x = Err).
  { intros x. split; [|intros ->; apply el_err, F; reflexivity]. intros H. inversion H as [|? ? ? ? ? Hf He|? ? Hf|? ? Hf]; subst; [apply F in Hf; discriminate|reflexivity|apply F in Hf; discriminate]. }
  intros x. split.
  - intros H. inversion H as [Hs|Hs|? ? Hs He|? ? Hs He|? ? Hs He]; subst; apply N in Hs; try discriminate. injection Hs as ->. apply L in He. subst. reflexivity.
  - intros ->. exact (tr_node evs (bs n) r _ Err (proj2 (N _) eq_refl) (proj2 (L Err) eq_refl)).
Qed.
Lemma first_fails bitsize parse_float m n b k r : body_of bitsize parse_float (bs m) = Some b -> b r = Trigger (bs n) k ->
  (forall x, trigger (base_events bitsize parse_float) (bs n) r x <-> x = Err) -> forall x, execute_events (base_events bitsize parse_float) (bs m) r x <-> x = Err.
Proof.
  intros Eb Ek T x. rewrite base_fix, Eb, Ek. split.
  - intros (o & H & _ & ->). inversion H as [|? ? ? ? Ht|? ? Ht|? ? Ht]; subst; [apply T in Ht; discriminate|reflexivity|apply T in Ht; discriminate].
  - intros ->. exists Err. split; [apply rn_err, T; reflexivity|split; [discriminate|reflexivity]].
Qed.
Lemma breaks_fail bitsize parse_float : forall o, app_execute (base_events bitsize parse_float) breaks_root o <-> o = Err.
Proof.
  assert (E1 : forall x, execute_events (base_events bitsize parse_float) (bs "instruction") break_root x <-> x = Err).
  { intros x. rewrite base_fix. change (body_of bitsize parse_float (bs "instruction")) with (Some ev_instruction).
    assert (Q : ev_instruction break_root = Ret Err) by (vm_compute; reflexivity). cbv beta iota. rewrite Q.
    split; [intros (q & H & _ & ->); inversion H; subst; reflexivity|intros ->; exists Err; split; [apply rn_ret|split; [discriminate|reflexivity]]]. }
  assert (E2 := only_fails _ "instruction" break_root [K second_break] breaks eq_refl E1).
  assert (E3 := first_fails bitsize parse_float "instructions" "instruction" ev_instructions _ breaks eq_refl eq_refl E2).
  assert (E4 := only_fails _ "instructions" breaks [] breaks_root eq_refl E3).
  assert (E5 := first_fails bitsize parse_float "program" "instructions" ev_program _ breaks_root eq_refl eq_refl E4).
  intros o. rewrite execute_outcomes. change (ro_name breaks_root) with (bs "program"). split.
  - intros (x & Hx & ->). apply E5 in Hx. subst x. reflexivity.
  - intros ->. exists Err. split; [apply E5; reflexivity|reflexivity].
Qed.
(* every other demand of program_text is met: break, a new line, break *)
Theorem C100_repeated_first_instruction_refuted :
  forall bitsize parse_float, exists a r,
  written (map stmt_text [SBreak; SBreak]) (bs "break
break") /\ Forall good_stmt [SBreak; SBreak] /\
  shipped_ast "program" "break
break" = Ok (ASuccess a) /\ at_discovery a = bs "break
break" /\ fst (to_root a []) = Ok (Some r) /\ forall o, app_execute (base_events bitsize parse_float) r o <-> o = Err.
Proof.
  intros b f. destruct (case_ok _ _ _ breaks_whole) as (u & a & Hu & Ha & Ed & _). assert (R := breaks_check). rewrite Ha in R.
  exists a, breaks_root. split; [apply (wr_more (bs "break") [nl] [bs "break"] (bs "break")); [gap|apply wr_one]|]. split; [repeat constructor|]. split; [exact Ha|]. split; [exact Ed|]. split; [exact R|apply breaks_fail].
Qed.
Print Assumptions C100_repeated_first_instruction_refuted.
