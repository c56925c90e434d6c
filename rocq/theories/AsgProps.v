(* AsgProps.v - C107: an assignment says which value goes to which name. *)
From Coq Require Import Strings.String Strings.Byte Lia.
From Verif Require Import Go GoLemmas DomainModel PathModel LexModel AstModel TextModel AppModel AppSpec AppProps GramModel RootModel BaseModel BaseSpec EvtModel PickSpec OrdSpec ProgSpec ListSpec LitSpec AsgSpec AsgProofs7.
Open Scope list_scope.

(* Read with the shipped language as a program, a text that is one assignment - a declared name and
   a colon, a name, or an underscore; an equal sign; a literal that is not true or false, or a word;
   with any blanks between them - is accepted up to its last byte and its tree is the one of
   AsgSpec.  Executed on that tree, the base events give a program of that one assignment: to the
   name of that type, or to that name, or to nothing, of the value the literal stands for, or of the
   list the word names.  A number that does not fit the bits asked for is an error.  Nothing else
   comes out, in whatever order Go's maps are walked. *)
Theorem C107_assignments_mean_what_is_written :
  forall rules_file tokens_file order lex_fuel fuel bitsize parse_float a x s,
  an_order order -> good_setting a -> bitsize <> 1%N ->
  tx_prefix x = false -> tx_content x = setting_text a -> (length (tx_content x) + 2) * 22 <= lex_fuel ->
  exists k r,
    fst (app_ast rules_file tokens_file order lex_fuel fuel [] {| rt_root := bs "program"; rt_rest := {| mu_container := base_texts; mu_channels := base_channels |} |} x) = Ok (ASuccess k) /\
    drawn k = alone_shape a /\ at_discovery k = setting_text a /\
    fst (to_root k s) = Ok (Some r) /\
    forall o, app_execute (base_events bitsize parse_float) r o <->
      o = match setting_value bitsize parse_float a with Some y => Ok (VObj (OProgram (Program [IAssignment y] None))) | None => Err end.
Proof.
  intros rf tf order lf f bz pf a x s O G B Hx Es Hf. destruct (setting_executes rf tf order O lf f bz pf "program" _ _ a x s B (or_introl eq_refl) G Hx Es Hf) as (k & r & H1 & H2 & H3 & H4 & H5).
  exists k, r. do 4 (split; [assumption|]). intros o. rewrite H5. destruct (setting_value bz pf a); reflexivity.
Qed.
Print Assumptions C107_assignments_mean_what_is_written.

(* the same text read as an assignment *)
Theorem C107_assignments_alone :
  forall rules_file tokens_file order lex_fuel fuel bitsize parse_float a x s,
  an_order order -> good_setting a -> bitsize <> 1%N ->
  tx_prefix x = false -> tx_content x = setting_text a -> (length (tx_content x) + 2) * 22 <= lex_fuel ->
  exists k r,
    fst (app_ast rules_file tokens_file order lex_fuel fuel [] {| rt_root := bs "assignment"; rt_rest := {| mu_container := base_texts; mu_channels := base_channels |} |} x) = Ok (ASuccess k) /\
    drawn k = setting_shape a /\ at_discovery k = setting_text a /\
    fst (to_root k s) = Ok (Some r) /\
    forall o, app_execute (base_events bitsize parse_float) r o <->
      o = match setting_value bitsize parse_float a with Some y => Ok (VObj (OAssignment y)) | None => Err end.
Proof.
  intros rf tf order lf f bz pf a x s O G B Hx Es Hf. destruct (setting_executes rf tf order O lf f bz pf "assignment" _ _ a x s B (or_intror (or_introl eq_refl)) G Hx Es Hf) as (k & r & H1 & H2 & H3 & H4 & H5).
  exists k, r. do 4 (split; [assumption|]). intros o. rewrite H5. destruct (setting_value bz pf a); reflexivity.
Qed.
Print Assumptions C107_assignments_alone.

(* true and false are not truth values there: whatever they are assigned to, the program that comes
   out assigns the list of that name *)
Theorem C107_true_is_the_name_of_a_list :
  forall rules_file tokens_file order lex_fuel fuel bitsize parse_float a (b : bool) x s,
  an_order order -> good_setting a -> st_given a = GWord (if b then bs "true" else bs "false") -> bitsize <> 1%N ->
  tx_prefix x = false -> tx_content x = setting_text a -> (length (tx_content x) + 2) * 22 <= lex_fuel ->
  exists k r,
    fst (app_ast rules_file tokens_file order lex_fuel fuel [] {| rt_root := bs "program"; rt_rest := {| mu_container := base_texts; mu_channels := base_channels |} |} x) = Ok (ASuccess k) /\
    fst (to_root k s) = Ok (Some r) /\
    forall o, app_execute (base_events bitsize parse_float) r o <->
      o = Ok (VObj (OProgram (Program [IAssignment (Assignment (target_value a) [ASList (TLValue (LVName (if b then bs "true" else bs "false")))])] None))).
Proof.
  intros rf tf order lf f bz pf a b x s O G E B Hx Es Hf. destruct (C107_assignments_mean_what_is_written rf tf order lf f bz pf a x s O G B Hx Es Hf) as (k & r & H1 & _ & _ & H4 & H5).
  exists k, r. split; [exact H1|]. split; [exact H4|]. intros o. rewrite H5. unfold setting_value. rewrite E. reflexivity.
Qed.
Print Assumptions C107_true_is_the_name_of_a_list.

(* A name that starts with the name of a type is declared without it, blank or no blank: "integer"
   before a colon and an equal sign is the declaration of "eger" as an int. *)
Theorem C107_no_blank_after_a_type :
  forall rules_file tokens_file order lex_fuel fuel bitsize parse_float t w v x s y,
  an_order order -> is_name w -> ~ In w reserved -> good_given v -> given_value bitsize parse_float v = Some y -> bitsize <> 1%N ->
  tx_prefix x = false -> tx_content x = type_text t ++ w ++ bs ":=" ++ given_text v -> (length (tx_content x) + 2) * 22 <= lex_fuel ->
  exists k r,
    fst (app_ast rules_file tokens_file order lex_fuel fuel [] {| rt_root := bs "program"; rt_rest := {| mu_container := base_texts; mu_channels := base_channels |} |} x) = Ok (ASuccess k) /\
    fst (to_root k s) = Ok (Some r) /\
    forall o, app_execute (base_events bitsize parse_float) r o <->
      o = Ok (VObj (OProgram (Program [IAssignment (Assignment (AEFirst [AFDeclaration (VarDecl (BType 0 (type_value t)) w)]) [y])] None))).
Proof.
  intros rf tf order lf f bz pf t w v x s y O W N G E B Hx Es Hf.
  destruct (C107_assignments_mean_what_is_written rf tf order lf f bz pf (Setting (TTyped t [] w) [] (Some []) [] v) x s O) as (k & r & H1 & _ & _ & H4 & H5).
  - split; [cbn; repeat split; [constructor|exact W|exact N]|]. repeat (split; [constructor|]). exact G.
  - exact B.
  - exact Hx.
  - rewrite Es. unfold setting_text. cbn [target_text st_target st_before st_colon st_after st_given colon_text app]. rewrite <- !app_assoc. reflexivity.
  - exact Hf.
  - exists k, r. split; [exact H1|]. split; [exact H4|]. intros o. rewrite H5. unfold setting_value. cbn [st_given]. rewrite E. reflexivity.
Qed.
Print Assumptions C107_no_blank_after_a_type.

(* for instance "int count : = 12", "total=-  3", "_ = bar" and, for 8 bits, "total := 300" *)
Definition some_settings : list setting :=
  [Setting (TTyped SInt (bs " ") (bs "count")) (bs " ") (Some (bs " ")) (bs " ") (GLiteral (LNatural (bs "12")));
   Setting (TNamed (bs "total")) [] None [] (GLiteral (LNegative (bs "  ") (bs "3")));
   Setting TSkipped (bs " ") None (bs " ") (GWord (bs "bar"));
   Setting (TNamed (bs "total")) (bs " ") (Some []) (bs " ") (GLiteral (LNatural (bs "300")))].
Definition any_float (w : bytes) (b : N) : option N := Some 7%N.
Example C107_assignments_example :
  Forall good_setting some_settings /\
  map setting_text some_settings = [bs "int count : = 12"; bs "total=-  3"; bs "_ = bar"; bs "total := 300"] /\
  map (setting_value 8 any_float) some_settings =
    [Some (Assignment (AEFirst [AFDeclaration (VarDecl (BType 0 (type_value SInt)) (bs "count"))]) [ASSingle (SADeclarable (uint_value 12))]);
     Some (Assignment (AEName [ANVariable (bs "total")]) [ASSingle (SADeclarable (int_value (-3)))]);
     Some (Assignment (AEName [ANSkip]) [ASList (TLValue (LVName (bs "bar")))]);
     None] /\
  is_name (bs "eger") /\ ~ In (bs "eger") reserved /\ type_text SInt ++ bs "eger" ++ bs ":=" ++ bs "5" = bs "integer:=5".
Proof.
  assert (B : forall a l, forallb (fun b => existsb (Byte.eqb b) a) l = true -> Forall (fun b => In b a) l).
  { intros a l H. apply Forall_forall. intros b I. rewrite forallb_forall in H. specialize (H b I). apply existsb_exists in H. destruct H as (y & J & E). apply Byte.byte_dec_bl in E. subst. exact J. }
  assert (D : forall w, w <> [] -> forallb (fun b => existsb (Byte.eqb b) digits) w = true -> is_digits w) by (intros w N H; split; [exact N|apply B, H]).
  assert (W : forall a v, existsb (Byte.eqb a) lower = true -> v <> [] -> forallb (fun b => existsb (Byte.eqb b) (lower ++ upper)) v = true -> is_name (a :: v)).
  { intros a v H N F. exists a, v. split; [reflexivity|]. split; [|split; [exact N|apply B, F]]. apply existsb_exists in H. destruct H as (y & J & E). apply Byte.byte_dec_bl in E. subst. exact J. }
  assert (R : ~ In (bs "count") reserved /\ ~ In (bs "eger") reserved) by (split; intros H; cbn in H; intuition discriminate).
  assert (T : forall o, In o type_openers -> ~ exists v, bs "total" = o ++ v) by (intros o H [v E]; cbn in H; repeat (destruct H as [<-|H]; [discriminate E|]); destruct H).
  split; [|split; [|split; [|split; [|split]]]].
  - unfold some_settings. repeat (apply Forall_cons); [| | | |constructor]; unfold good_setting; cbn [st_target st_before st_colon st_after st_given good_target good_given good_literal].
    + split; [split; [apply B; reflexivity|split; [apply W; [reflexivity|discriminate|reflexivity]|apply R]]|]. split; [apply B; reflexivity|]. split; [apply B; reflexivity|]. split; [apply B; reflexivity|]. split; [apply D; [discriminate|reflexivity]|discriminate].
    + split; [split; [apply W; [reflexivity|discriminate|reflexivity]|exact T]|]. split; [apply B; reflexivity|]. split; [discriminate|]. split; [apply B; reflexivity|]. split; [split; [apply B; reflexivity|apply D; [discriminate|reflexivity]]|discriminate].
    + split; [exact I|]. split; [apply B; reflexivity|]. split; [discriminate|]. split; [apply B; reflexivity|]. apply W; [reflexivity|discriminate|reflexivity].
    + split; [split; [apply W; [reflexivity|discriminate|reflexivity]|exact T]|]. split; [apply B; reflexivity|]. split; [constructor|]. split; [apply B; reflexivity|]. split; [apply D; [discriminate|reflexivity]|discriminate].
  - reflexivity.
  - vm_compute. reflexivity.
  - apply W; [reflexivity|discriminate|reflexivity].
  - apply R.
  - reflexivity.
Qed.
Print Assumptions C107_assignments_example.
