(* ShapeProofs2.v - proofs for ProgProps.v: the shape of the shipped program token and of the channels. *)
From Coq Require Import Strings.String Strings.Byte Lia.
From Verif Require Import Go GoLemmas DomainModel DomainSpec CardModel CardSpec PatModel PatSpec RuleModel RuleSpec PathModel PathSpec LexModel LexSpec TextModel AppModel AppSpec GramModel SuiteSpec OrdSpec OrdProofs2 AdeqProofs8 PickSpec LetterProofs ShapeProofs ProgSpec.
Open Scope list_scope.

Definition word (n c : string) (k : cardinality) : shape := HRule (WConst (bs n) (bs c)) k.
Definition one := CMandatory.
Definition tk (n : string) (ls : list (list shape)) : shape := HTok (bs n) ls one.
Definition sh_name : shape := tk "variableName" [[HSwitch; HRule (WClass (bs "FIRST_LETTER") lower (Some 1%N)) one; HRule (WClass (bs "MIN_MAJ_LETTERS") (lower ++ upper) None) one]].
Definition sh_primitive : shape := tk "primitiveType" [[word "BOOL" "bool" one]; [word "STRING" "string" one]].
Definition sh_computable : shape := tk "computableType" [[word "FLOAT" "float" one]; [word "UINT" "uint" one]; [word "INT" "int" one]].
Definition sh_type : shape := tk "declarativeType" [[sh_primitive]; [sh_computable]; [HHeads [bs "list"]]].
Definition sh_decl : shape := tk "variableDeclaration" [[sh_type; sh_name]].
Definition sh_assignee_name : shape := tk "assigneeName" [[sh_name]; [word "UNDERSCORE" "_" one]].
Definition sh_first : shape := tk "assigneeNameFirst" [[sh_decl]; [sh_assignee_name]].
Definition sh_firsts : shape := tk "assigneeNameFirsts" [[sh_first; HTok (bs "commaAssigneeFirst") [[word "COMMA" "," one; HRest]] CZero]].
Definition sh_names : shape := tk "assigneeNames" [[sh_assignee_name; HTok (bs "commaAssigneeName") [[word "COMMA" "," one; HRest]] CZero]].
Definition sh_assignee : shape := tk "assignee" [[sh_firsts; word "COLON" ":" one; word "EQUAL" "=" one]; [sh_names; word "EQUAL" "=" one]].
Definition sh_assignment : shape := tk "assignment" [[sh_assignee; HRest]].
Definition sh_by : shape := tk "intIncrementValue" [[word "PLUS" "+" one; word "PLUS" "+" one]; [word "MINUS" "-" one; word "MINUS" "-" one]].
Definition sh_increment : shape := tk "intIncrement" [[sh_name; sh_by]].
Definition sh_direction : shape := tk "direction" [[word "BREAK" "break" one]; [word "CONTINUE" "continue" one]].
Definition sh_instruction : list (list shape) := [[sh_assignment]; [sh_decl]; [HHeads [bs "if"]]; [HHeads [bs "for"]]; [HHeads [bs "log"]]; [sh_direction]; [sh_increment]].
Definition sh_instructions : shape := tk "instructions" [[HTok (bs "instruction") sh_instruction CNonZero]].
Definition sh_way : shape := tk "inputOutput" [[word "RIGHT_ARROW" "->" one]; [word "LEFT_ARROW" "<-" one]].
Definition sh_header : list (list shape) := [[sh_way; sh_decl; word "COLON" ":" one; HRule (WClass (bs "KEYNAME_PATTERN") (lower ++ [x5f]) None) one; word "QUESTION_MARK" "?" COptional]].
Definition sh_headers : shape := HTok (bs "headerVariables") [[HTok (bs "headerVariable") sh_header CNonZero]] COptional.
Definition sh_program : shape := tk "program" [[sh_headers; sh_instructions]].

Definition shape_check (u : table token * list (bytes * option (list bytes))) (n : string) (s : shape) : bool :=
  match find (fun t => bytes_eqb (t_name t) (bs n)) (table_all (fst u)) with
  | Some t => match path_for (fst u) none none t with Ok p => has_b s (ICont (PToken (pa_element p) [] CMandatory)) | _ => false end
  | None => false
  end.
Lemma shape_checked u n s : shape_check u n s = true -> exists t p, In t (table_all (fst u)) /\ t_name t = bs n /\ path_for (fst u) none none t = Ok p /\ has s (ICont (PToken (pa_element p) [] CMandatory)).
Proof.
  unfold shape_check. intros H. destruct (find _ _) as [t|] eqn:F; [|discriminate]. apply find_some in F. destruct F as [I E]. apply bytes_eqb_eq in E. destruct (path_for _ _ _ t) as [p| | |] eqn:P; try discriminate. exists t, p. split; [exact I|]. split; [exact E|]. split; [exact P|]. apply has_ok, H.
Qed.
Lemma program_check : holds (shipped_tokens base_tokens) (fun u => shape_check u "program" sh_program) = true.
Proof. vm_compute. reflexivity. Qed.

(* ---- the channels ---- *)
Definition is_spaces : want := WClass (bs "WHITESPACES") spaces None.
Definition chan_rule (q : path) : option rule := match el_must (pa_element q) with [[ICont (PRule r CMandatory)]] => Some r | _ => None end.
Definition slashed (r : rule) : bool := match rule_heads r with Some ws => forallb (fun w => match w with b :: _ => Byte.eqb b x2f | [] => true end) ws | None => false end.
Definition chan_b (q : path) : bool := match chan_rule q with Some r => leaf_b r && (if want_b is_spaces r then true else slashed r) | None => false end.
Definition chans_b (u v : table token * list (bytes * option (list bytes))) : bool :=
  forallb (fun c => match path_for (fst u) none none c with Ok q => chan_b q | _ => true end) (table_all (fst v)) &&
  existsb (fun c => match path_for (fst u) none none c with Ok q => match chan_rule q with Some r => want_b is_spaces r | None => false end | _ => false end) (table_all (fst v)).
Lemma chans_check : holds (shipped_tokens base_tokens) (fun u => holds (shipped_tokens base_channels) (fun v => chans_b u v)) = true.
Proof. vm_compute. reflexivity. Qed.

(* channels that read spaces, or start with a slash *)
Definition blank_channels (channels : nat -> list path) : Prop :=
  (forall q, among channels q -> chan_b q = true) /\ (exists q r, among channels q /\ chan_rule q = Some r /\ is_want is_spaces r).
Lemma blank_channels_ok u v channels : chans_b u v = true -> (forall q, among channels q <-> exists c, In c (table_all (fst v)) /\ path_for (fst u) none none c = Ok q) -> blank_channels channels.
Proof.
  intros H A. apply andb_prop in H. destruct H as [H1 H2]. rewrite forallb_forall in H1. apply existsb_exists in H2. destruct H2 as (c & Ic & Hc). split.
  - intros q Hq. apply A in Hq. destruct Hq as (c' & I' & E). specialize (H1 _ I'). cbv beta in H1. rewrite E in H1. exact H1.
  - destruct (path_for (fst u) none none c) as [q| | |] eqn:E; try discriminate. destruct (chan_rule q) as [r|] eqn:Er; [|discriminate]. exists q, r. split; [apply A; eauto|]. split; [exact Er|apply want_ok, Hc].
Qed.
Section Blank.
Variable channels : nat -> list path.
Hypothesis Hc : plain_channels channels.
Hypothesis Hb : blank_channels channels.
Lemma chan_rule_is q r : chan_rule q = Some r -> el_must (pa_element q) = [[ICont (PRule r CMandatory)]].
Proof. unfold chan_rule. destruct (el_must (pa_element q)) as [|[|[|[| x [| | | |] | |]] [|]] [|]]; try discriminate. intros [= ->]. reflexivity. Qed.
Lemma quiet_head b s : ~ In b spaces -> b <> x2f -> PickSpec.quiet channels (b :: s).
Proof.
  intros N1 N2 q r Hq (_ & _ & _ & k & E & _) B. assert (H := proj1 Hb q Hq). unfold chan_b in H. destruct (chan_rule q) as [r'|] eqn:Er; [|discriminate]. apply chan_rule_is in Er. rewrite E in Er. injection Er as <- ->. apply andb_prop in H. destruct H as [_ H].
  destruct (want_b is_spaces r) eqn:W.
  - apply want_ok in W. destruct W as (_ & _ & ps & k & Ec & Ea & _). apply (letters_begin r ps k spaces (b :: s) Ec Ea) in B. destruct B as (b' & t' & X & I). injection X as <- <-. contradiction.
  - unfold slashed in H. destruct (rule_heads r) as [ws|] eqn:Eh; [|discriminate]. destruct (rule_heads_ok _ _ _ Eh B) as (w & Iw & Nw & (y & P)). rewrite forallb_forall in H. specialize (H _ Iw). cbv beta in H. destruct w as [|c w]; [contradiction|]. apply Byte.byte_dec_bl in H. cbn in P. injection P as <- _. contradiction.
Qed.
Lemma quiet_end : PickSpec.quiet channels [].
Proof.
  intros q r Hq (_ & _ & _ & k & E & _) B. assert (H := proj1 Hb q Hq). unfold chan_b in H. destruct (chan_rule q) as [r'|] eqn:Er; [|discriminate]. apply chan_rule_is in Er. rewrite E in Er. injection Er as <- ->. apply andb_prop in H. destruct H as [_ H].
  destruct (want_b is_spaces r) eqn:W.
  - apply want_ok in W. destruct W as (_ & _ & ps & k & Ec & Ea & _). apply (letters_begin r ps k spaces [] Ec Ea) in B. destruct B as (b' & t' & X & I). discriminate.
  - unfold slashed in H. destruct (rule_heads r) as [ws|] eqn:Eh; [|discriminate]. destruct (rule_heads_ok _ _ _ Eh B) as (w & Iw & Nw & (y & P)). destruct w; [contradiction|discriminate].
Qed.
Lemma passes_spaces w s : w <> [] -> Forall (fun b => In b spaces) w -> ends_class spaces s -> passes channels (w ++ s) (bs "WHITESPACES") w s.
Proof.
  intros N F E. destruct Hb as [_ (q & r & Hq & Er & (L & En & ps & k & Ec & Ea & Et))]. apply chan_rule_is in Er. exists q, r, CMandatory. split; [exact Hq|]. destruct (proj1 Hc q Hq) as (r' & S). split; [|split; [exact L|split; [exact Er|split; [|symmetry; exact En]]]].
  - assert (r' = r); [|congruence]. destruct S as (_ & _ & _ & k' & E' & _). rewrite Er in E'. congruence.
  - apply takes_once; [reflexivity|reflexivity|reflexivity|]. eapply letters_take; eauto.
Qed.
End Blank.
