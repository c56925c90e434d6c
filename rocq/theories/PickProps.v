(* PickProps.v - which reading the lexer answers: C99. *)
From Coq Require Import Strings.String Strings.Byte Lia.
From Verif Require Import Go GoLemmas DomainModel DomainSpec CardModel CardSpec PatModel PatSpec RuleModel RuleSpec PathModel PathSpec LexModel LexSpec LexProofs AstModel AstSpec OrdSpec PickSpec PickProofs2 PickProofs4.
Open Scope list_scope.

(* whenever the lexer answers on a text that has a longest-line reading, the answer is that
   reading: the same tokens on the same lines with the same texts, and it ends where it ends *)
Theorem C99_reads_the_longest_line :
  forall channels root fuel st script t rest r,
  plain_channels channels -> (forall p, among channels p -> plain p) -> plain root -> ls_pre st = false ->
  picks channels (pa_element root) true script t rest -> fst (to_ast channels fuel root false script st) = Ok r ->
  exists a, r = ASuccess a /\ drawn a = t /\ script = at_discovery a ++ rest.
Proof. intros channels root fuel st script t rest r Hc Hp Hr P Pk H. exact (read_by_picks channels Hc Hp root Hr fuel st P script t rest r Pk H). Qed.
Print Assumptions C99_reads_the_longest_line.

(* when no line of the root can read anything the answer is a mistake *)
Theorem C99_refuses_what_no_line_reads :
  forall channels root fuel st script r,
  plain_channels channels -> (forall p, among channels p -> plain p) -> plain root -> ls_pre st = false ->
  beaten channels (length script) true script (el_must (pa_element root)) -> fst (to_ast channels fuel root false script st) = Ok r ->
  exists m, r = AMistake m.
Proof. intros channels root fuel st script r Hc Hp Hr P B H. exact (refused channels Hc Hp root Hr fuel st P script r B H). Qed.
Print Assumptions C99_refuses_what_no_line_reads.

(* a text has at most one longest-line reading *)
Theorem C99_one_longest_reading :
  forall channels root fuel st script t rest t' rest' r,
  plain_channels channels -> (forall p, among channels p -> plain p) -> plain root -> ls_pre st = false ->
  fst (to_ast channels fuel root false script st) = Ok r ->
  picks channels (pa_element root) true script t rest -> picks channels (pa_element root) true script t' rest' -> t = t' /\ rest = rest'.
Proof. intros channels root fuel st script t rest t' rest' r Hc Hp Hr P H A B. exact (reading_one channels root script t rest t' rest' fuel st r Hc Hp Hr P H A B). Qed.
Print Assumptions C99_one_longest_reading.

(* ---- a grammar: "x", then b: "c" | "c" "d", then perhaps "a", with spaces between ---- *)
Definition ex_rule (c : string) : rule := {| rl_name := bs c; rl_code := bs c; rl_content := RConstant (bs c) |}.
Definition ex_one (c : string) : instr := ICont (PRule (ex_rule c) CMandatory).
Definition ex_el (n : string) (m : list line) : element := Element (bs n) m None.
Definition ex_path (e : element) : path := {| pa_element := e; pa_deps := [] |}.
Definition ex_space : path := ex_path (ex_el "space" [[ex_one " "]]).
Definition ex_b : element := ex_el "b" [[ex_one "c"]; [ex_one "c"; ex_one "d"]].
Definition ex_root : path := ex_path (ex_el "r" [[ex_one "x"; ICont (PToken ex_b [] CMandatory); ICont (PRule (ex_rule "a") COptional)]]).
Definition ex_chans : nat -> list path := fun _ => [ex_space].

Lemma ex_leaf c : c <> EmptyString -> leaf_rule (ex_rule c).
Proof. intros H. destruct c; [contradiction|]. split; [split; [reflexivity|exact I]|discriminate]. Qed.
Lemma ex_simple : simple_channel ex_space (ex_rule " ").
Proof. split; [apply (ex_leaf " "); discriminate|]. split; [discriminate|]. split; [reflexivity|]. exists CMandatory. split; reflexivity. Qed.
Lemma ex_takes c s : c <> EmptyString -> takes (ex_rule c) CMandatory (bs c ++ s) (bs c) s.
Proof. intros H. split; [reflexivity|]. exists 0. split; [|split; reflexivity]. econstructor; [|constructor]. econstructor 1; [reflexivity|]. destruct c; [contradiction|discriminate]. Qed.
Lemma ex_not_begins c b s : (forall r, bs c = [] \/ bs c ++ r <> b :: s) -> ~ begins (ex_rule c) (b :: s).
Proof. intros H [N [r E]]. destruct (H r) as [X|X]; [contradiction|]. apply X. symmetry. exact E. Qed.
Lemma ex_quiet b s : b <> x20 -> quiet ex_chans (b :: s).
Proof.
  intros N p r (i & [<-|[]]) (_ & _ & _ & k & E & _). injection E as <- <-. intros [_ [y X]]. cbn in X. injection X as X _. contradiction.
Qed.
Lemma ex_passes s : passes ex_chans (x20 :: s) (bs " ") [x20] s.
Proof. exists ex_space, (ex_rule " "), CMandatory. split; [exists 0; left; reflexivity|]. split; [exact ex_simple|]. split; [apply ex_leaf; discriminate|]. split; [reflexivity|]. split; [apply (ex_takes " "); discriminate|reflexivity]. Qed.
Lemma ex_gives c b s nx : c <> EmptyString -> bs c = [b] -> b <> x20 -> gives ex_chans (PRule (ex_rule c) CMandatory) true nx (b :: s) [Text (bs c) (bs c)] s.
Proof.
  intros H E N. apply (gv_rule ex_chans (ex_rule c)); [apply ex_leaf, H|intros _; left; apply ex_quiet, N|]. change (b :: s) with ([b] ++ s). rewrite <- E. apply ex_takes, H.
Qed.
Definition ex_tree : tree := Branch (bs "r") 0 [Text (bs "x") (bs "x"); Text (bs " ") (bs " "); Branch (bs "b") 1 [Text (bs "c") (bs "c"); Text (bs "d") (bs "d")]; Text (bs " ") (bs " ")].
Lemma ex_reading : picks ex_chans (pa_element ex_root) true (bs "x cd rest") ex_tree (bs "rest").
Proof.
  apply (pk_line ex_chans (pa_element ex_root) true (bs "x cd rest") [] [ex_one "x"; ICont (PToken ex_b [] CMandatory); ICont (PRule (ex_rule "a") COptional)] []); try reflexivity; [|cbn; lia|constructor|constructor].
  apply (lg_more ex_chans _ _ true true (bs "x cd rest") [Text (bs "x") (bs "x")] (bs " cd rest")); [apply (ex_gives "x"); [discriminate|reflexivity|discriminate]|].
  apply (lg_more ex_chans _ _ true true _ [Text (bs " ") (bs " "); Branch (bs "b") 1 [Text (bs "c") (bs "c"); Text (bs "d") (bs "d")]] (bs " rest") [Text (bs " ") (bs " ")]).
  - apply gv_skip with (s1 := bs "cd rest"); [reflexivity|apply ex_passes|]. apply gv_tokens; [discriminate|intros _; left; apply ex_quiet; discriminate| |reflexivity].
    apply tk_last; [|exists 1%N; split; [reflexivity|cbn; lia]].
    apply (pk_line ex_chans ex_b true (bs "cd rest") [[ex_one "c"]] [ex_one "c"; ex_one "d"] []); try reflexivity; [|cbn; lia| |constructor].
    + apply (lg_more ex_chans _ _ true true (bs "cd rest") [Text (bs "c") (bs "c")] (bs "d rest") [Text (bs "d") (bs "d")]); [apply (ex_gives "c"); [discriminate|reflexivity|discriminate]|].
      apply (lg_more ex_chans _ _ true true (bs "d rest") [Text (bs "d") (bs "d")] (bs " rest") []); [apply (ex_gives "d"); [discriminate|reflexivity|discriminate]|constructor].
    + eapply bt_less with (rest := bs "d rest"); [|apply (le_n 6)|constructor]. apply (lg_more ex_chans _ _ true true (bs "cd rest") [Text (bs "c") (bs "c")] (bs "d rest") []); [apply (ex_gives "c"); [discriminate|reflexivity|discriminate]|constructor].
  - apply (lg_more ex_chans _ _ true true _ [Text (bs " ") (bs " ")] (bs "rest") []); [|constructor]. apply gv_skip with (s1 := bs "rest"); [reflexivity|apply ex_passes|].
    apply gv_no_rule; [apply ex_leaf; discriminate|discriminate|intros _; left; apply ex_quiet; discriminate| |reflexivity]. apply ex_not_begins. intros r. right. intros X. cbn in X. discriminate.
Qed.
Ltac rules := repeat (match goal with
  | H : directly _ _ |- _ => destruct H as [H|H]
  | H : in_lines _ _ |- _ => destruct H as (? & ? & ?)
  | H : In _ _ |- _ => progress cbn in H
  | H : _ \/ _ |- _ => destruct H
  | H : False |- _ => destruct H
  | H : exists _, _ |- _ => destruct H
  | H : _ /\ _ |- _ => destruct H
  | H : _ = ICont _ |- _ => inversion H; subst; clear H
  | H : ISwitch = ICont _ |- _ => discriminate H
  | H : None = Some _ |- _ => discriminate H
  | H : el_not _ = Some _ |- _ => discriminate H
  | H : rule_in (?f _) _ |- _ => inversion H; subst; clear H
  | H : rule_in (?f _ _) _ |- _ => inversion H; subst; clear H
  | H : rule_in (?f _ _ _) _ |- _ => inversion H; subst; clear H
  end; subst).
Lemma ex_space_occurs c : occurs_in ex_space c -> c = PRule (ex_rule " ") CMandatory.
Proof. induction 1; rules; try discriminate; try reflexivity. Qed.
Lemma ex_root_occurs c : occurs_in ex_root c -> c = PRule (ex_rule "x") CMandatory \/ c = PToken ex_b [] CMandatory \/ c = PRule (ex_rule "a") COptional \/ c = PRule (ex_rule "c") CMandatory \/ c = PRule (ex_rule "d") CMandatory.
Proof. induction 1 as [c H|n e c H|e sp k c H IH Hd]; [rules; auto|discriminate|]. destruct IH as [E|[E|[E|[E|E]]]]; inversion E; subst. rules; auto 6. Qed.
Lemma ex_plain : plain ex_root.
Proof.
  split.
  - intros e [->|[(n & H)|(sp & k & H)]]; [split; [discriminate|reflexivity]|discriminate|]. apply ex_root_occurs in H. destruct H as [E|[E|[E|[E|E]]]]; inversion E; subst. split; [discriminate|reflexivity].
  - intros c H. apply ex_root_occurs in H. destruct H as [->|[->|[->|[->| ->]]]]; try (apply ex_leaf; discriminate). constructor.
Qed.
Lemma ex_space_plain : plain ex_space.
Proof.
  split.
  - intros e [->|[(n & H)|(sp & k & H)]]; [split; [discriminate|reflexivity]|discriminate|]. apply ex_space_occurs in H. discriminate.
  - intros c H. apply ex_space_occurs in H. subst c. apply (ex_leaf " "). discriminate.
Qed.
(* all conditions hold, and the lexer answers; the second line of b is taken although the
   first can be read; a text that does not begin with "x" is refused *)
Example C99_example :
  plain_channels ex_chans /\ (forall p, among ex_chans p -> plain p) /\ plain ex_root /\
  picks ex_chans (pa_element ex_root) true (bs "x cd rest") ex_tree (bs "rest") /\
  (exists a, fst (to_ast ex_chans 20 ex_root false (bs "x cd rest") (lst_init false)) = Ok (ASuccess a) /\ drawn a = ex_tree) /\
  beaten ex_chans (length (bs "y")) true (bs "y") (el_must (pa_element ex_root)) /\
  (exists m, fst (to_ast ex_chans 20 ex_root false (bs "y") (lst_init false)) = Ok (AMistake m)).
Proof.
  split; [|split; [|split; [exact ex_plain|split; [exact ex_reading|split; [|split]]]]].
  - split; [intros p (i & [<-|[]]); exists (ex_rule " "); exact ex_simple|]. split; [|intros i j p H; exact H]. intros p q r r' t (i & [<-|[]]) (j & [<-|[]]) _ _ _ _. reflexivity.
  - intros p (i & [<-|[]]). exact ex_space_plain.
  - eexists. split; [vm_compute; reflexivity|reflexivity].
  - apply bt_bad; [|constructor]. apply lb_here. apply bd_rule; [apply ex_leaf; discriminate|discriminate|intros _; left; apply ex_quiet; discriminate| |reflexivity]. apply ex_not_begins. intros r. right. intros X. cbn in X. discriminate.
  - eexists. vm_compute. reflexivity.
Qed.
Print Assumptions C99_example.
