(* RecProps.v - what the lexer reads with a grammar that refers to itself: C105. *)
From Coq Require Import Strings.String Strings.Byte Lia.
From Verif Require Import Go GoLemmas DomainModel DomainSpec CardModel CardSpec PatModel PatSpec RuleModel RuleSpec PathModel PathSpec LexModel LexSpec LexProofs AstModel AstSpec TextModel AppModel AppSpec GramModel OrdSpec OrdProofs2 PickSpec PickProofs2 PickProofs4 PickProps LetterProofs ProgSpec RecSpec RecProofs2 RecProofs3 ListSpec RecProofs5 AppProps.
Open Scope list_scope.

(* whenever the lexer answers on a text that has a reading, the answer is that reading: the same
   tokens on the same lines with the same texts, and it ends where it ends *)
Theorem C105_reads_by_choice :
  forall channels root fuel st script t rest N r,
  plain_channels channels -> (forall p, among channels p -> plain p) -> plain root -> ls_pre st = false ->
  chooses channels (mlookup (pa_deps root)) (pa_element root) true script no_notes t rest N -> fst (to_ast channels fuel root false script st) = Ok r ->
  exists a, r = ASuccess a /\ drawn a = t /\ script = at_discovery a ++ rest.
Proof. intros channels root fuel st script t rest N r Hc Hp Hr P Ch H. exact (read_by_choice channels Hc Hp root Hr fuel st P script t rest N r Ch H). Qed.
Print Assumptions C105_reads_by_choice.

(* when no line of the root can read anything the answer is a mistake *)
Theorem C105_refuses_what_no_line_reads :
  forall channels root fuel st script N r,
  plain_channels channels -> (forall p, among channels p -> plain p) -> plain root -> ls_pre st = false ->
  outdone channels (mlookup (pa_deps root)) (length script) true script (el_must (pa_element root)) no_notes N -> fst (to_ast channels fuel root false script st) = Ok r ->
  exists m, r = AMistake m.
Proof. intros channels root fuel st script N r Hc Hp Hr P B H. exact (refused_by_choice channels Hc Hp root Hr fuel st P script N r B H). Qed.
Print Assumptions C105_refuses_what_no_line_reads.

(* a text has at most one reading *)
Theorem C105_one_reading :
  forall channels root fuel st script t rest N t' rest' N' r,
  plain_channels channels -> (forall p, among channels p -> plain p) -> plain root -> ls_pre st = false ->
  fst (to_ast channels fuel root false script st) = Ok r ->
  chooses channels (mlookup (pa_deps root)) (pa_element root) true script no_notes t rest N ->
  chooses channels (mlookup (pa_deps root)) (pa_element root) true script no_notes t' rest' N' -> t = t' /\ rest = rest'.
Proof. intros channels root fuel st script t rest N t' rest' N' r Hc Hp Hr P H A B. exact (choice_one channels root script t rest N t' rest' N' fuel st r Hc Hp Hr P H A B). Qed.
Print Assumptions C105_one_reading.

(* without recursive references this is the reading of C99, whatever the notes *)
Theorem C105_extends_the_longest_line :
  forall channels lookup e nx s t rest N, picks channels e nx s t rest -> chooses channels lookup e nx s N t rest N.
Proof. intros channels lookup e nx s t rest N H. destruct (embed channels lookup) as (_ & _ & _ & _ & _ & K & _). apply K, H. Qed.
Print Assumptions C105_extends_the_longest_line.

(* ---- a grammar: r: "a" | "(" r ")" ---- *)
Definition nest_el : element := ex_el "r" [[ex_one "a"]; [ex_one "("; ICont (PRec (bs "r") [] CMandatory); ex_one ")"]].
Definition nest_root : path := {| pa_element := nest_el; pa_deps := [(bs "r", nest_el)] |}.
Definition no_chans : nat -> list path := fun _ => [].
(* n times "(", "a", n times ")" *)
Definition nested (n : nat) : bytes := repeat x28 n ++ [x61] ++ repeat x29 n.
Fixpoint nested_tree (n : nat) : tree :=
  match n with
  | O => Branch (bs "r") 0 [Text (bs "a") (bs "a")]
  | S n => Branch (bs "r") 1 [Text (bs "(") (bs "("); nested_tree n; Text (bs ")") (bs ")")]
  end.
Lemma repeat_slide (b : byte) n s : repeat b n ++ b :: s = b :: repeat b n ++ s.
Proof. induction n as [|n IH]; [reflexivity|]. cbn [repeat app]. rewrite IH. reflexivity. Qed.
Lemma nested_more n s : nested (S n) ++ s = x28 :: nested n ++ x29 :: s.
Proof. unfold nested. rewrite <- !app_assoc. cbn [repeat app]. rewrite repeat_slide. reflexivity. Qed.
Lemma no_quiet s : quiet no_chans s.
Proof. intros p r (i & []). Qed.
Lemma nest_rule c lk s ch N : c <> EmptyString -> finds no_chans lk (PRule (ex_rule c) CMandatory) ch true (bs c ++ s) N [Text (bs c) (bs c)] s N.
Proof. intros H. apply (fi_rule no_chans lk (ex_rule c)); [apply ex_leaf, H|apply be_quiet, no_quiet|apply ex_takes, H]. Qed.
Lemma nest_lacks c lk b s ch N : bs c <> [] -> (forall r, bs c ++ r <> b :: s) -> lacks no_chans lk (PRule (ex_rule c) CMandatory) ch true (b :: s) N N.
Proof. intros H D. apply la_rule; [apply ex_leaf; intros ->; apply H; reflexivity|discriminate|apply be_quiet, no_quiet| |reflexivity]. apply ex_not_begins. intros r. right. apply D. Qed.
(* however deep the nesting, and whatever follows *)
Lemma nested_read n : forall s N, (forall t, N (bs "r") = Some t -> length (nested n ++ s) <= length t) ->
  exists N', chooses no_chans (mlookup (pa_deps nest_root)) nest_el true (nested n ++ s) N (nested_tree n) s N'.
Proof.
  induction n as [|n IH]; intros s N O.
  - exists N. cbn [nested_tree]. change (nested 0 ++ s) with (bs "a" ++ s).
    apply (ch_line no_chans _ nest_el true _ N N N N [] [ex_one "a"] [[ex_one "("; ICont (PRec (bs "r") [] CMandatory); ex_one ")"]]); [reflexivity|reflexivity|constructor| |cbn; lia|].
    + change [Text (bs "a") (bs "a")] with ([Text (bs "a") (bs "a")] ++ []). eapply lf_more; [apply nest_rule; discriminate|constructor].
    + eapply od_lacks; [|constructor]. apply ll_here. apply nest_lacks; [discriminate|]. intros r X. cbn in X. discriminate.
  - rewrite nested_more in *. cbn [length] in O. set (s' := nested n ++ x29 :: s) in *. destruct (IH (x29 :: s) (note N (bs "r") s')) as (N' & Ch).
    { intros t. unfold note. rewrite (proj2 (bytes_eqb_eq (bs "r") (bs "r")) eq_refl). intros [= <-]. apply le_n. }
    exists N'. cbn [nested_tree]. change (x28 :: s') with (bs "(" ++ s').
    apply (ch_line no_chans _ nest_el true _ N N N' N' [[ex_one "a"]] [ex_one "("; ICont (PRec (bs "r") [] CMandatory); ex_one ")"] []); [reflexivity|reflexivity| | |unfold s'; cbn; rewrite app_length; cbn; lia|constructor].
    + eapply od_lacks; [|constructor]. apply ll_here. apply nest_lacks; [discriminate|]. intros r X. cbn in X. discriminate.
    + change [Text (bs "(") (bs "("); nested_tree n; Text (bs ")") (bs ")")] with ([Text (bs "(") (bs "(")] ++ [nested_tree n] ++ [Text (bs ")") (bs ")")] ++ []).
      eapply lf_more; [apply nest_rule; discriminate|]. eapply lf_more with (s1 := x29 :: s); [|eapply lf_more; [apply (nest_rule ")"); discriminate|constructor]].
      eapply fi_again with (e := nest_el); [unfold s'; destruct n; discriminate|apply be_quiet, no_quiet|intros X; apply O in X; lia|reflexivity| |reflexivity]. apply re_last; [exact Ch|]. exists 1%N. split; [reflexivity|cbn; lia].
Qed.
Lemma nest_occurs c : occurs_in nest_root c -> c = PRule (ex_rule "a") CMandatory \/ c = PRule (ex_rule "(") CMandatory \/ c = PRec (bs "r") [] CMandatory \/ c = PRule (ex_rule ")") CMandatory.
Proof. induction 1 as [c H|n e c L H|e sp k c H IH Hd]; [rules; auto| |destruct IH as [E|[E|[E|E]]]; discriminate]. assert (e = nest_el) as -> by (cbn [mlookup pa_deps nest_root] in L; destruct (bytes_eqb _ _); [injection L as <-; reflexivity|discriminate]). rules; auto. Qed.
Lemma nest_plain : plain nest_root.
Proof.
  split.
  - intros e [->|[(n & H)|(sp & k & H)]]; [split; [discriminate|reflexivity]| |apply nest_occurs in H; destruct H as [E|[E|[E|E]]]; discriminate]. cbn [mlookup pa_deps nest_root] in H. destruct (bytes_eqb _ _); [injection H as <-; split; [discriminate|reflexivity]|discriminate].
  - intros c H. apply nest_occurs in H. destruct H as [->|[->|[->| ->]]]; try (apply ex_leaf; discriminate). constructor.
Qed.
Lemma no_chans_plain : plain_channels no_chans /\ (forall p, among no_chans p -> plain p).
Proof. split; [|intros p (i & [])]. split; [intros p (i & [])|]. split; [intros p q r r' t (i & [])|intros i j p []]. Qed.
(* every nesting is read, whatever follows; an opened nesting without an inside is refused *)
Theorem C105_example_every_nesting :
  forall n rest fuel st r, ls_pre st = false -> fst (to_ast no_chans fuel nest_root false (nested n ++ rest) st) = Ok r ->
  exists a, r = ASuccess a /\ drawn a = nested_tree n /\ nested n = at_discovery a.
Proof.
  intros n rest fuel st r P H. destruct no_chans_plain as [Pc Pp]. destruct (nested_read n rest no_notes) as (N & Ch); [discriminate|].
  destruct (C105_reads_by_choice no_chans nest_root fuel st _ _ rest N r Pc Pp nest_plain P Ch H) as (a & -> & D & E). apply app_inv_tail in E. eauto.
Qed.
Print Assumptions C105_example_every_nesting.
Example C105_example :
  (exists a, fst (to_ast no_chans 30 nest_root false (bs "(((a))))))") (lst_init false)) = Ok (ASuccess a) /\ drawn a = nested_tree 3 /\ at_discovery a = bs "(((a)))") /\
  (exists N, outdone no_chans (mlookup (pa_deps nest_root)) (length (bs "b")) true (bs "b") (el_must nest_el) no_notes N) /\
  (exists m, fst (to_ast no_chans 30 nest_root false (bs "b") (lst_init false)) = Ok (AMistake m)).
Proof.
  split; [|split].
  - eexists. split; [vm_compute; reflexivity|]. split; reflexivity.
  - exists no_notes. eapply od_lacks; [apply ll_here, nest_lacks; [discriminate|intros r X; cbn in X; discriminate]|]. eapply od_lacks; [apply ll_here, nest_lacks; [discriminate|intros r X; cbn in X; discriminate]|constructor].
  - eexists. vm_compute. reflexivity.
Qed.
Print Assumptions C105_example.

(* ---- the shipped language ---- *)
(* a declaration of a variable, its type a list nested to any depth, with spaces wherever there
   may be some, is read as it is written, whatever follows, as long as no letter follows the name *)
Theorem C105_shipped_reads_list_declarations :
  forall rules_file tokens_file order lex_fuel fuel t g w x rest,
  an_order order -> good_ltype t -> blank g -> is_name w -> (forall b r, rest = b :: r -> ~ In b (lower ++ upper)) ->
  tx_prefix x = false -> tx_content x = ldecl_text t g w ++ rest -> (length (tx_content x) + 2) * 22 <= lex_fuel ->
  exists a, fst (app_ast rules_file tokens_file order lex_fuel fuel [] {| rt_root := bs "variableDeclaration"; rt_rest := {| mu_container := base_texts; mu_channels := base_channels |} |} x) = Ok (ASuccess a) /\
    drawn a = ldecl_tree t g w /\ at_discovery a = ldecl_text t g w.
Proof. intros rf tf order lf f t g w x rest O Gt G W R Hx Es Hf. exact (ldecl_shipped rf tf order O lf f t g w x rest Gt G W R Hx Es Hf). Qed.
Print Assumptions C105_shipped_reads_list_declarations.
Definition ex_list : ltype := LList [] [] (LPlain SUint) [].
Example C105_list_example :
  good_ltype ex_list /\ blank [x20] /\ is_name (bs "foo") /\ ldecl_text ex_list [x20] (bs "foo") = bs "list<uint> foo" /\
  good_ltype (LList [x20] [] (LList [] [x0a] ex_list []) [x09]) /\ ltype_depth (LList [x20] [] (LList [] [x0a] ex_list []) [x09]) = 3.
Proof.
  assert (B : forall a l, forallb (fun b => existsb (Byte.eqb b) a) l = true -> Forall (fun b => In b a) l).
  { intros a l H. apply Forall_forall. intros b I. rewrite forallb_forall in H. specialize (H b I). apply existsb_exists in H. destruct H as (y & J & E). apply Byte.byte_dec_bl in E. subst. exact J. }
  split; [repeat split; apply B; reflexivity|]. split; [apply B; reflexivity|]. split; [|split; [reflexivity|split; [repeat split; apply B; reflexivity|reflexivity]]].
  exists x66, (bs "oo"). split; [reflexivity|]. split; [assert (F := B lower [x66] eq_refl); inversion F; assumption|]. split; [discriminate|]. apply B. reflexivity.
Qed.
Print Assumptions C105_list_example.
(* but in an instruction the same declaration is not: the notes that the assignment left, which
   is tried before it, end the list before its type is read, and the type is taken for the name *)
Definition base_ast (root s : string) := fst (app_ast (fun _ => None) (fun _ => None) keep 400 60 [] {| rt_root := bs root; rt_rest := {| mu_container := base_texts; mu_channels := base_channels |} |} (ex_content s)).
Definition misread : tree :=
  Branch (bs "variableDeclaration") 0 [Branch (bs "declarativeType") 2 [Branch (bs "listType") 0 [Text (bs "LIST") (bs "list"); Text (bs "LESS") (bs "<")]]; Branch (bs "variableName") 0 [Text (bs "FIRST_LETTER") (bs "u"); Text (bs "MIN_MAJ_LETTERS") (bs "int")]].
Definition reads_as (r : res ast) (s : string) (t : tree) : Prop := exists a, r = Ok (ASuccess a) /\ at_discovery a = bs s /\ drawn a = t.
Theorem C105_list_instructions_refuted :
  reads_as (base_ast "instruction" "list<uint> foo") "list<uint" (Branch (bs "instruction") 1 [misread]) /\
  reads_as (base_ast "variableDeclaration" "list<uint> foo") "list<uint> foo" (ldecl_tree ex_list [x20] (bs "foo")).
Proof. split; (eexists; split; [vm_compute; reflexivity|]; split; vm_compute; reflexivity). Qed.
Print Assumptions C105_list_instructions_refuted.
