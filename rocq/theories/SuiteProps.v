(* SuiteProps.v - property theorems C48 (test suites) and C68 (the lexer made from
   token tables).  SuiteSpec.v defines answer (what a lexer made for one line alone
   says), tested and jobs (the tokens with tests and their lines, in order), reports
   and closed_grammar. *)
From Coq Require Import Strings.String Strings.Byte Sorting.Permutation.
From Verif Require Import Go GoLemmas DomainModel CardModel PatModel RuleModel PathModel PathSpec PathProofs LexModel LexSpec LexProps AstModel AstSpec AstProofs3 AstProps SuiteModel SuiteSpec SuiteProofs.
Open Scope list_scope.

(* ---- C48 ---- *)
Theorem C48_jobs_are_the_test_lines :
  forall T tests t j text,
  In (t, j, text) (jobs T tests) <-> exists texts, In t (table_all T) /\ tests (t_name t) = Some texts /\ nth_error texts j = Some text.
Proof. exact @jobs_iff. Qed.
Print Assumptions C48_jobs_are_the_test_lines.

(* a run succeeds exactly when every line gets an answer, and then reports them all, in order *)
Theorem C48_suites_exactly :
  forall (T : table token) (tests : bytes -> option (list bytes)) (channels : option (table token)) (nf rp : bytes -> option (element * list element)) (order : bytes -> nat -> list path -> nat -> list path) (fuel : nat) ss,
  good_table T -> (forall n ts, tests n = Some ts -> ts <> []) ->
  (execute_suites T tests channels nf rp order fuel = Ok ss <-> Forall2 (reports T channels nf rp order fuel) (tested T tests) ss).
Proof. exact @suites_exact. Qed.
Print Assumptions C48_suites_exactly.

(* otherwise its result is that of the first line without an answer *)
Theorem C48_first_failure_is_returned :
  forall (T : table token) (tests : bytes -> option (list bytes)) (channels : option (table token)) (nf rp : bytes -> option (element * list element)) (order : bytes -> nat -> list path -> nat -> list path) (fuel : nat),
  good_table T -> (forall n ts, tests n = Some ts -> ts <> []) ->
  (exists ss, execute_suites T tests channels nf rp order fuel = Ok ss) \/
  exists before t j text after, jobs T tests = before ++ (t, j, text) :: after /\
    (forall t' j' text', In (t', j', text') before -> exists a, answer T channels nf rp order fuel t' j' text' = Ok a) /\
    fails_as (answer T channels nf rp order fuel t j text) (execute_suites T tests channels nf rp order fuel).
Proof. exact @suites_first_failure. Qed.
Print Assumptions C48_first_failure_is_returned.

Theorem C48_closed_grammars_never_fail :
  forall T tests channels order fuel,
  closed_grammar T channels -> real_order order -> (forall n ts, tests n = Some ts -> ts <> []) ->
  execute_suites T tests channels none none order fuel = NoFuel \/ exists ss, execute_suites T tests channels none none order fuel = Ok ss.
Proof. exact @closed_suites. Qed.
Print Assumptions C48_closed_grammars_never_fail.

Theorem C48_closed_grammars_answer :
  forall depth T tests channels order fuel,
  closed_grammar T channels -> real_order order -> (forall n ts, tests n = Some ts -> ts <> []) ->
  (forall t p m, In t (table_all T) -> new_lexer T none none t channels = Ok (p, m) -> ends depth p /\ forall q, In q (map snd m) -> ends depth q /\ switch_free q) ->
  (forall t j text, In (t, j, text) (jobs T tests) -> (length text + 1) * (2 * depth + 4) <= fuel) ->
  exists ss, execute_suites T tests channels none none order fuel = Ok ss.
Proof. exact @closed_suites_answer. Qed.
Print Assumptions C48_closed_grammars_answer.

Theorem C48_successful_line_is_read :
  forall T channels order fuel t j text,
  closed_grammar T channels -> real_order order -> In t (table_all T) ->
  exists p m, new_lexer T none none t channels = Ok (p, m) /\
  (answer T channels none none order fuel t j text = NoFuel \/
   (exists x, answer T channels none none order fuel t j text = Ok (AMistake x)) \/
   (exists a rest, answer T channels none none order fuel t j text = Ok (ASuccess a) /\ text = at_discovery a ++ rest /\ at_discovery a <> [] /\
      el_reads (order (t_name t) j (map snd m)) True (pa_deps p) true (pa_element p) text rest)).
Proof. exact @closed_line. Qed.
Print Assumptions C48_successful_line_is_read.

Theorem C48_undeclared_reference_aborts :
  forall T tests channels order fuel u n,
  good_table T -> (forall n ts, tests n = Some ts -> ts <> []) -> good_channels channels ->
  In u (table_all T) -> refers u n -> ~ is_declared (table_all T) n -> jobs T tests <> [] ->
  execute_suites T tests channels none none order fuel = Err.
Proof. exact @undeclared_stops. Qed.
Print Assumptions C48_undeclared_reference_aborts.

(* two tokens with tests; a space is a channel *)
Definition ex_tspace : token := {| t_name := bs "sp"; t_must := [[ex_tuse " "]]; t_not := None |}.
Definition ex_chans : table token := match unique_table_now t_name (Some [ex_tspace]) with Ok t => t | _ => ([], []) end.
Definition ex_tests (n : bytes) : option (list bytes) :=
  if bytes_eqb n (bs "a") then Some [bs "xyz"; bs "q"; bs "y"] else if bytes_eqb n (bs "b") then Some [bs " yz!"] else None.
Definition ex_order (n : bytes) (j : nat) (l : list path) (k : nat) : list path := l.
Lemma ex_closed : closed_grammar ex_made_table (Some ex_chans).
Proof.
  assert (St : forall t, In t [ex_ta; ex_tb; ex_tspace] -> simple_token t).
  { intros t Ht. cbn in Ht. repeat (destruct Ht as [<-|Ht]); try contradiction;
      (split; [reflexivity|]; split; [reflexivity|]; split; [eexists _, _, _; split; [reflexivity|left; reflexivity]|]);
      intros l e r H1 H2 H3; cbn in H1; repeat (destruct H1 as [<-|H1]); try contradiction;
      cbn in H2; repeat (destruct H2 as [[= <-]|H2]); try contradiction; cbn in H3; try discriminate; injection H3 as <-; cbn; split; try exact I; discriminate. }
  split; [split; [exists [LWithList (Some [ex_ta; ex_tb])]; reflexivity|repeat constructor]|].
  split; [intros t [= <-]; split; [exists [LWithList (Some [ex_tspace])]; reflexivity|repeat constructor]|].
  split.
  - intros t Ht. split; [apply St; cbn in *; tauto|]. intros n (l & e & r & H1 & H2 & H3 & <-).
    cbn in Ht. destruct Ht as [[<-|[<-|[]]]|[<-|[]]]; cbn in H1; repeat (destruct H1 as [<-|H1]); try contradiction;
      cbn in H2; repeat (destruct H2 as [[= <-]|H2]); try contradiction; cbn in H3; try discriminate; injection H3 as <-;
      [exists ex_tb|exists ex_ta]; cbn; auto.
  - intros t Ht (l & e & r & H1 & H2 & H3 & H4 & H5). cbn in Ht. destruct Ht as [<-|[<-|[]]]; cbn in H1; repeat (destruct H1 as [<-|H1]); try contradiction;
      cbn in H2; repeat (destruct H2 as [[= <-]|H2]); try contradiction; cbn in H3; try discriminate; injection H3 as <-; cbn in H4; discriminate.
Qed.
Example C48_example : closed_grammar ex_made_table (Some ex_chans) /\ real_order ex_order /\
  execute_suites ex_made_table ex_tests (Some ex_chans) none none ex_order 40 = Ok
    [{| su_name := bs "a"; su_lines := [{| sl_index := 0; sl_success := true |}; {| sl_index := 1; sl_success := false |}; {| sl_index := 2; sl_success := true |}] |};
     {| su_name := bs "b"; su_lines := [{| sl_index := 0; sl_success := true |}] |}].
Proof. split; [exact ex_closed|]. split; [intros n j l k; apply Permutation_refl|]. vm_compute. reflexivity. Qed.
(* a successful line need not be read to its end *)
Theorem C48_success_means_whole_line_refuted :
  exists T channels order fuel t text a, closed_grammar T channels /\ real_order order /\ In t (table_all T) /\
    answer T channels none none order fuel t 0 text = Ok (ASuccess a) /\ length (at_discovery a) < length text.
Proof.
  exists ex_made_table, (Some ex_chans), ex_order, 40, ex_tb, (bs "yz!!"). eexists. split; [exact ex_closed|]. split; [intros n j l k; apply Permutation_refl|]. split; [right; left; reflexivity|].
  split; [vm_compute; reflexivity|vm_compute; repeat constructor].
Qed.
Print Assumptions C48_success_means_whole_line_refuted.
(* a test of a token that refers to nothing fails because another token is broken *)
Definition ex_tbroken : token := {| t_name := bs "c"; t_must := [[ex_tuse "z"; ex_tref "nowhere"]]; t_not := None |}.
Definition ex_broken_table : table token := match unique_table_now t_name (Some [ex_tspace; ex_tbroken]) with Ok t => t | _ => ([], []) end.
Definition ex_space_test (n : bytes) : option (list bytes) := if bytes_eqb n (bs "sp") then Some [bs " "] else None.
Theorem C48_unrelated_tokens_do_not_matter_refuted :
  exists T T' tests order fuel t, good_table T /\ good_table T' /\ table_all T = [t] /\ (exists u, table_all T' = [t; u]) /\ (forall n, ~ refers t n) /\
    (exists ss, execute_suites T tests None none none order fuel = Ok ss) /\ execute_suites T' tests None none none order fuel = Err.
Proof.
  exists ex_chans, ex_broken_table, ex_space_test, ex_order, 40, ex_tspace.
  split; [split; [exists [LWithList (Some [ex_tspace])]; reflexivity|repeat constructor]|].
  split; [split; [exists [LWithList (Some [ex_tspace; ex_tbroken])]; reflexivity|repeat constructor]|].
  split; [reflexivity|]. split; [exists ex_tbroken; reflexivity|].
  split; [intros n (l & e & r & H1 & H2 & H3 & _); cbn in H1; destruct H1 as [<-|[]]; cbn in H2; destruct H2 as [[= <-]|[]]; discriminate|].
  split; [eexists; vm_compute; reflexivity|vm_compute; reflexivity].
Qed.
Print Assumptions C48_unrelated_tokens_do_not_matter_refuted.

(* ---- C68 ---- *)
Theorem C68_lexer_built_or_error :
  forall T nf rp root channels,
  good_table T -> good_channels channels -> token_ok root = true ->
  (new_lexer T nf rp root channels = Err \/ exists x, new_lexer T nf rp root channels = Ok x) /\
  (new_lexer T nf rp root channels = Err <-> path_for T nf rp root = Err \/ exists t, In t (channel_list channels) /\ path_for T nf rp t = Err).
Proof. exact @lexer_exact. Qed.
Print Assumptions C68_lexer_built_or_error.

Theorem C68_lexer_holds_each_channel :
  forall T nf rp root channels p m,
  good_table T -> good_channels channels -> token_ok root = true -> new_lexer T nf rp root channels = Ok (p, m) ->
  path_for T nf rp root = Ok p /\
  (forall k q, mlookup m k = Some q <-> exists t, In t (channel_list channels) /\ t_name t = k /\ path_for T nf rp t = Ok q) /\
  exists qs, Forall2 (fun t q => path_for T nf rp t = Ok q) (channel_list channels) qs /\ Permutation (map snd m) qs.
Proof. exact @lexer_contents. Qed.
Print Assumptions C68_lexer_holds_each_channel.

Example C68_example : exists p m, new_lexer ex_made_table none none ex_ta (Some ex_chans) = Ok (p, m) /\ map fst m = [bs "sp"] /\ el_name (pa_element p) = bs "a".
Proof. eexists _, _. split; [vm_compute; reflexivity|]. split; reflexivity. Qed.
(* the references of a channel are looked up among the tokens, not among the channels *)
Definition ex_tcref : token := {| t_name := bs "c2"; t_must := [[ex_tref "sp"]]; t_not := None |}.
Definition ex_chans2 : table token := match unique_table_now t_name (Some [ex_tspace; ex_tcref]) with Ok t => t | _ => ([], []) end.
Theorem C68_channels_see_each_other_refuted :
  exists T channels t, good_table T /\ good_table channels /\ In t (table_all T) /\ (forall c n, In c (table_all channels) -> refers c n -> is_declared (table_all channels) n) /\
    new_lexer T none none t None <> Err /\ new_lexer T none none t (Some channels) = Err.
Proof.
  exists ex_made_table, ex_chans2, ex_ta.
  split; [split; [exists [LWithList (Some [ex_ta; ex_tb])]; reflexivity|repeat constructor]|].
  split; [split; [exists [LWithList (Some [ex_tspace; ex_tcref])]; reflexivity|repeat constructor]|].
  split; [left; reflexivity|].
  split; [intros c n Hc (l & e & r & H1 & H2 & H3 & <-); cbn in Hc; destruct Hc as [<-|[<-|[]]]; cbn in H1; destruct H1 as [<-|[]]; cbn in H2; destruct H2 as [[= <-]|[]]; cbn in H3; [discriminate|injection H3 as <-; exists ex_tspace; split; [left|]; reflexivity]|].
  split; [|vm_compute; reflexivity].
  intros X. assert (Y : new_lexer ex_made_table none none ex_ta None = Ok (match new_lexer ex_made_table none none ex_ta None with Ok x => x | _ => (ex_made_path, []) end)) by (vm_compute; reflexivity). congruence.
Qed.
Print Assumptions C68_channels_see_each_other_refuted.
