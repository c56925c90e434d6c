(* OrdProps.v - the order in which Go visits the channel map: C91. *)
From Coq Require Import Strings.String Strings.Byte Sorting.Permutation Lia.
From Verif Require Import Go GoLemmas DomainModel DomainSpec CardModel PatModel PatSpec RuleModel PathModel PathSpec LexModel LexSpec AstModel RootModel SuiteModel TextModel AppModel AppSpec GramModel OrdSpec OrdProofs OrdProofs2.
Open Scope list_scope.

(* the lexer: channels that never start together, visited in any two orders, give the same answer and leave the same lexer *)
Theorem C91_apart_channels_one_answer :
  forall channels channels' root fuel script st,
  reordered channels channels' -> (forall p, among channels p -> exists r, simple_channel p r) -> never_together (among channels) ->
  (ls_pre st = false \/ forall p r, among channels p -> simple_channel p r -> of_patterns r) ->
  to_token channels fuel root script st = to_token channels' fuel root script st.
Proof.
  intros c c' root fuel script st R S N P. apply (order_irrelevant (forall p r, among c p -> simple_channel p r -> of_patterns r) c c' R); [|exact N|exact P].
  intros p Hp. destruct (S p Hp) as (r & Hr). exists r. split; [exact Hr|]. intros Q. apply (Q p r Hp Hr).
Qed.
Print Assumptions C91_apart_channels_one_answer.

(* the application: a grammar whose channels never start together *)
Section C91.
Variables rules_file tokens_file : bytes -> option bytes.
Variables o o' : list path -> nat -> list path.
Variables to to' : bytes -> nat -> list path -> nat -> list path.
Hypothesis O : an_order o.
Hypothesis O' : an_order o'.
Hypothesis TO : forall n j, an_order (to n j).
Hypothesis TO' : forall n j, an_order (to' n j).
Variables lex_fuel n : nat.
Theorem C91_ast_apart_channels : forall m r x,
  (forall l ts, means_grammar (mu_container (rt_rest r)) (mu_channels (rt_rest r)) l (Some ts) -> apart ts /\ (tx_prefix x = true -> only_patterns ts)) ->
  app_ast rules_file tokens_file o lex_fuel n m r x = app_ast rules_file tokens_file o' lex_fuel n m r x.
Proof. intros m r x H. apply (app_ast_order _ _ o o' O O' lex_fuel n (tx_prefix x = true) m r x); [exact H|]. destruct (tx_prefix x); auto. Qed.
Theorem C91_shipped_channels_ast : forall m r x, shipped_channels (rt_rest r) ->
  app_ast rules_file tokens_file o lex_fuel n m r x = app_ast rules_file tokens_file o' lex_fuel n m r x.
Proof. intros m r x H. apply (app_ast_order _ _ o o' O O' lex_fuel n True m r x); [apply shipped_apart, H|auto]. Qed.
Theorem C91_shipped_channels_root : forall m r x, shipped_channels (rt_rest r) ->
  app_root rules_file tokens_file o lex_fuel n m r x = app_root rules_file tokens_file o' lex_fuel n m r x.
Proof. intros m r x H. apply (app_root_order _ _ o o' O O' lex_fuel n True m r x); [apply shipped_apart, H|auto]. Qed.
Theorem C91_shipped_channels_tests : forall m r, shipped_channels r ->
  app_tests rules_file tokens_file to lex_fuel n m r = app_tests rules_file tokens_file to' lex_fuel n m r.
Proof. intros m r H. apply (app_tests_order _ _ to to' TO TO' lex_fuel n True m r). apply shipped_apart, H. Qed.
End C91.
Print Assumptions C91_ast_apart_channels.
Print Assumptions C91_shipped_channels_ast.
Print Assumptions C91_shipped_channels_root.
Print Assumptions C91_shipped_channels_tests.

(* with a prefix allowed and constants as channels the order matters even then: trying the channel "-" first finds it
   inside "#-" and takes the permission away *)
Definition ex_rule (c : string) : rule := {| rl_name := bs c; rl_code := bs c; rl_content := RConstant (bs c) |}.
Definition ex_path (name c : string) : path := {| pa_element := Element (bs name) [[ICont (PRule (ex_rule c) CMandatory)]] None; pa_deps := [] |}.
Lemma ex_simple name c : name <> EmptyString -> c <> EmptyString -> simple_channel (ex_path name c) (ex_rule c).
Proof.
  intros N C. split; [split; [|exact I]|split; [|split; [reflexivity|exists CMandatory; split; reflexivity]]].
  - destruct c as [|a c]; [congruence|reflexivity].
  - destruct name as [|a name]; [congruence|discriminate].
Qed.
(* r: .q --- .x{3} *)
Definition ex_not : path := {| pa_element := Element (bs "r") [[ICont (PRule (ex_rule "q") CMandatory)]] (Some [[ICont (PRule (ex_rule "x") (CSpecific (SAmount 3%N)))]]); pa_deps := [] |}.
Theorem C91_prefix_and_constants_refuted :
  exists c1 c2 r1 r2 root fuel script t t', simple_channel c1 r1 /\ simple_channel c2 r2 /\ (forall s, begins r1 s -> begins r2 s -> False) /\
    fst (to_token (always [c1; c2]) fuel root script (lst_init true)) = Ok t /\ fst (to_token (always [c2; c1]) fuel root script (lst_init true)) = Ok t' /\
    tok_valid t = true /\ tok_valid t' = false.
Proof.
  exists (ex_path "c" "-"), (ex_path "d" "#-"), (ex_rule "-"), (ex_rule "#-"), ex_not, 9, (bs "#-xzxx").
  do 2 eexists. split; [apply ex_simple; discriminate|]. split; [apply ex_simple; discriminate|]. split; [|split; [vm_compute; reflexivity|split; [vm_compute; reflexivity|split; reflexivity]]].
  intros s [_ [x E]] [_ [y F]]. rewrite E in F. discriminate.
Qed.
Print Assumptions C91_prefix_and_constants_refuted.
(* channels that meet the conditions, with different orders at each visit; the shipped channels are three: spaces and the two comments *)
Example C91_example :
  (let chans := fun k => if Nat.even k then [ex_path "c" "-"; ex_path "d" "#"] else [ex_path "d" "#"; ex_path "c" "-"] in
   reordered chans (always [ex_path "c" "-"; ex_path "d" "#"]) /\ (forall p, among chans p -> exists r, simple_channel p r) /\ never_together (among chans) /\
   exists t, fst (to_token chans 9 (ex_path "r" "x") (bs "-#-x") (lst_init false)) = Ok t /\ tok_valid t = true) /\
  (exists u, shipped_tokens base_channels = Ok u /\ map t_name (table_all (fst u)) = [bs "whiteSpaces"; bs "multiLineComment"; bs "lineComment"] /\ apart (table_all (fst u)) /\ only_patterns (table_all (fst u))).
Proof.
  split.
  - cbv zeta. assert (A : forall p, among (fun k => if Nat.even k then [ex_path "c" "-"; ex_path "d" "#"] else [ex_path "d" "#"; ex_path "c" "-"]) p -> p = ex_path "c" "-" \/ p = ex_path "d" "#").
    { intros p (k & H). destruct (Nat.even k); destruct H as [<-|[<-|[]]]; auto. }
    split; [|split; [|split]].
    + intros j k. destruct (Nat.even j); [apply Permutation_refl|apply perm_swap].
    + intros p Hp. destruct (A p Hp) as [->| ->]; eexists; apply ex_simple; discriminate.
    + intros p q r r' t Hp Hq Sp Sq Bp Bq.
      assert (R : forall n c r0, c <> EmptyString -> n <> EmptyString -> simple_channel (ex_path n c) r0 -> r0 = ex_rule c) by (intros n c r0 Nc Nn H; apply (simple_rule (ex_path n c)); [exact H|apply ex_simple; assumption]).
      destruct (A p Hp) as [->| ->], (A q Hq) as [->| ->]; try reflexivity; apply R in Sp; try discriminate; apply R in Sq; try discriminate; subst r r'; destruct Bp as [_ [x E]], Bq as [_ [y F]]; rewrite E in F; discriminate.
    + eexists. split; [vm_compute; reflexivity|reflexivity].
  - assert (S := shipped_check). destruct (shipped_tokens base_channels) as [u| | |] eqn:E; try discriminate S. apply andb_prop in S. exists u. split; [reflexivity|].
    split; [|split; [apply apart_check_ok, S|apply patterns_check_ok, S]].
    assert (K : match shipped_tokens base_channels with Ok u => map t_name (table_all (fst u)) | _ => [] end = [bs "whiteSpaces"; bs "multiLineComment"; bs "lineComment"]) by (vm_compute; reflexivity).
    rewrite E in K. exact K.
Qed.
Print Assumptions C91_example.
