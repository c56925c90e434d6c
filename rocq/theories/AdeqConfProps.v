(* AdeqConfProps.v - property theorem C93: every syntax tree Parser.AST makes is one of the
   declared tokens.  conforms is defined in AdeqSpec.v; its third argument True lets a line
   stop in front of a reference or of what may be absent, which the lexer does
   (C92_parser_cuts_short). *)
From Coq Require Import Strings.String Strings.Byte Sorting.Permutation Lia.
From Verif Require Import Go GoLemmas DomainModel RuleModel PathModel PathSpec LexModel LexSpec CardModel AstModel AstSpec TextModel TextSpec TextTokSpec TextRefSpec SuiteModel SuiteSpec AppModel AppSpec GramModel RootModel ParseModel TextRefProofs2 EvtSpec OrdSpec OrdProofs2 AdeqSpec AdeqProofs8 AdeqProps RootSpec.
Open Scope string_scope.
Open Scope list_scope.

(* ---- C93 ---- *)
(* the tokens are simple, and no rule in their lines is named like one of them *)
Definition ordinary (ts : list token) : Prop :=
  (forall t, In t ts -> simple_token t) /\
  forall t l e r, In t ts -> In l (t_must t) -> In (TElem e) l -> te_content e = TRule r -> ~ is_declared ts (rl_name r).
(* the channels are single rules, these are their names *)
Definition channels_named (ts : list token) (blanks : list bytes) : Prop :=
  forall t, In t ts -> simple_token t /\ exists r, rule_channel t r /\ In (rl_name r) blanks.

(* the lexer of a token of a table, whatever the schedule of its channels *)
Theorem C93_accepted_trees_conform :
  forall T C root p m channels blanks fuel script st a,
  good_table T -> good_channels C -> ordinary (table_all T) -> channels_named (channel_list C) blanks -> In root (table_all T) ->
  new_lexer T none none root C = Ok (p, m) -> (forall q, among channels q -> In q (map snd m)) ->
  fst (to_ast channels fuel p false script st) = Ok (ASuccess a) ->
  conforms (table_all T) blanks True (t_name root) a.
Proof.
  intros T C root p m channels blanks fuel script st a G Gc [O1 O2] Ch I H Hc E. apply (accepted_conforms T C root p m channels blanks fuel script st a G Gc); auto.
  - intros t [Ht|Ht]; [apply O1; exact Ht|apply Ch; exact Ht].
  - intros t Ht. apply Ch. exact Ht.
Qed.
Print Assumptions C93_accepted_trees_conform.

Section C93.
Variables rules_file tokens_file : bytes -> option bytes.
Variable order : list path -> nat -> list path.
Hypothesis O : an_order order.
Variables lex_fuel fuel : nat.
(* Parser.AST on a grammar given as texts, without references *)
Theorem C93_ast_conforms : forall r x l k blanks a,
  means_grammar (mu_container (rt_rest r)) (mu_channels (rt_rest r)) l k -> means_references (ct_tokens (mu_container (rt_rest r))) no_links ->
  ordinary (map fst l) -> channels_named (match k with Some ts => ts | None => [] end) blanks -> tx_prefix x = false ->
  fst (app_ast rules_file tokens_file order lex_fuel fuel [] r x) = Ok (ASuccess a) ->
  conforms (map fst l) blanks True (rt_root r) a /\ exists rest, tx_content x = at_discovery a ++ rest /\ at_discovery a <> [].
Proof.
  intros r x l k blanks a M R [O1 O2] Ch Hx H. apply (ast_conforms rules_file tokens_file order O lex_fuel fuel r x l k blanks a M R); auto.
  - intros t [Ht|Ht]; [apply O1; exact Ht|apply Ch; exact Ht].
  - intros t Ht. apply Ch. exact Ht.
Qed.
(* and on the shipped one: every program the parser accepts is one of the grammar *)
Theorem C93_shipped_conforms : forall u n x a, shipped_tokens base_tokens = Ok u -> tx_prefix x = false ->
  fst (app_ast rules_file tokens_file order lex_fuel fuel [] {| rt_root := n; rt_rest := {| mu_container := base_texts; mu_channels := base_channels |} |} x) = Ok (ASuccess a) ->
  conforms (table_all (fst u)) blank_names True n a /\ exists rest, tx_content x = at_discovery a ++ rest /\ at_discovery a <> [].
Proof. exact (shipped_conforms rules_file tokens_file order O lex_fuel fuel). Qed.
End C93.
Print Assumptions C93_ast_conforms.
Print Assumptions C93_shipped_conforms.

Lemma base_amount : AdeqProofs8.holds (shipped_tokens base_tokens) (fun u => Nat.eqb (length (table_all (fst u))) 63) = true.
Proof. vm_compute. reflexivity. Qed.
Lemma holds_some {A} (x : res A) f : AdeqProofs8.holds x f = true -> exists v, x = Ok v.
Proof. destruct x; try discriminate. eauto. Qed.
Lemma shipped_ordinary :
  (exists u, shipped_tokens base_tokens = Ok u /\ ordinary (table_all (fst u)) /\ length (table_all (fst u)) = 63) /\
  (exists v, shipped_tokens base_channels = Ok v /\ channels_named (table_all (fst v)) blank_names) /\ means_references base_tokens no_links.
Proof.
  split; [|split].
  - destruct (holds_some _ _ base_check) as (u & Hu). exists u. split; [exact Hu|]. assert (S := holds_ok _ _ u base_check Hu). unfold base_fine in S. apply andb_prop in S. destruct S as [S1 S2]. rewrite forallb_forall in S1. split; [|apply Nat.eqb_eq; exact (holds_ok _ _ u base_amount Hu)].
    split; [intros t Ht; apply simple_b_ok, S1, Ht|]. intros t l e r. apply rules_apart_ok. exact S2.
  - destruct (holds_some _ _ base_channels_check) as (v & Hv). exists v. split; [exact Hv|]. assert (K := holds_ok _ _ v base_channels_check Hv). unfold channels_fine in K. apply andb_prop in K. destruct K as [K K3]. apply andb_prop in K. destruct K as [K1 K2]. rewrite forallb_forall in K1.
    intros t Ht. split; [apply simple_b_ok, K1, Ht|]. apply (blanks_ok blank_names (table_all (fst v)) t); [apply apart_check_ok; exact K2|exact K3|exact Ht].
  - apply TextRefProofs2.to_references_exact. exact base_references_check.
Qed.
(* the shipped grammar is ordinary, the shipped channels are named like that *)
Example C93_shipped_is_ordinary :
  (exists u, shipped_tokens base_tokens = Ok u /\ ordinary (table_all (fst u)) /\ length (table_all (fst u)) = 63) /\
  (exists v, shipped_tokens base_channels = Ok v /\ channels_named (table_all (fst v)) blank_names) /\ means_references base_tokens no_links.
Proof. exact shipped_ordinary. Qed.
Print Assumptions C93_shipped_is_ordinary.
Lemma shipped_ast_is n c : shipped_ast n c = fst (app_ast no_files no_files in_order 1000 1 nil {| rt_root := bs n; rt_rest := {| mu_container := base_texts; mu_channels := base_channels |} |}
    {| tx_content := bs c; tx_prefix := false; tx_suffix := false |}).
Proof. reflexivity. Qed.
Lemma shipped_ast_conforms u n c t : shipped_tokens base_tokens = Ok u -> shipped_ast n c = Ok (ASuccess t) -> conforms (table_all (fst u)) blank_names True (bs n) t.
Proof.
  intros Hu H. rewrite shipped_ast_is in H. apply (C93_shipped_conforms no_files no_files in_order (fun l _ => Permutation_refl l) 1000 1 u (bs n) {| tx_content := bs c; tx_prefix := false; tx_suffix := false |} t Hu eq_refl H).
Qed.
Lemma same_answer {A} (x : res A) u v : x = Ok u -> x = Ok v -> u = v.
Proof. congruence. Qed.
(* texts the parser accepts: a program of several instructions, and a line cut short *)
Example C93_cases : exists u a b, shipped_tokens base_tokens = Ok u /\
  shipped_ast "program" some_program = Ok (ASuccess a) /\ conforms (table_all (fst u)) blank_names True (bs "program") a /\
  shipped_ast "forDeclaration" "for ix, vy := cd {" = Ok (ASuccess b) /\ conforms (table_all (fst u)) blank_names True (bs "forDeclaration") b /\ ~ conforms (table_all (fst u)) blank_names False (bs "forDeclaration") b.
Proof.
  destruct (case_ok _ _ _ some_program_check) as (u & a & Hu & Ha & _). destruct C92_parser_cuts_short as (u' & b & Hu' & Hb & _ & Nb). assert (E := same_answer _ _ _ Hu' Hu). subst u'. exists u, a, b.
  split; [exact Hu|]. split; [exact Ha|]. split; [exact (shipped_ast_conforms _ _ _ _ Hu Ha)|]. split; [exact Hb|]. split; [exact (shipped_ast_conforms _ _ _ _ Hu Hb)|exact Nb].
Qed.
Print Assumptions C93_cases.
