(* SureProps.v - property theorem C110: executing what the shipped parser accepts does not
   panic, if nothing in it is a comment. *)
From Coq Require Import Strings.String Strings.Byte Sorting.Permutation Lia.
From Verif Require Import Go GoLemmas DomainModel CardModel RuleModel RuleSpec PathModel PathSpec LexModel LexSpec AstModel AstSpec TextModel TextSpec TextTokSpec TextRefSpec SuiteModel SuiteSpec AppModel AppSpec GramModel RootModel RootProofs ParseModel ParseSpec BaseModel BaseSpec EvtModel EvtSpec AdeqProofs2 EvtProofs5 EvtProofs6 EvtProofs EvtReadProps OrdSpec OrdProofs2 AdeqSpec AdeqProofs6 AdeqProofs8 AdeqProps RootSpec AdeqConfProps SpellSpec SpellProofs2 SpellProps SureTree SureProofs SureRoots SureChecks SureShipped SureRooted.
Open Scope string_scope.
Open Scope list_scope.

(* ---- C110 ---- *)
(* no part of the tree, however deep, is a comment *)
Definition without_comments (a : atoken) : Prop :=
  forall b e, In b (RootSpec.all_of a) -> In e (entries (at_matches b)) -> en_name e <> bs "SINGLE_LINE_COMMENT" /\ en_name e <> bs "MULTI_LINE_COMMENT".

Lemma solid_below a b : solid a -> In b (RootSpec.all_of a) -> solid b.
Proof.
  induction a as [name i ms IH] using atoken_ind_kids. intros S Hb. destruct (step_down _ _ _ _ Hb) as [->|(m & x & Hx & Hb')]; [exact S|]. inversion S as [? ? ? _ _ _ K]; subst. exact (IH m x Hx (K m x Hx) Hb').
Qed.
Lemma rooted_full a s r : fst (to_root a s) = Ok (Some r) -> full a.
Proof.
  intros H b Hb E. destruct (root_answers a s) as (_ & R2 & R3). assert (N : ~ solid a) by (intros S; exact (solid_text b (solid_below a b S Hb) E)).
  destruct (at_matches a) as [|m l] eqn:Em; [rewrite (R2 eq_refl) in H; discriminate|]. rewrite (R3 ltac:(discriminate) N) in H. discriminate.
Qed.

(* a tree of the shipped grammar, spelled as its rules read, with numbers of any size *)
Theorem C110_spelled_trees_do_not_panic :
  forall bitsize parse_float u v n a s r,
  shipped_tokens base_tokens = Ok u -> shipped_tokens base_channels = Ok v ->
  spelled (table_all (fst u)) (rules_of (table_all (fst v))) (bs n) a -> without_comments a ->
  fst (to_root a s) = Ok (Some r) ->
  (exists o, app_execute (base_events bitsize parse_float) r o) /\
  forall o, app_execute (base_events bitsize parse_float) r o ->
  o = Err \/ (exists x, o = Ok (VObj x) /\ kind n x) \/ (n = "variableName" /\ exists w, o = Ok (VText w)).
Proof.
  intros bitsize pf u v n a s r Hu Hv S F Hr. split.
  { destruct (base_total bitsize pf r (ro_name r)) as (x & Hx & _). eexists. apply execute_outcomes. exists x. split; [exact Hx|reflexivity]. }
  intros o Ho. assert (K := holds_ok _ _ v (holds_ok _ _ u shipped_checks Hu) Hv). apply andb_prop in K. destruct K as [K1 K2].
  assert (M := root_mirrors _ _ _ Hr). assert (Nv := free_never bitsize pf _ _ K1 K2 a r n M S F (rooted_full a s r Hr)). apply execute_outcomes in Ho. destruct Ho as (x & Hx & ->).
  assert (En : ro_name r = bs n). { rewrite <- (spelled_name _ _ _ _ S). destruct M. reflexivity. } rewrite En in Hx. destruct (Nv x Hx) as [Np Ok']. destruct x as [[l w]| | |]; [|left; reflexivity|congruence|exfalso; exact (base_no_fuel bitsize pf _ _ Hx)].
  destruct (Ok' l w eq_refl) as [-> Q]. destruct w as [|w|l|l|y]; unfold okay in Q; try contradiction.
  - right. right. destruct Q as [Q|Q]; [split; [exact Q|eauto]|]. exfalso. destruct (grammar_fits bitsize pf _ _ K1) as (G1 & _). destruct (spelled_line _ _ _ _ S) as (t & l & It & Et & _). specialize (G1 t n It Et). unfold EvtProofs6.token in *. congruence.
  - right. left. exists y. split; [reflexivity|apply Q].
Qed.
Print Assumptions C110_spelled_trees_do_not_panic.

Section C110.
Variables rules_file tokens_file : bytes -> option bytes.
Variable order : list path -> nat -> list path.
Hypothesis O : an_order order.
Variables lex_fuel fuel : nat.
(* whatever Parser.AST accepts without comments with the shipped grammar has a root, and Execute
   does not panic on it but answers with an error or with an object of the kind of the token,
   whatever the bit size, ParseFloat and the order of the maps *)
Theorem C110_accepted_texts_do_not_panic : forall bitsize parse_float u v n x a s,
  shipped_tokens base_tokens = Ok u -> shipped_tokens base_channels = Ok v -> tx_prefix x = false ->
  fst (app_ast rules_file tokens_file order lex_fuel fuel [] {| rt_root := bs n; rt_rest := {| mu_container := base_texts; mu_channels := base_channels |} |} x) = Ok (ASuccess a) ->
  without_comments a ->
  exists r, fst (to_root a s) = Ok (Some r) /\ (exists o, app_execute (base_events bitsize parse_float) r o) /\
  forall o, app_execute (base_events bitsize parse_float) r o ->
  o = Err \/ (exists y, o = Ok (VObj y) /\ kind n y) \/ (n = "variableName" /\ exists w, o = Ok (VText w)).
Proof.
  intros bitsize pf u v n x a s Hu Hv Hx Ha F. destruct (C109_shipped_is_spelled rules_file tokens_file order O lex_fuel fuel u v (bs n) x a Hu Hv Hx Ha) as [S _].
  destruct (shipped_rooted rules_file tokens_file order O lex_fuel fuel u v (bs n) x a s Hu Hv Hx Ha) as (r & Hr). exists r. split; [exact Hr|]. exact (C110_spelled_trees_do_not_panic bitsize pf u v n a s r Hu Hv S F Hr).
Qed.
End C110.
Print Assumptions C110_accepted_texts_do_not_panic.

(* texts without comments that are accepted and have a root *)
Definition free_b (a : atoken) : bool :=
  forallb (fun b => forallb (fun e => negb (bytes_eqb (en_name e) (bs "SINGLE_LINE_COMMENT")) && negb (bytes_eqb (en_name e) (bs "MULTI_LINE_COMMENT"))) (entries (at_matches b))) (RootSpec.all_of a).
Lemma free_ok a : free_b a = true -> without_comments a.
Proof.
  intros H b e Hb He. unfold free_b in H. rewrite forallb_forall in H. specialize (H b Hb). rewrite forallb_forall in H. specialize (H e He). apply andb_prop in H. destruct H as [H1 H2]. split; intros E; rewrite E in *; rewrite bytes_eqb_refl in *; discriminate.
Qed.
Definition root_b (a : atoken) : bool := free_b a && match fst (to_root a []) with Ok (Some _) => true | _ => false end.
Lemma some_root (x : res (option root)) : match x with Ok (Some _) => true | _ => false end = true -> exists r, x = Ok (Some r).
Proof. destruct x as [[r|]| | |]; try discriminate. exists r. reflexivity. Qed.
Lemma root_ok a : root_b a = true -> without_comments a /\ exists r, fst (to_root a []) = Ok (Some r).
Proof. unfold root_b. intros K. apply andb_prop in K. destruct K as [K1 K2]. split; [exact (free_ok a K1)|exact (some_root _ K2)]. Qed.
Lemma no_panic u v n c a r : shipped_tokens base_tokens = Ok u -> shipped_tokens base_channels = Ok v -> shipped_ast n c = Ok (ASuccess a) ->
  without_comments a -> fst (to_root a []) = Ok (Some r) -> forall bitsize parse_float o, app_execute (base_events bitsize parse_float) r o -> o <> Panic.
Proof.
  intros Hu Hv Ha F Er b f o Ho E. assert (S := shipped_ast_spelled u v n c a Hu Hv Ha).
  destruct (C110_spelled_trees_do_not_panic b f u v n a [] r Hu Hv S F Er) as [_ T]. destruct (T o Ho) as [Q|[(y & Q & _)|(_ & w & Q)]]; congruence.
Qed.
Definition rooted_case (n c : string) : Prop := exists u v a r, shipped_tokens base_tokens = Ok u /\ shipped_tokens base_channels = Ok v /\ shipped_ast n c = Ok (ASuccess a) /\ at_discovery a = bs c /\
  without_comments a /\ fst (to_root a []) = Ok (Some r) /\ forall bitsize parse_float o, app_execute (base_events bitsize parse_float) r o -> o <> Panic.
Lemma rooted_ok n c : case_check n c (fun _ a => root_b a) = true -> rooted_case n c.
Proof.
  intros H. destruct (holds_some _ _ base_channels_check) as (v & Hv). destruct (case_ok n c (fun _ a => root_b a) H) as (u & a & Hu & Ha & Ed & K). cbv beta in K. destruct (root_ok a K) as [F [r Er]].
  exists u, v, a, r. split; [exact Hu|]. split; [exact Hv|]. split; [exact Ha|]. split; [exact Ed|]. split; [exact F|]. split; [exact Er|]. exact (no_panic u v n c a r Hu Hv Ha F Er).
Qed.
(* the number is too big for any type; the body of the loop assigns it to its own variable *)
Lemma big_check : case_check "program" "for ix, vy := cd { ix = 99999999999999999999999999 }" (fun _ a => root_b a) = true.
Proof. vm_compute. reflexivity. Qed.
Lemma loop_check : case_check "program" "for (ix, vy := [1, 2]) { ix = [1, 2][1] vy = ix[0:1] }" (fun _ a => root_b a) = true.
Proof. vm_compute. reflexivity. Qed.
Example C110_big_number : rooted_case "program" "for ix, vy := cd { ix = 99999999999999999999999999 }".
Proof. exact (rooted_ok _ _ big_check). Qed.
Example C110_loop : rooted_case "program" "for (ix, vy := [1, 2]) { ix = [1, 2][1] vy = ix[0:1] }".
Proof. exact (rooted_ok _ _ loop_check). Qed.
Print Assumptions C110_loop.
