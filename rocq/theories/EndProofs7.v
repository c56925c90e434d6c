(* EndProofs7.v - the tests of the shipped grammar always answer. *)
From Coq Require Import Strings.String Strings.Byte Sorting.Permutation Lia.
From Verif Require Import Go GoLemmas DomainModel DomainSpec DomainProofs CardModel CardSpec CardProofs PatModel PatSpec PatProofs RuleModel RuleSpec RuleProofs PathModel PathSpec PathProofs LexModel LexSpec LexProofs LexProofs2 LexProofs3 AstModel AstSpec AstProofs AstProofs2 RootModel RootProofs AstProofs3 SuiteModel SuiteSpec SuiteProofs TextModel TextSpec TextTokSpec TextRefSpec TextProofs3 TextRefProofs2 AppModel AppSpec AppProofs AppProofs2 AppProofs3 GramModel OrdSpec OrdProofs OrdProofs2 EvtSpec AdeqSpec AdeqProofs7 AdeqProofs8 EndSpec EndProofs EndProofs5 EndProofs6 RootSpec.
Open Scope list_scope.

Lemma lexer_settled T C t still depth order fuel text : closed_grammar T C -> (forall t, In t (channel_list C) -> exists r, rule_channel t r) ->
  (forall t p, In t (table_all T) -> path_for T none none t = Ok p -> settles still depth p) -> In t (table_all T) -> an_order order -> (length text + 2) * (depth + 2) <= fuel ->
  exists p m a, new_lexer T none none t C = Ok (p, m) /\ fst (to_ast (order (map snd m)) fuel p false text (lst_init false)) = Ok a.
Proof.
  intros Cg Ch Se It O Lf. assert (G := proj1 Cg). assert (Gc := proj1 (proj2 Cg)). destruct (closed_lexer T C t Cg It) as (p & m & En & Mp & Mc). exists p, m.
  destruct (new_lexer_spec T none none t C G Gc) as [Sp _]; [apply (proj1 (proj2 (proj2 Cg)) t (or_introl It))|]. assert (En' := En). apply Sp in En'. destruct En' as (Hp & ps & F & Em).
  assert (Hc : forall q, among (order (map snd m)) q -> In q (map snd m)) by (intros q (j & Hq); eapply Permutation_in; [apply Permutation_sym, O|exact Hq]).
  destruct (settled_answers (order (map snd m)) p still depth fuel text (lst_init false)) as (a & Ea).
  - intros j k. eapply Permutation_trans; [apply Permutation_sym, O|apply O].
  - intros q Hq. apply Hc in Hq. rewrite Em, map_rev in Hq. apply in_rev in Hq.
    assert (X : exists t, In t (channel_list C) /\ path_for T none none t = Ok q).
    { clear - F Hq. induction F as [|u q' l ps E F IH]; [destruct Hq|]. cbn in Hq. destruct Hq as [<-|Hq]; [exists u; split; [left; reflexivity|exact E]|]. destruct (IH Hq) as (w & Hw & Ew). exists w. split; [right; exact Hw|exact Ew]. }
    destruct X as (u & Iu & Eu). destruct (Ch u Iu) as (ru & Hr). exists ru. unfold path_for in Eu. destruct (to_path T none none pstate_init u) as [y st'] eqn:Ey. cbn in Eu. subst y. apply (channel_path T none none _ u ru q st' Hr Ey).
  - intros q Hq. apply made_sane. apply Mc. apply Hc. exact Hq.
  - apply (made_sane p Mp).
  - apply (made_sane p Mp).
  - apply (Se t p It Hp).
  - reflexivity.
  - exact Lf.
  - exists a. auto.
Qed.
Lemma suites_settled T tests C still depth order fuel : closed_grammar T C -> (forall t, In t (channel_list C) -> exists r, rule_channel t r) ->
  (forall t p, In t (table_all T) -> path_for T none none t = Ok p -> settles still depth p) -> (forall n j, an_order (order n j)) -> (forall n ts, tests n = Some ts -> ts <> []) ->
  (forall n ts text, tests n = Some ts -> In text ts -> (length text + 2) * (depth + 2) <= fuel) ->
  exists ss, execute_suites T tests C none none order fuel = Ok ss.
Proof.
  intros Cg Ch Se O Hne Hl. assert (G : good_table T) by exact (proj1 Cg).
  destruct (suites_first_failure T tests C none none order fuel G Hne) as [X|(b & t & j & text & af & Ej & _ & F)]; [exact X|exfalso].
  assert (J : In (t, j, text) (jobs T tests)) by (rewrite Ej; apply in_or_app; right; left; reflexivity). apply jobs_iff in J. destruct J as (ts & I & Et & En).
  destruct (lexer_settled T C t still depth (order (t_name t) j) fuel text Cg Ch Se I (O _ _) (Hl _ ts text Et (nth_error_In _ _ En))) as (p & m & a & E1 & E2). unfold answer in F. rewrite E1, E2 in F. inversion F.
Qed.
Section Texts.
Variables rules_file tokens_file : bytes -> option bytes.
Variable order : bytes -> nat -> list path -> nat -> list path.
Hypothesis O : forall n j, an_order (order n j).
Variables lex_fuel n : nat.
Lemma texts_tests pt rl tk ch u v still depth height root :
  tokens_of pt rl tk = Ok u -> tokens_of pt rl ch = Ok v -> ch <> [] -> to_references tk = Ok no_links ->
  forallb simple_b (table_all (fst u)) = true -> ends_fine still depth height root u = true ->
  forallb simple_b (table_all (fst v)) = true -> apart_check (table_all (fst v)) = true ->
  (forall k ts text, In (k, Some ts) (snd u) -> In text ts -> (length text + 2) * (depth + 2) <= lex_fuel) ->
  exists ss, fst (app_tests rules_file tokens_file order lex_fuel n [] {| mu_container := {| ct_patterns := pt; ct_rules := rl; ct_tokens := tk |}; mu_channels := ch |}) = Ok ss.
Proof.
  intros Hu Hv Nc R S1 S2 C1 C2 Lf. rewrite forallb_forall in S1. rewrite forallb_forall in C1. unfold ends_fine in S2. apply andb_prop in S2. destruct S2 as [Cl S2].
  destruct (find _ (table_all (fst u))) as [t0|] eqn:Ft; [|discriminate]. apply find_some in Ft. destruct Ft as [I0 _]. destruct (path_for (fst u) none none t0) as [p0| | |] eqn:E0; try discriminate.
  assert (E : create_tokens {| ct_patterns := pt; ct_rules := rl; ct_tokens := tk |} ch = Ok (u, Some (fst v))).
  { unfold tokens_of in Hu, Hv. unfold create_tokens. cbn [ct_patterns ct_rules ct_tokens]. destruct (to_patterns pt) as [ps| | |]; cbn [bind] in *; try discriminate. destruct (to_rules rl (Some ps)) as [rs| | |]; cbn [bind] in *; try discriminate. rewrite Hu. cbn [bind]. destruct ch; [congruence|]. rewrite Hv. reflexivity. }
  destruct u as [T tests]. cbn [fst snd] in *. assert (Hch : forall t, In t (table_all (fst v)) -> exists r, rule_channel t r) by (apply (proj1 (apart_check_ok _ C2))).
  destruct (create_good _ _ _ E) as (G & Gc & Gt). cbn [fst snd] in G, Gc, Gt. assert (Fs : Forall simple_token (table_all T)) by (apply Forall_forall; intros t' Ht; apply simple_b_ok, S1, Ht).
  rewrite app_tests_is. unfold call_tests. cbn [mu_container mu_channels]. apply to_references_exact in R. destruct (no_links_refs _ R) as (NR & rf & Er & Hr). rewrite plainly_none by exact NR. rewrite E. cbn [bind fst snd ct_tokens]. rewrite Er. cbn [bind]. rewrite Hr. cbn [fst]. change (replacing []) with none.
  apply (suites_settled T (tests_of tests) (Some (fst v)) still depth order lex_fuel); auto.
  - apply closed_table; auto. intros t' Ht. split; [apply simple_b_ok, C1; exact Ht|apply Hch; exact Ht].
  - intros t' p Ht Ep. apply (table_settles T T t0 p0 still depth height G G eq_refl Fs I0 E0 S2 t' p Ht Ep).
  - intros k ts Et. apply (Gt k ts Et).
  - intros k ts text Et It. unfold tests_of in Et. destruct (find _ tests) as [[k' o]|] eqn:F; [|discriminate]. apply find_some in F. destruct F as [F _]. subst o. apply (Lf k' ts text F It).
Qed.
End Texts.
(* the longest of the shipped tests has 263 bytes *)
Definition short_tests (u : table token * list (bytes * option (list bytes))) : bool := forallb (fun x => match snd x with Some l => forallb (fun t => Nat.leb (length t) 263) l | None => true end) (snd u).
Lemma base_tests_check : AdeqProofs8.holds (shipped_tokens base_tokens) short_tests = true.
Proof. vm_compute. reflexivity. Qed.
Lemma shipped_tests_answer rules_file tokens_file order lex_fuel fuel : (forall n j, an_order (order n j)) -> (263 + 2) * 22 <= lex_fuel ->
  exists ss, fst (app_tests rules_file tokens_file order lex_fuel fuel [] {| mu_container := base_texts; mu_channels := base_channels |}) = Ok ss.
Proof.
  intros O Lf. destruct (holds_made _ _ base_channels_check) as (v & Hv & Kv). unfold channels_fine in Kv. apply andb_prop in Kv. destruct Kv as [Kv _]. apply andb_prop in Kv. destruct Kv as [K1 K2].
  destruct (holds_made _ _ base_check) as (u & Hu & S). unfold base_fine in S. apply andb_prop in S. destruct S as [S1 _]. assert (B := holds_ok _ _ u base_ends_check Hu). unfold base_ends in B. assert (L := holds_ok _ _ u base_tests_check Hu).
  rewrite shipped_is in Hu, Hv. unfold base_texts.
  apply (texts_tests rules_file tokens_file order O lex_fuel fuel base_patterns base_rules base_tokens base_channels u v base_still 20 100 (bs "program"%string) Hu Hv (non_empty_ok _ channels_not_empty) base_references_check S1 B K1 K2).
  intros k ts text I1 I2. unfold short_tests in L. rewrite forallb_forall in L. specialize (L _ I1). cbn [snd] in L. rewrite forallb_forall in L. specialize (L _ I2). apply Nat.leb_le in L. lia.
Qed.
