(* SureRooted.v - what the parser accepts has a root. *)
From Coq Require Import Strings.String Strings.Byte Sorting.Permutation Lia.
From Verif Require Import Go GoLemmas DomainModel DomainSpec DomainProofs CardModel CardSpec CardProofs PatModel PatSpec PatProofs RuleModel RuleSpec RuleProofs PathModel PathSpec PathProofs LexModel LexSpec LexProofs LexProofs2 LexProofs3 AstModel AstSpec AstProofs AstProofs2 RootModel RootProofs AstProofs3 SuiteModel SuiteSpec SuiteProofs TextModel TextSpec TextTokSpec TextRefSpec TextProofs3 TextRefProofs2 AppModel AppSpec AppProofs AppProofs2 AppProofs3 GramModel OrdSpec OrdProofs OrdProofs2 EvtSpec AdeqSpec AdeqProofs7 AdeqProofs8 RootSpec SpellSpec SpellProofs SpellProofs2.
Open Scope list_scope.

Lemma tree_rooted channels root fuel script st a s : (forall p, among channels p -> plain p) -> plain root ->
  fst (to_ast channels fuel root false script st) = Ok (ASuccess a) -> exists r, fst (to_root a s) = Ok (Some r).
Proof.
  intros Hc Hr H. destruct (fst (to_token channels fuel root script st)) as [t| | |] eqn:E; [|unfold to_ast in H; destruct (to_token _ _ _ _ _) as [q s']; cbn in E; subst q; discriminate..].
  destruct (ast_decides channels root fuel script st t Hc Hr E) as [A1 A2]. destruct (tok_valid t) eqn:V; [|destruct (A2 eq_refl) as (m & Em & _); congruence].
  destruct (A1 eq_refl) as (a' & Ea & _ & Nm & _ & So). rewrite H in Ea. injection Ea as <-. destruct (root_answers a s) as [R _]. destruct (R So) as (r & Er & _). exists r. exact Er.
Qed.

Section Texts.
Variables rules_file tokens_file : bytes -> option bytes.
Variable order : list path -> nat -> list path.
Hypothesis O : an_order order.
Variables lex_fuel n : nat.
Lemma ast_rooted r x l k a s :
  means_grammar (mu_container (rt_rest r)) (mu_channels (rt_rest r)) l k -> means_references (ct_tokens (mu_container (rt_rest r))) no_links ->
  (forall t, In t (map fst l) \/ In t (match k with Some ts => ts | None => [] end) -> simple_token t) ->
  tx_prefix x = false -> fst (app_ast rules_file tokens_file order lex_fuel n [] r x) = Ok (ASuccess a) ->
  exists q, fst (to_root a s) = Ok (Some q).
Proof.
  intros M R S Hx H. assert (M' := M). apply create_exact in M'. destruct M' as (T & C & E & A & B). destruct (create_good _ _ _ E) as (G & Gc & _). cbn [fst snd] in G, Gc.
  destruct (app_ast rules_file tokens_file order lex_fuel n [] r x) as [o m'] eqn:Ea. cbn in H. subst o. destruct (ast_answers _ _ _ _ _ _ _ _ _ _ Ea) as (l0 & k0 & T0 & C0 & t & refs & M0 & _ & _ & Nt & _).
  assert (El : map fst l0 = map fst l).
  { apply create_exact in M0. destruct M0 as (T1 & C1 & E1 & A1 & _). rewrite E in E1. injection E1 as <- Q _. destruct A as [A _], A1 as [A1 _]. congruence. }
  rewrite El in Nt.
  assert (Eq' : app_ast rules_file tokens_file order lex_fuel n [] r x = (lexer_says T (replacing []) C order lex_fuel t x, [])).
  { rewrite app_ast_is. unfold call_ast. cbv zeta. destruct (no_links_refs _ R) as (NR & rf & Er & Hr). rewrite plainly_none by exact NR. unfold create_root_token. rewrite E. cbn [bind fst snd]. rewrite (proj2 (proj2 A _ _) Nt). cbn [bind]. rewrite Er. cbn [bind]. rewrite Hr. reflexivity. }
  rewrite Ea in Eq'. injection Eq' as Eq' _. unfold lexer_says in Eq'. change (replacing []) with none in Eq'. destruct (new_lexer T none none t C) as [[p m]| | |] eqn:En; try discriminate. rewrite Hx in Eq'. symmetry in Eq'.
  destruct Nt as [It Nt]. assert (Et := proj1 A). assert (Ec : channel_list C = match k with Some ts => ts | None => [] end) by (destruct k as [ks|], C as [Ct|]; cbn in B |- *; try contradiction; [apply B|reflexivity]).
  assert (S' : forall t, In t (table_all T) \/ In t (channel_list C) -> simple_token t) by (rewrite Et, Ec; exact S).
  assert (Hc : forall q, among (order (map snd m)) q -> In q (map snd m)) by (intros q (j & Hq); eapply Permutation_in; [apply Permutation_sym, O|exact Hq]).
  rewrite <- Et in It. destruct (made_path T C t p m G Gc S' It En) as (Mp & _ & Mc).
  apply (tree_rooted (order (map snd m)) p lex_fuel (tx_content x) (lst_init false) a s); [intros q Hq; apply (made_sane q), Mc, Hc, Hq|apply (made_sane p Mp)|exact Eq'].
Qed.
End Texts.

Section Shipped.
Variables rules_file tokens_file : bytes -> option bytes.
Variable order : list path -> nat -> list path.
Hypothesis O : an_order order.
Variables lex_fuel fuel : nat.
Lemma shipped_rooted u v n x a s : shipped_tokens base_tokens = Ok u -> shipped_tokens base_channels = Ok v -> tx_prefix x = false ->
  fst (app_ast rules_file tokens_file order lex_fuel fuel [] {| rt_root := n; rt_rest := {| mu_container := base_texts; mu_channels := base_channels |} |} x) = Ok (ASuccess a) ->
  exists q, fst (to_root a s) = Ok (Some q).
Proof.
  intros Hu Hv Hx H. assert (H' := H). destruct (app_ast _ _ _ _ _ _ _ _) as [o m'] eqn:E in H'. cbn [fst] in H'. subst o. destruct (ast_answers _ _ _ _ _ _ _ _ _ _ E) as (l & k & _ & _ & _ & _ & M & _). cbn [rt_rest] in M.
  assert (Hu' := Hu). rewrite shipped_is in Hu'. assert (M' := M). unfold base_texts in M'. destruct (grammar_tables _ _ _ _ l k u (non_empty_ok _ channels_not_empty) M' Hu') as (El & v' & Ev & ->). rewrite <- shipped_is in Ev. rewrite Hv in Ev. injection Ev as <-.
  assert (K := holds_ok _ _ v base_channels_check Hv). unfold channels_fine in K. apply andb_prop in K. destruct K as [K K3]. apply andb_prop in K. destruct K as [K1 K2]. rewrite forallb_forall in K1.
  assert (S := holds_ok _ _ u base_check Hu). unfold base_fine in S. apply andb_prop in S. destruct S as [S1 S2]. rewrite forallb_forall in S1.
  apply (ast_rooted rules_file tokens_file order O lex_fuel fuel {| rt_root := n; rt_rest := {| mu_container := base_texts; mu_channels := base_channels |} |} x l (Some (table_all (fst v))) a s M).
  - apply to_references_exact. exact base_references_check.
  - rewrite El. intros t [Ht|Ht]; apply simple_b_ok; [apply S1|apply K1]; exact Ht.
  - exact Hx.
  - exact H.
Qed.
End Shipped.
