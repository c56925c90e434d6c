(* SpellProofs2.v - what the parser accepts conforms to the declared tokens down to the texts. *)
From Coq Require Import Strings.String Strings.Byte Sorting.Permutation Lia.
From Verif Require Import Go GoLemmas DomainModel DomainSpec DomainProofs CardModel CardSpec CardProofs PatModel PatSpec PatProofs RuleModel RuleSpec RuleProofs PathModel PathSpec PathProofs LexModel LexSpec LexProofs LexProofs2 LexProofs3 AstModel AstSpec AstProofs AstProofs2 RootModel RootProofs AstProofs3 SuiteModel SuiteSpec SuiteProofs TextModel TextSpec TextTokSpec TextRefSpec TextProofs3 TextRefProofs2 AppModel AppSpec AppProofs AppProofs2 AppProofs3 GramModel OrdSpec OrdProofs OrdProofs2 EvtSpec AdeqSpec AdeqProofs7 AdeqProofs8 RootSpec SpellSpec SpellProofs.
Open Scope list_scope.

Lemma accepted_spelled T C root p m channels blanks fuel script st a :
  good_table T -> good_channels C -> (forall t, In t (table_all T) \/ In t (channel_list C) -> simple_token t) -> In root (table_all T) ->
  (forall t l e r, In t (table_all T) -> In l (t_must t) -> In (TElem e) l -> te_content e = TRule r -> ~ is_declared (table_all T) (rl_name r)) ->
  (forall t, In t (channel_list C) -> exists r, rule_channel t r /\ In r blanks) ->
  new_lexer T none none root C = Ok (p, m) -> (forall q, among channels q -> In q (map snd m)) ->
  fst (to_ast channels fuel p false script st) = Ok (ASuccess a) -> spelled (table_all T) blanks (t_name root) a.
Proof.
  intros G Gc S I Ap Ch H Hc E. destruct (made_path T C root p m G Gc S I H) as (Mp & Hp & Mc). assert (Or : token_ok root = true) by apply (S root (or_introl I)).
  destruct (fst (to_token channels fuel p script st)) as [t| | |] eqn:Et.
  2-4: unfold to_ast in E; destruct (to_token channels fuel p script st) as [x y]; cbn in Et; subst x; discriminate.
  assert (Pc : forall q, among channels q -> plain q) by (intros q Hq; apply (made_sane q), Mc, Hc, Hq).
  destruct (ast_decides channels p fuel script st t Pc (proj1 (made_sane p Mp)) Et) as [A1 A2].
  destruct (tok_valid t) eqn:V; [|destruct (A2 eq_refl) as (x & Ex & _); congruence].
  destruct (path_element_exact T none none [] root p G ltac:(constructor) Or Hp) as (ext & U).
  destruct (to_token_conf (table_all T) blanks channels (pa_deps p)) with (u := root) (e := pa_element p) (ext := ext) (fuel := fuel) (script := script) (st := st) (t := t) as (b & Eb & Cb); auto.
  - intros u Hu. destruct (S u (or_introl Hu)) as (Ou & Nu & _ & Ru). split; [unfold token_ok in Ou; destruct (t_name u); discriminate|]. split; [exact Nu|]. intros l e Il Ie r Er. split; [split; [|apply (Ru l e r Il Ie Er)]|exact (Ap u l e r Hu Il Ie Er)].
    unfold token_ok in Ou. apply andb_prop in Ou. destruct Ou as [Ou _]. apply andb_prop in Ou. destruct Ou as [_ Ou]. rewrite forallb_forall in Ou. specialize (Ou l Il). unfold tline_ok in Ou. apply andb_prop in Ou. destruct Ou as [_ Ou]. rewrite forallb_forall in Ou. specialize (Ou _ Ie). cbn [tinstr_ok] in Ou. rewrite Er in Ou. exact Ou.
  - intros n e He. apply (path_fetch T [] root p n e G ltac:(constructor) Or Hp) in He. destruct He as [[-> ->]|(_ & u & Iu & Eu & Uu)]; [exists root, [], ext; auto|exists u, [], []; auto].
  - intros q Hq. destruct (Mc q (Hc q Hq)) as (_ & t0 & It & E0). destruct (Ch t0 It) as (r & Hr & Br). exists r. split; [|exact Br]. unfold path_for in E0. destruct (to_path T none none pstate_init t0) as [x st'] eqn:Ex. cbn in E0. subst x. apply (channel_path T none none _ t0 r q st' Hr Ex).
  - unfold to_ast in E. destruct (to_token channels fuel p script st) as [x y] eqn:Ey. cbn in Et. subst x. cbn [bind fst] in E.
    destruct (lexer_mistake_iff_invalid channels p fuel script st t Pc (proj1 (made_sane p Mp))) as [I1 _]; [rewrite Ey; reflexivity|]. rewrite (proj2 I1 V) in E. cbn [bind] in E. rewrite Eb in E. cbn [bind] in E. injection E as <-. exact Cb.
Qed.

(* ---- grammars given as texts ---- *)
Section Texts.
Variables rules_file tokens_file : bytes -> option bytes.
Variable order : list path -> nat -> list path.
Hypothesis O : an_order order.
Variables lex_fuel n : nat.
Lemma ast_spelled r x l k blanks a :
  means_grammar (mu_container (rt_rest r)) (mu_channels (rt_rest r)) l k -> means_references (ct_tokens (mu_container (rt_rest r))) no_links ->
  (forall t, In t (map fst l) \/ In t (match k with Some ts => ts | None => [] end) -> simple_token t) ->
  (forall t ln e ru, In t (map fst l) -> In ln (t_must t) -> In (TElem e) ln -> te_content e = TRule ru -> ~ is_declared (map fst l) (rl_name ru)) ->
  (forall t, In t (match k with Some ts => ts | None => [] end) -> exists ru, rule_channel t ru /\ In ru blanks) ->
  tx_prefix x = false -> fst (app_ast rules_file tokens_file order lex_fuel n [] r x) = Ok (ASuccess a) ->
  spelled (map fst l) blanks (rt_root r) a /\ exists rest, tx_content x = at_discovery a ++ rest /\ at_discovery a <> [].
Proof.
  intros M R S Ap Ch Hx H. assert (M' := M). apply create_exact in M'. destruct M' as (T & C & E & A & B). destruct (create_good _ _ _ E) as (G & Gc & _). cbn [fst snd] in G, Gc.
  destruct (app_ast rules_file tokens_file order lex_fuel n [] r x) as [o m'] eqn:Ea. cbn in H. subst o. destruct (ast_answers _ _ _ _ _ _ _ _ _ _ Ea) as (l0 & k0 & T0 & C0 & t & refs & M0 & _ & _ & Nt & _).
  assert (El : map fst l0 = map fst l).
  { apply create_exact in M0. destruct M0 as (T1 & C1 & E1 & A1 & _). rewrite E in E1. injection E1 as <- Q _. destruct A as [A _], A1 as [A1 _]. congruence. }
  rewrite El in Nt. destruct (ast_is_the_lexer rules_file tokens_file order lex_fuel n [] r x l k t M R Nt) as (T2 & C2 & A2 & B2 & Eq).
  assert (Eq' : app_ast rules_file tokens_file order lex_fuel n [] r x = (lexer_says T (replacing []) C order lex_fuel t x, [])).
  { rewrite app_ast_is. unfold call_ast. cbv zeta. destruct (no_links_refs _ R) as (NR & rf & Er & Hr). rewrite plainly_none by exact NR. unfold create_root_token. rewrite E. cbn [bind fst snd]. rewrite (proj2 (proj2 A _ _) Nt). cbn [bind]. rewrite Er. cbn [bind]. rewrite Hr. reflexivity. }
  rewrite Ea in Eq'. injection Eq' as Eq' _. unfold lexer_says in Eq'. change (replacing []) with none in Eq'. destruct (new_lexer T none none t C) as [[p m]| | |] eqn:En; try discriminate. rewrite Hx in Eq'. symmetry in Eq'.
  destruct Nt as [It Nt]. assert (Et := proj1 A). assert (Ec : channel_list C = match k with Some ts => ts | None => [] end) by (destruct k as [ks|], C as [Ct|]; cbn in B |- *; try contradiction; [apply B|reflexivity]).
  assert (S' : forall t, In t (table_all T) \/ In t (channel_list C) -> simple_token t) by (rewrite Et, Ec; exact S).
  assert (Hc : forall q, among (order (map snd m)) q -> In q (map snd m)) by (intros q (j & Hq); eapply Permutation_in; [apply Permutation_sym, O|exact Hq]).
  rewrite <- Et in It. destruct (made_path T C t p m G Gc S' It En) as (Mp & _ & Mc). split.
  - rewrite <- Et, <- Nt. apply (accepted_spelled T C t p m (order (map snd m)) blanks lex_fuel (tx_content x) (lst_init false)); auto; [rewrite Et; exact Ap|rewrite Ec; exact Ch].
  - destruct (ast_success_text (order (map snd m)) p lex_fuel (tx_content x) (lst_init false) a) as (rest & E1 & E2 & _); [intros q Hq; apply (made_sane q), Mc, Hc, Hq|apply (made_sane p Mp)|exact Eq'|]. exists rest. auto.
Qed.
End Texts.

Section Shipped.
Variables rules_file tokens_file : bytes -> option bytes.
Variable order : list path -> nat -> list path.
Hypothesis O : an_order order.
Variables lex_fuel fuel : nat.
Lemma channel_in ts t r : In t ts -> rule_channel t r -> In r (rules_of ts).
Proof.
  intros I (_ & _ & k & E & _). apply in_concat. exists (concat (map (fun l => line_rules (elements l)) (t_must t))). split; [apply in_map_iff; exists t; auto|]. rewrite E. left. reflexivity.
Qed.
Lemma shipped_spelled u v n x a : shipped_tokens base_tokens = Ok u -> shipped_tokens base_channels = Ok v -> tx_prefix x = false ->
  fst (app_ast rules_file tokens_file order lex_fuel fuel [] {| rt_root := n; rt_rest := {| mu_container := base_texts; mu_channels := base_channels |} |} x) = Ok (ASuccess a) ->
  spelled (table_all (fst u)) (rules_of (table_all (fst v))) n a /\ exists rest, tx_content x = at_discovery a ++ rest /\ at_discovery a <> [].
Proof.
  intros Hu Hv Hx H. assert (H' := H). destruct (app_ast _ _ _ _ _ _ _ _) as [o m'] eqn:E in H'. cbn [fst] in H'. subst o. destruct (ast_answers _ _ _ _ _ _ _ _ _ _ E) as (l & k & _ & _ & _ & _ & M & _). cbn [rt_rest] in M.
  assert (Hu' := Hu). rewrite shipped_is in Hu'. assert (M' := M). unfold base_texts in M'. destruct (grammar_tables _ _ _ _ l k u (non_empty_ok _ channels_not_empty) M' Hu') as (El & v' & Ev & ->). rewrite <- shipped_is in Ev. rewrite Hv in Ev. injection Ev as <-.
  assert (K := holds_ok _ _ v base_channels_check Hv). unfold channels_fine in K. apply andb_prop in K. destruct K as [K K3]. apply andb_prop in K. destruct K as [K1 K2]. rewrite forallb_forall in K1.
  assert (S := holds_ok _ _ u base_check Hu). unfold base_fine in S. apply andb_prop in S. destruct S as [S1 S2]. rewrite forallb_forall in S1.
  rewrite <- El. apply (ast_spelled rules_file tokens_file order O lex_fuel fuel {| rt_root := n; rt_rest := {| mu_container := base_texts; mu_channels := base_channels |} |} x l (Some (table_all (fst v))) (rules_of (table_all (fst v))) a M).
  - apply to_references_exact. exact base_references_check.
  - rewrite El. intros t [Ht|Ht]; apply simple_b_ok; [apply S1|apply K1]; exact Ht.
  - rewrite El. intros t ln e ru Ht Hl He Er. exact (rules_apart_ok _ t ln e ru S2 Ht Hl He Er).
  - intros t Ht. destruct (apart_check_ok _ K2) as [A _]. destruct (A t Ht) as (r & Hr). exists r. split; [exact Hr|eapply channel_in; eassumption].
  - exact Hx.
  - exact H.
Qed.
End Shipped.
