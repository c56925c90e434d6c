(* CharProofs4.v - no character is cut by a parser made of UTF-8 texts. *)
From Coq Require Import Strings.String Strings.Byte Sorting.Permutation Lia.
From Verif Require Import Go GoLemmas DomainModel DomainSpec CardModel PatModel RuleModel PathModel PathSpec PathProofs LexModel LexSpec LexProofs AstModel AstSpec AstProofs AstProofs2 AstProofs3 SuiteModel SuiteSpec SuiteProofs TextModel TextSpec TextTokSpec TextRefSpec TextRefProofs2 AppModel AppSpec AppProofs AppProofs2 AppProofs3 OrdSpec AdeqProofs8 Utf8Spec CharSpec CharProofs CharProofs2 CharProofs3.
Open Scope list_scope.

(* ---- the rules in the elements of declared tokens ---- *)
Definition has_rule (t : token) (r : rule) : Prop := exists l e, In l (all_lines t) /\ In (TElem e) l /\ te_content e = TRule r.
Lemma unf_direct D s u e ext c : unfolds D none none s u e ext -> directly e c -> exists l al y ext', In l (all_lines u) /\ In (TElem y) l /\ elem_unfolds D none none s (t_name u) al y c ext'.
Proof.
  intros U Hd. unfold all_lines. inversion U as [? ? must ext0 En L|? ? ls must not ext1 ext2 En L1 L2]; subst; destruct Hd as [(x & Hx & Hc)|(ls' & E & x & Hx & Hc)]; cbn in *; try discriminate.
  - destruct (lunf_from _ _ _ _ _ _ _ _ L Hx Hc) as (l & al & y & e' & Hl & Hy & E). exists l, al, y, e'. split; [apply in_or_app; left; exact Hl|auto].
  - destruct (lunf_from _ _ _ _ _ _ _ _ L1 Hx Hc) as (l & al & y & e' & Hl & Hy & E). exists l, al, y, e'. split; [apply in_or_app; left; exact Hl|auto].
  - injection E as <-. destruct (lunf_from _ _ _ _ _ _ _ _ L2 Hx Hc) as (l & al & y & e' & Hl & Hy & E). exists l, al, y, e'. rewrite En. split; [apply in_or_app; right; exact Hl|auto].
Qed.
Lemma unf_rules D c r : rule_in c r -> forall s u e ext, unfolds D none none s u e ext -> directly e c -> exists v, (v = u \/ In v D) /\ has_rule v r.
Proof.
  induction 1 as [r k|e' sp k c r Hd Hr IH|ls c r Hl Hr IH]; intros s u e ext U Hd'; destruct (unf_direct _ _ _ _ _ _ U Hd') as (l & al & y & ext' & Il & Iy & E); inversion E; subst; try discriminate.
  - exists u. split; [left; reflexivity|]. exists l, y. auto.
  - match goal with U' : unfolds _ _ _ _ _ e' _ |- _ => destruct (IH _ _ _ _ U' Hd) as (v & [-> |Hv] & Hh) end; [|exists v; auto]. eexists. split; [right; eassumption|exact Hh].
Qed.
Lemma made_rules_utf8 T ts t p : good_table T -> Forall (fun u => token_ok u = true) ts -> token_ok t = true -> fst (to_path T none none (after_calls T none none ts) t) = Ok p ->
  (forall v r, (v = t \/ In v (table_all T)) -> has_rule v r -> rule_utf8 r) -> path_utf8 p.
Proof.
  intros G F Ot E H. destruct (path_element_exact T none none ts t p G F Ot E) as [ext U].
  assert (Hr : el_utf8 (pa_element p)) by (intros c Hc r Hr; destruct (unf_rules _ _ _ Hr _ _ _ _ U Hc) as (v & Hv & Hh); apply (H v r Hv Hh)).
  split; [exact Hr|]. intros n e He. assert (Hd : dep_fetch (pa_deps p) n = Ok e) by (unfold dep_fetch; rewrite He; reflexivity). apply (path_fetch T ts t p n e G F Ot E) in Hd. destruct Hd as [[_ ->]|(_ & u & Iu & _ & Uu)]; [exact Hr|].
  intros c Hc r Hi. destruct (unf_rules _ _ _ Hi _ _ _ _ Uu Hc) as (v & [-> |Hv] & Hh); [apply (H u r)|apply (H v r)]; auto.
Qed.

(* ---- tokens read from a text ---- *)
Lemma piece_rule (find : bytes -> rule -> Prop) p l e r : piece_means find p l -> In (TElem e) l -> te_content e = TRule r -> exists n, find n r.
Proof.
  intros H I E. destruct H as [t x h a b Ta Rb|t h a Ta|x h b Rb|]; cbn in I.
  - destruct I as [I|[I|[]]]; subst; [inversion Ta; subst; discriminate|inversion Rb; subst]. cbn in E. injection E as ->. eexists. eassumption.
  - destruct I as [I|[]]; subst. inversion Ta; subst. discriminate.
  - destruct I as [I|[]]; subst. inversion Rb; subst. cbn in E. injection E as ->. eexists. eassumption.
  - destruct I as [I|[]]. discriminate.
Qed.
Lemma forall2_in {A B} (P : A -> B -> Prop) l m y : Forall2 P l m -> In y m -> exists x, In x l /\ P x y.
Proof. induction 1 as [|a b l m H F IH]; intros I; [destruct I|]. destruct I as [<-|I]; [exists a; split; [left; reflexivity|exact H]|]. destruct (IH I) as (x & Hx & Hp). exists x. split; [right; exact Hx|exact Hp]. Qed.
Lemma lines_rule (find : bytes -> rule -> Prop) text ls l e r : lines_mean find text ls -> In l ls -> In (TElem e) l -> te_content e = TRule r -> exists n, find n r.
Proof.
  intros (ts & _ & F) I Ie E. destruct (forall2_in _ _ _ _ F I) as (x & _ & _ & t & ps & lls & _ & _ & Fp & ->). apply in_concat in Ie. destruct Ie as (y & Iy & Ie). destruct (forall2_in _ _ _ _ Fp Iy) as (p & _ & Hp). apply (piece_rule find p y e r Hp Ie E).
Qed.
Lemma tokens_rule (find : bytes -> rule -> Prop) text l t r : means_tokens find text l -> In t (map fst l) -> has_rule t r -> exists n, find n r.
Proof.
  intros (ds & _ & F & _) I (ln & e & Il & Ie & E). apply in_map_iff in I. destruct I as (x & <- & Ix). destruct (forall2_in _ _ _ _ F Ix) as (d & _ & _ & block & _ & t & ts & _ & Lm & Ln). unfold all_lines in Il. apply in_app_or in Il. destruct Il as [Il|Il].
  - apply (lines_rule find t _ ln e r Lm Il Ie E).
  - destruct (t_not (fst x)) as [nl|]; [|destruct Il]. destruct ts as [|n ts]; [destruct Ln|]. destruct Ln as (t' & _ & Ln). apply (lines_rule find t' nl ln e r Ln Il Ie E).
Qed.

(* ---- grammars given as texts ---- *)
Section Texts.
Variables rules_file tokens_file : bytes -> option bytes.
Variable order : list path -> nat -> list path.
Hypothesis O : an_order order.
Variables lex_fuel n : nat.
Lemma grammar_rules_utf8 c ch l k t r : utf8_text (ct_patterns c) -> utf8_text (ct_rules c) -> means_grammar c ch l k ->
  (In t (map fst l) \/ In t (match k with Some ts => ts | None => [] end)) -> has_rule t r -> rule_utf8 r.
Proof.
  intros Up Ur (rs & (ps & Mp & Mr) & Ml & Mk) I Hr. assert (U := rules_utf8 ps (ct_rules c) rs Ur (patterns_utf8 _ _ Up Mp) Mr). rewrite Forall_forall in U. apply U.
  destruct I as [I|I]; [destruct (tokens_rule _ _ _ _ _ Ml I Hr) as (x & Hx & _); exact Hx|]. destruct k as [ts|]; [|destruct I]. destruct Mk as (_ & k' & Mk & ->). destruct (tokens_rule _ _ _ _ _ Mk I Hr) as (x & Hx & _). exact Hx.
Qed.
Lemma ast_utf8 r x l k a :
  means_grammar (mu_container (rt_rest r)) (mu_channels (rt_rest r)) l k -> means_references (ct_tokens (mu_container (rt_rest r))) no_links ->
  (forall t, In t (map fst l) \/ In t (match k with Some ts => ts | None => [] end) -> simple_token t) ->
  utf8_text (ct_patterns (mu_container (rt_rest r))) -> utf8_text (ct_rules (mu_container (rt_rest r))) -> utf8_text (tx_content x) ->
  tx_prefix x = false -> fst (app_ast rules_file tokens_file order lex_fuel n [] r x) = Ok (ASuccess a) ->
  utf8_text (at_discovery a) /\ exists rest, tx_content x = at_discovery a ++ rest /\ utf8_text rest.
Proof.
  intros M R S Up Ur Us Hx H. assert (M' := M). apply create_exact in M'. destruct M' as (T & C & E & A & B). destruct (create_good _ _ _ E) as (G & Gc & _). cbn [fst snd] in G, Gc.
  destruct (app_ast rules_file tokens_file order lex_fuel n [] r x) as [o m'] eqn:Ea. cbn in H. subst o. destruct (ast_answers _ _ _ _ _ _ _ _ _ _ Ea) as (l0 & k0 & T0 & C0 & t & refs & M0 & _ & _ & Nt & _).
  assert (El : map fst l0 = map fst l).
  { apply create_exact in M0. destruct M0 as (T1 & C1 & E1 & A1 & _). rewrite E in E1. injection E1 as <- Q _. destruct A as [A _], A1 as [A1 _]. congruence. }
  rewrite El in Nt.
  assert (Eq' : app_ast rules_file tokens_file order lex_fuel n [] r x = (lexer_says T (replacing []) C order lex_fuel t x, [])).
  { rewrite app_ast_is. unfold call_ast. cbv zeta. destruct (no_links_refs _ R) as (NR & rf & Er & Hr). rewrite plainly_none by exact NR. unfold create_root_token. rewrite E. cbn [bind fst snd]. rewrite (proj2 (proj2 A _ _) Nt). cbn [bind]. rewrite Er. cbn [bind]. rewrite Hr. reflexivity. }
  rewrite Ea in Eq'. injection Eq' as Eq' _. unfold lexer_says in Eq'. change (replacing []) with none in Eq'. destruct (new_lexer T none none t C) as [[p m]| | |] eqn:En; try discriminate. rewrite Hx in Eq'. symmetry in Eq'.
  destruct Nt as [It Nt]. assert (Et := proj1 A). assert (Ec : channel_list C = match k with Some ts => ts | None => [] end) by (destruct k as [ks|], C as [Ct|]; cbn in B |- *; try contradiction; [apply B|reflexivity]).
  assert (S' : forall t, In t (table_all T) \/ In t (channel_list C) -> simple_token t) by (rewrite Et, Ec; exact S).
  assert (Hc : forall q, among (order (map snd m)) q -> In q (map snd m)) by (intros q (j & Hq); eapply Permutation_in; [apply Permutation_sym, O|exact Hq]).
  rewrite <- Et in It. destruct (made_path T C t p m G Gc S' It En) as (Mp & Pp & Mc).
  assert (Ru : forall v ru, In v (table_all T) \/ In v (channel_list C) -> has_rule v ru -> rule_utf8 ru) by (rewrite Et, Ec; intros v ru; apply (grammar_rules_utf8 _ _ l k v ru Up Ur M)).
  assert (Pu : forall v q, In v (table_all T) \/ In v (channel_list C) -> path_for T none none v = Ok q -> path_utf8 q).
  { intros v q Hv Eq. apply (made_rules_utf8 T [] v q G); [constructor|apply (S' v Hv)|exact Eq|]. intros w ru [-> |Hw]; apply Ru; auto. }
  destruct (fst (to_token (order (map snd m)) lex_fuel p (tx_content x) (lst_init false))) as [tk| | |] eqn:Etk.
  2-4: unfold to_ast in Eq'; destruct (to_token _ _ _ _ _) as [? ?]; cbn in Etk; subst; discriminate.
  destruct (ast_decides (order (map snd m)) p lex_fuel (tx_content x) (lst_init false) tk ltac:(intros q Hq; apply (made_sane q), Mc, Hc, Hq) (proj1 (made_sane p Mp)) Etk) as [A1 A2].
  destruct (tok_valid tk) eqn:V; [|destruct (A2 eq_refl) as (e & Ee & _); congruence]. destruct (A1 eq_refl) as (a' & Ea' & D & _). rewrite Eq' in Ea'. injection Ea' as <-. rewrite D.
  destruct (answer_utf8 (order (map snd m))) with (root := p) (fuel := lex_fuel) (script := tx_content x) (st := lst_init false) (t := tk) as [(rest & E1 & E2) E3]; auto.
  - intros q Hq. apply made_good, Mc, Hc, Hq.
  - intros q Hq. destruct (Mc q (Hc q Hq)) as (_ & v & Iv & Ev). apply (Pu v q); auto.
  - apply made_good. exact Mp.
  - apply (Pu t p); auto.
  - split; [apply (E3 (NTok tk)); constructor|]. exists rest. auto.
Qed.
End Texts.
