(* AdeqProofs8.v - what the parser accepts conforms to the declared tokens. *)
From Coq Require Import Strings.String Strings.Byte Sorting.Permutation Lia.
From Verif Require Import Go GoLemmas DomainModel DomainSpec DomainProofs CardModel CardSpec CardProofs PatModel PatSpec PatProofs RuleModel RuleSpec RuleProofs PathModel PathSpec PathProofs LexModel LexSpec LexProofs LexProofs2 LexProofs3 AstModel AstSpec AstProofs AstProofs2 RootModel RootProofs AstProofs3 SuiteModel SuiteSpec SuiteProofs TextModel TextSpec TextTokSpec TextRefSpec TextProofs3 TextRefProofs2 AppModel AppSpec AppProofs AppProofs2 AppProofs3 GramModel OrdSpec OrdProofs OrdProofs2 EvtSpec AdeqSpec AdeqProofs7 RootSpec.
Open Scope list_scope.

(* no rule of the tokens is named like a token *)
Lemma made_path T C root p m : good_table T -> good_channels C -> (forall t, In t (table_all T) \/ In t (channel_list C) -> simple_token t) -> In root (table_all T) ->
  new_lexer T none none root C = Ok (p, m) ->
  made p /\ path_for T none none root = Ok p /\ forall q, In q (map snd m) -> made q /\ exists t, In t (channel_list C) /\ path_for T none none t = Ok q.
Proof.
  intros G Gc S I H. assert (Or : token_ok root = true) by apply (S root (or_introl I)). destruct (new_lexer_spec T none none root C G Gc Or) as [N _]. apply N in H. destruct H as (Hp & ps & F & ->).
  assert (M : forall t q, simple_token t -> path_for T none none t = Ok q -> made q).
  { intros t q St E. exists T, [], t. split; [exact G|]. split; [constructor|]. split; [exact St|]. split; [apply Forall_forall; intros u Hu; apply S; left; exact Hu|exact E]. }
  split; [apply (M root); [apply S; left; exact I|exact Hp]|]. split; [exact Hp|]. intros q Hq. rewrite map_rev in Hq. apply in_rev in Hq.
  assert (X : exists t, In t (channel_list C) /\ path_for T none none t = Ok q).
  { clear - F Hq. induction F as [|t q' l ps E F IH]; [destruct Hq|]. cbn in Hq. destruct Hq as [<-|Hq]; [exists t; split; [left; reflexivity|exact E]|]. destruct (IH Hq) as (u & Hu & Eu). exists u. split; [right; exact Hu|exact Eu]. }
  destruct X as (t & Ht & Et). split; [apply (M t); [apply S; right; exact Ht|exact Et]|]. exists t. auto.
Qed.
Lemma accepted_conforms T C root p m channels blanks fuel script st a :
  good_table T -> good_channels C -> (forall t, In t (table_all T) \/ In t (channel_list C) -> simple_token t) -> In root (table_all T) ->
  (forall t l e r, In t (table_all T) -> In l (t_must t) -> In (TElem e) l -> te_content e = TRule r -> ~ is_declared (table_all T) (rl_name r)) ->
  (forall t, In t (channel_list C) -> exists r, rule_channel t r /\ In (rl_name r) blanks) ->
  new_lexer T none none root C = Ok (p, m) -> (forall q, among channels q -> In q (map snd m)) ->
  fst (to_ast channels fuel p false script st) = Ok (ASuccess a) -> conforms (table_all T) blanks True (t_name root) a.
Proof.
  intros G Gc S I Ap Ch H Hc E. destruct (made_path T C root p m G Gc S I H) as (Mp & Hp & Mc). assert (Or : token_ok root = true) by apply (S root (or_introl I)).
  destruct (fst (to_token channels fuel p script st)) as [t| | |] eqn:Et.
  2-4: unfold to_ast in E; destruct (to_token channels fuel p script st) as [x y]; cbn in Et; subst x; discriminate.
  assert (Pc : forall q, among channels q -> plain q) by (intros q Hq; apply (made_sane q), Mc, Hc, Hq).
  destruct (ast_decides channels p fuel script st t Pc (proj1 (made_sane p Mp)) Et) as [A1 A2].
  destruct (tok_valid t) eqn:V; [|destruct (A2 eq_refl) as (x & Ex & _); congruence].
  destruct (path_element_exact T none none [] root p G ltac:(constructor) Or Hp) as (ext & U).
  destruct (to_token_conf (table_all T) blanks channels (pa_deps p)) with (u := root) (e := pa_element p) (ext := ext) (fuel := fuel) (script := script) (st := st) (t := t) as (b & Eb & Cb); auto.
  - intros u Hu. destruct (S u (or_introl Hu)) as (Ou & Nu & _ & Ru). split; [unfold token_ok in Ou; destruct (t_name u); discriminate|]. split; [exact Nu|]. intros l e Il Ie r Er. split; [split; [|apply (Ru l e r Il Ie Er)]|exact (Ap u l e r Hu Il Ie Er)].
    unfold token_ok in Ou. apply andb_prop in Ou. destruct Ou as [Ou _]. apply andb_prop in Ou. destruct Ou as [_ Ou]. rewrite forallb_forall in Ou. specialize (Ou l Il). unfold tline_ok in Ou. apply andb_prop in Ou. destruct Ou as [_ Ou]. rewrite forallb_forall in Ou. specialize (Ou _ Ie). cbn [tinstr_ok] in Ou. rewrite Er in Ou. exact Ou.
  - intros n e He. apply (path_fetch T [] root p n e G ltac:(constructor) Or Hp) in He. destruct He as [[-> ->]|(_ & u & Iu & Eu & Uu)]; [exists root, [], ext; auto|exists u, [], []; auto].
  - intros q Hq. destruct (Mc q (Hc q Hq)) as (_ & t0 & It & E0). destruct (Ch t0 It) as (r & Hr & Br). exists r. split; [|exact Br]. unfold path_for in E0. destruct (to_path T none none pstate_init t0) as [x st'] eqn:Ex. cbn in E0. subst x. apply (channel_path T none none _ t0 r q st' Hr Ex).
  - unfold to_ast in E. destruct (to_token channels fuel p script st) as [x y] eqn:Ey. cbn in Et. subst x. cbn [bind fst] in E.
    destruct (lexer_mistake_iff_invalid channels p fuel script st t Pc (proj1 (made_sane p Mp))) as [I1 _]; [rewrite Ey; reflexivity|]. rewrite (proj2 I1 V) in E. cbn [bind] in E. rewrite Eb in E. cbn [bind] in E. injection E as <-. exact Cb.
Qed.

(* ---- grammars given as texts ---- *)
Section Texts.
Variables rules_file tokens_file : bytes -> option bytes.
Variable order : list path -> nat -> list path.
Hypothesis O : an_order order.
Variables lex_fuel n : nat.
Lemma ast_conforms r x l k blanks a :
  means_grammar (mu_container (rt_rest r)) (mu_channels (rt_rest r)) l k -> means_references (ct_tokens (mu_container (rt_rest r))) no_links ->
  (forall t, In t (map fst l) \/ In t (match k with Some ts => ts | None => [] end) -> simple_token t) ->
  (forall t ln e ru, In t (map fst l) -> In ln (t_must t) -> In (TElem e) ln -> te_content e = TRule ru -> ~ is_declared (map fst l) (rl_name ru)) ->
  (forall t, In t (match k with Some ts => ts | None => [] end) -> exists ru, rule_channel t ru /\ In (rl_name ru) blanks) ->
  tx_prefix x = false -> fst (app_ast rules_file tokens_file order lex_fuel n [] r x) = Ok (ASuccess a) ->
  conforms (map fst l) blanks True (rt_root r) a /\ exists rest, tx_content x = at_discovery a ++ rest /\ at_discovery a <> [].
Proof.
  intros M R S Ap Ch Hx H. assert (M' := M). apply create_exact in M'. destruct M' as (T & C & E & A & B). destruct (create_good _ _ _ E) as (G & Gc & _). cbn [fst snd] in G, Gc.
  destruct (app_ast rules_file tokens_file order lex_fuel n [] r x) as [o m'] eqn:Ea. cbn in H. subst o. destruct (ast_answers _ _ _ _ _ _ _ _ _ _ Ea) as (l0 & k0 & T0 & C0 & t & refs & M0 & _ & _ & Nt & _).
  assert (El : map fst l0 = map fst l).
  { apply create_exact in M0. destruct M0 as (T1 & C1 & E1 & A1 & _). rewrite E in E1. injection E1 as <- Q _. destruct A as [A _], A1 as [A1 _]. congruence. }
  rewrite El in Nt. destruct (ast_is_the_lexer rules_file tokens_file order lex_fuel n [] r x l k t M R Nt) as (T2 & C2 & A2 & B2 & Eq).
  assert (Eq' : app_ast rules_file tokens_file order lex_fuel n [] r x = (lexer_says T (replacing []) C order lex_fuel t x, [])).
  { rewrite app_ast_is. unfold call_ast. cbv zeta. destruct (no_links_refs _ R) as (NR & rf & Er & Hr). rewrite plainly_none by exact NR. unfold create_root_token. rewrite E. cbn [bind fst snd]. rewrite (proj2 (proj2 A _ _) Nt). cbn [bind]. rewrite Er. cbn [bind]. rewrite Hr. reflexivity. }
  rewrite Ea in Eq'. injection Eq' as Eq' _. unfold lexer_says in Eq'. change (replacing []) with none in Eq'. destruct (new_lexer T none none t C) as [[p m]| | |] eqn:En; try discriminate. rewrite Hx in Eq'. symmetry in Eq'.
  destruct Nt as [It Nt]. assert (Et := proj1 A). assert (Ec : channel_list C = match k with Some ts => ts | None => [] end) by (destruct k as [ks|], C as [Ct|]; cbn in B |- *; try contradiction; [apply B|reflexivity]).
  assert (S' : forall t, In t (table_all T) \/ In t (channel_list C) -> simple_token t) by (rewrite Et, Ec; exact S).
  assert (Hc : forall q, among (order (map snd m)) q -> In q (map snd m)) by (intros q (j & Hq); eapply Permutation_in; [apply Permutation_sym, O|exact Hq]).
  rewrite <- Et in It. destruct (made_path T C t p m G Gc S' It En) as (Mp & _ & Mc). split.
  - rewrite <- Et, <- Nt. apply (accepted_conforms T C t p m (order (map snd m)) blanks lex_fuel (tx_content x) (lst_init false)); auto; [rewrite Et; exact Ap|rewrite Ec; exact Ch].
  - destruct (ast_success_text (order (map snd m)) p lex_fuel (tx_content x) (lst_init false) a) as (rest & E1 & E2 & _); [intros q Hq; apply (made_sane q), Mc, Hc, Hq|apply (made_sane p Mp)|exact Eq'|]. exists rest. auto.
Qed.
End Texts.

(* ---- the shipped grammar ---- *)
Definition simple_rule_b (r : rule) : bool := match rl_content r with RConstant [] => false | _ => true end && max_fits r.
Definition simple_b (t : token) : bool :=
  token_ok t && match t_not t with None => true | Some _ => false end &&
  match t_must t with l :: _ => existsb (fun i => match i with TElem _ => true | TSwitch => false end) l | [] => false end &&
  forallb (forallb (fun i => match i with TElem e => match te_content e with TRule r => simple_rule_b r | TRef _ => true end | TSwitch => true end)) (t_must t).
Lemma simple_b_ok t : simple_b t = true -> simple_token t.
Proof.
  unfold simple_b. intros H. apply andb_prop in H. destruct H as [H H4]. apply andb_prop in H. destruct H as [H H3]. apply andb_prop in H. destruct H as [H1 H2]. split; [exact H1|]. split; [destruct (t_not t); [discriminate|reflexivity]|]. split.
  - destruct (t_must t) as [|l ls]; [discriminate|]. apply existsb_exists in H3. destruct H3 as ([|e] & Hi & E); [discriminate|]. exists l, ls, e. auto.
  - intros l e r Hl He Er. rewrite forallb_forall in H4. specialize (H4 l Hl). rewrite forallb_forall in H4. specialize (H4 _ He). cbn in H4. rewrite Er in H4. unfold simple_rule_b in H4. apply andb_prop in H4. destruct H4 as [K1 K2]. unfold max_fits in K2. destruct (rl_content r) as [c|ps c].
    + split; [destruct c; [discriminate|discriminate]|exact I].
    + split; [discriminate|]. intros m Em. rewrite Em in K2. apply N.ltb_lt. exact K2.
Qed.
Definition rules_apart_b (ts : list token) : bool :=
  forallb (fun t => forallb (forallb (fun i => match i with TElem e => match te_content e with TRule r => negb (existsb (fun u => bytes_eqb (t_name u) (rl_name r)) ts) | TRef _ => true end | TSwitch => true end)) (t_must t)) ts.
Lemma rules_apart_ok ts t l e r : rules_apart_b ts = true -> In t ts -> In l (t_must t) -> In (TElem e) l -> te_content e = TRule r -> ~ is_declared ts (rl_name r).
Proof.
  intros H Ht Hl He Er (u & Hu & Eu). unfold rules_apart_b in H. rewrite forallb_forall in H. specialize (H t Ht). rewrite forallb_forall in H. specialize (H l Hl). rewrite forallb_forall in H. specialize (H _ He). cbn in H. rewrite Er in H. apply negb_true_iff in H.
  assert (X : existsb (fun u => bytes_eqb (t_name u) (rl_name r)) ts = true) by (apply existsb_exists; exists u; split; [exact Hu|apply bytes_eqb_eq; exact Eu]). congruence.
Qed.
Definition blanks_b (blanks : list bytes) (ts : list token) : bool := forallb (fun t => match channel_rule t with Some r => existsb (fun n => bytes_eqb n (rl_name r)) blanks | None => false end) ts.
Lemma blanks_ok blanks ts t : apart ts -> blanks_b blanks ts = true -> In t ts -> exists r, rule_channel t r /\ In (rl_name r) blanks.
Proof.
  intros [A _] H Ht. destruct (A t Ht) as (r & Hr). exists r. split; [exact Hr|]. unfold blanks_b in H. rewrite forallb_forall in H. specialize (H t Ht). rewrite (channel_rule_ok t r Hr) in H. apply existsb_exists in H. destruct H as (m & Hm & E). apply bytes_eqb_eq in E. subst m. exact Hm.
Qed.
Definition holds {A} (x : res A) (f : A -> bool) : bool := match x with Ok u => f u | _ => false end.
Lemma holds_ok {A} (x : res A) (f : A -> bool) v : holds x f = true -> x = Ok v -> f v = true.
Proof. intros H ->. exact H. Qed.
Definition base_fine (u : table token * list (bytes * option (list bytes))) : bool := forallb simple_b (table_all (fst u)) && rules_apart_b (table_all (fst u)).
Definition channels_fine (u : table token * list (bytes * option (list bytes))) : bool := forallb simple_b (table_all (fst u)) && apart_check (table_all (fst u)) && blanks_b blank_names (table_all (fst u)).
Lemma base_check : holds (shipped_tokens base_tokens) base_fine = true.
Proof. vm_compute. reflexivity. Qed.
Lemma base_channels_check : holds (shipped_tokens base_channels) channels_fine = true.
Proof. vm_compute. reflexivity. Qed.
Lemma base_references_check : to_references base_tokens = Ok no_links.
Proof. vm_compute. reflexivity. Qed.
Definition tokens_of (pt rl tk : bytes) : res (table token * list (bytes * option (list bytes))) :=
  let* ps := to_patterns pt in let* rs := to_rules rl (Some ps) in to_tokens rs tk.
Lemma grammar_tables pt rl tk ch l k u : ch <> [] -> means_grammar {| ct_patterns := pt; ct_rules := rl; ct_tokens := tk |} ch l k -> tokens_of pt rl tk = Ok u ->
  map fst l = table_all (fst u) /\ exists v, tokens_of pt rl ch = Ok v /\ k = Some (table_all (fst v)).
Proof.
  intros Nc M Hu. apply create_exact in M. destruct M as (T & C & E & [A _] & K). unfold create_tokens in E. cbn [ct_patterns ct_rules ct_tokens] in E. unfold tokens_of in *.
  destruct (to_patterns pt) as [ps| | |]; cbn [bind] in *; try discriminate. destruct (to_rules rl (Some ps)) as [rs| | |]; cbn [bind] in *; try discriminate. destruct (to_tokens rs tk) as [tt| | |]; cbn [bind] in *; try discriminate. injection Hu as <-.
  destruct ch as [|b ch]; [congruence|]. destruct (to_tokens rs (b :: ch)) as [v| | |]; cbn [bind] in *; try discriminate. injection E as Et Ec. subst C tt. cbn [fst]. split; [symmetry; exact A|]. destruct k as [ts|]; [|destruct K]. destruct K as [K _]. exists v. split; [reflexivity|]. rewrite K. reflexivity.
Qed.
Definition non_empty (s : bytes) : bool := match s with [] => false | _ => true end.
Lemma channels_not_empty : non_empty base_channels = true.
Proof. vm_compute. reflexivity. Qed.
Lemma non_empty_ok s : non_empty s = true -> s <> [].
Proof. intros H ->. discriminate. Qed.
Lemma shipped_is t : shipped_tokens t = tokens_of base_patterns base_rules t.
Proof. reflexivity. Qed.
Lemma shipped_grammar l k u : means_grammar base_texts base_channels l k -> shipped_tokens base_tokens = Ok u ->
  map fst l = table_all (fst u) /\ exists v, k = Some (table_all (fst v)) /\ channels_fine v = true.
Proof.
  intros M Hu. rewrite shipped_is in Hu. unfold base_texts in M. destruct (grammar_tables _ _ _ _ l k u (non_empty_ok _ channels_not_empty) M Hu) as (E & v & Ev & Ek). split; [exact E|]. exists v. split; [exact Ek|]. rewrite <- shipped_is in Ev. exact (holds_ok _ _ v base_channels_check Ev).
Qed.
Section Shipped.
Variables rules_file tokens_file : bytes -> option bytes.
Variable order : list path -> nat -> list path.
Hypothesis O : an_order order.
Variables lex_fuel fuel : nat.
Lemma shipped_conforms u n x a : shipped_tokens base_tokens = Ok u -> tx_prefix x = false ->
  fst (app_ast rules_file tokens_file order lex_fuel fuel [] {| rt_root := n; rt_rest := {| mu_container := base_texts; mu_channels := base_channels |} |} x) = Ok (ASuccess a) ->
  conforms (table_all (fst u)) blank_names True n a /\ exists rest, tx_content x = at_discovery a ++ rest /\ at_discovery a <> [].
Proof.
  intros Hu Hx H. assert (H' := H). destruct (app_ast _ _ _ _ _ _ _ _) as [o m'] eqn:E in H'. cbn [fst] in H'. subst o. destruct (ast_answers _ _ _ _ _ _ _ _ _ _ E) as (l & k & _ & _ & _ & _ & M & _). cbn [rt_rest] in M.
  destruct (shipped_grammar l k u M Hu) as (El & v & -> & K). unfold channels_fine in K. apply andb_prop in K. destruct K as [K K3]. apply andb_prop in K. destruct K as [K1 K2]. rewrite forallb_forall in K1.
  assert (S := holds_ok _ _ u base_check Hu). unfold base_fine in S. apply andb_prop in S. destruct S as [S1 S2]. rewrite forallb_forall in S1.
  rewrite <- El. apply (ast_conforms rules_file tokens_file order O lex_fuel fuel {| rt_root := n; rt_rest := {| mu_container := base_texts; mu_channels := base_channels |} |} x l (Some (table_all (fst v))) blank_names a M).
  - apply to_references_exact. exact base_references_check.
  - rewrite El. intros t [Ht|Ht]; apply simple_b_ok; [apply S1|apply K1]; exact Ht.
  - rewrite El. intros t ln e ru Ht Hl He Er. exact (rules_apart_ok _ t ln e ru S2 Ht Hl He Er).
  - intros t Ht. apply (blanks_ok blank_names (table_all (fst v)) t); [|exact K3|exact Ht]. apply apart_check_ok. exact K2.
  - exact Hx.
  - exact H.
Qed.
End Shipped.
