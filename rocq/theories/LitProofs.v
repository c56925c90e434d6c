(* LitProofs.v - proofs for LitProps.v: the lexer of the shipped language. *)
From Coq Require Import Strings.String Strings.Byte Lia Sorting.Permutation.
From Verif Require Import Go GoLemmas DomainModel DomainSpec DomainProofs CardModel CardSpec CardProofs PatModel PatSpec PatProofs RuleModel RuleSpec RuleProofs PathModel PathSpec PathProofs LexModel LexSpec LexProofs LexProofs2 LexProofs3 AstModel AstSpec AstProofs AstProofs2 AstProofs3.
From Verif Require Import SuiteModel SuiteSpec SuiteProofs TextModel TextSpec AppModel AppSpec AppProofs AppProofs2 AppProofs3 GramModel OrdSpec OrdProofs OrdProofs2 TextRefProofs2 AdeqProofs8 EndSpec EndProofs5 EndProofs6 PickSpec PickProofs PickProofs2 PickProofs3 PickProofs4.
Open Scope list_scope.

Section Texts.
Variables rules_file tokens_file : bytes -> option bytes.
Variable order : list path -> nat -> list path.
Hypothesis O : an_order order.
Variables lex_fuel n : nat.
(* the lexer behind a call of AST: its channels are the channel tokens' paths, each once *)
Lemma created_lexer r x T tests C t :
  create_tokens (mu_container (rt_rest r)) (mu_channels (rt_rest r)) = Ok ((T, tests), Some C) -> to_references (ct_tokens (mu_container (rt_rest r))) = Ok no_links ->
  closed_grammar T (Some C) -> apart (table_all C) ->
  In t (table_all T) -> t_name t = rt_root r -> tx_prefix x = false ->
  exists channels p, path_for T none none t = Ok p /\ plain p /\ plain_channels channels /\ (forall q, among channels q -> plain q) /\
    (forall q, among channels q <-> exists c, In c (table_all C) /\ path_for T none none c = Ok q) /\
    fst (app_ast rules_file tokens_file order lex_fuel n [] r x) = fst (to_ast channels lex_fuel p false (tx_content x) (lst_init false)).
Proof.
  intros E R Cg Ap It Nt Hx. destruct (create_good _ _ _ E) as (G & Gc & _). cbn [fst snd] in G, Gc.
  assert (Eq : app_ast rules_file tokens_file order lex_fuel n [] r x = (lexer_says T (replacing []) (Some C) order lex_fuel t x, [])).
  { rewrite app_ast_is. unfold call_ast. cbv zeta. apply to_references_exact in R. destruct (no_links_refs _ R) as (NR & rf & Er & Hr). rewrite plainly_none by exact NR. unfold create_root_token. rewrite E. cbn [bind fst snd]. destruct (good_find T G) as (Hf & _ & _). rewrite (proj2 (Hf _ t) (conj It Nt)). cbn [bind]. rewrite Er. cbn [bind]. rewrite Hr. reflexivity. }
  rewrite Eq. cbn [fst]. unfold lexer_says. change (replacing []) with none. destruct (closed_lexer T (Some C) t Cg It) as (p & m & En & Mp & Mc). rewrite En, Hx. assert (En' := En).
  destruct (new_lexer_spec T none none t (Some C) G Gc) as [Sp _]; [apply (proj1 (proj2 (proj2 Cg)) t (or_introl It))|]. apply Sp in En. destruct En as (Hp & ps & F & Em). cbn [channel_list] in F.
  exists (order (map snd m)), p. split; [exact Hp|]. split; [apply (made_sane p Mp)|].
  assert (Hc : forall q, among (order (map snd m)) q <-> In q (map snd m)).
  { intros q. split; [intros (j & Hq); eapply Permutation_in; [apply Permutation_sym, O|exact Hq]|intros Hq; exists 0; eapply Permutation_in; [apply O|exact Hq]]. }
  assert (Hq : forall q, In q (map snd m) <-> exists c, In c (table_all C) /\ path_for T none none c = Ok q).
  { intros q. rewrite Em, map_rev, <- in_rev. clear - F. cbn [channel_list]. revert F. generalize (table_all C) as cs. intros cs F. induction F as [|u q' l ps E F IH]; [split; [intros []|intros (c & [] & _)]|]. cbn [combine map]. split.
    - intros [<-|H]; [exists u; split; [left; reflexivity|exact E]|]. apply IH in H. destruct H as (c & Hc & Ec). exists c. split; [right; exact Hc|exact Ec].
    - intros (c & [->|Hc] & Ec); [left; cbn; congruence|right; apply IH; exists c; auto]. }
  split; [|split; [intros q H; apply made_sane, Mc, Hc, H|split; [intros q; rewrite Hc; apply Hq|reflexivity]]].
  assert (Nd : NoDup (map t_name (table_all C))) by (apply good_nodup, (Gc C eq_refl)).
  unfold new_lexer in En'. destruct (to_path T none none pstate_init t) as [[p'| | |] st']; try discriminate. cbn [bind] in En'. destruct (channel_paths T none none (table_all C) st' []) as [m'| | |] eqn:Ec; try discriminate. cbn [bind] in En'. injection En' as <- <-.
  destruct (channels_ready T none none (table_all C) st' m' order order False Nd Ap ltac:(intros []) O O Ec) as (Rd & Si & Nt').
  split; [intros q H; destruct (Si q H) as (r0 & H0 & _); exists r0; exact H0|]. split; [exact Nt'|]. intros i j q H. eapply Permutation_in; [apply Rd|exact H].
Qed.
End Texts.
Section Shipped.
Variables rules_file tokens_file : bytes -> option bytes.
Variable order : list path -> nat -> list path.
Hypothesis O : an_order order.
Variables lex_fuel fuel : nat.
Lemma texts_lexer pt rl tk ch u v k x :
  tokens_of pt rl tk = Ok u -> tokens_of pt rl ch = Ok v -> ch <> [] -> to_references tk = Ok no_links ->
  forallb simple_b (table_all (fst u)) = true -> closed_b (table_all (fst u)) = true ->
  forallb simple_b (table_all (fst v)) = true -> apart_check (table_all (fst v)) = true -> tx_prefix x = false ->
  forall t, In t (table_all (fst u)) -> t_name t = k ->
  exists channels p, path_for (fst u) none none t = Ok p /\ plain p /\ plain_channels channels /\ (forall q, among channels q -> plain q) /\
    (forall q, among channels q <-> exists c, In c (table_all (fst v)) /\ path_for (fst u) none none c = Ok q) /\
    fst (app_ast rules_file tokens_file order lex_fuel fuel [] {| rt_root := k; rt_rest := {| mu_container := {| ct_patterns := pt; ct_rules := rl; ct_tokens := tk |}; mu_channels := ch |} |} x) = fst (to_ast channels lex_fuel p false (tx_content x) (lst_init false)).
Proof.
  intros Hu Hv Nc R S1 Cl C1 C2 Hx t It Nt. rewrite forallb_forall in S1. rewrite forallb_forall in C1.
  assert (E : create_tokens {| ct_patterns := pt; ct_rules := rl; ct_tokens := tk |} ch = Ok (u, Some (fst v))).
  { unfold tokens_of in Hu, Hv. unfold create_tokens. cbn [ct_patterns ct_rules ct_tokens]. destruct (to_patterns pt) as [ps| | |]; cbn [bind] in *; try discriminate. destruct (to_rules rl (Some ps)) as [rs| | |]; cbn [bind] in *; try discriminate. rewrite Hu. cbn [bind]. destruct ch; [congruence|]. rewrite Hv. reflexivity. }
  destruct u as [T tests]. cbn [fst] in *. assert (Hch := proj1 (apart_check_ok _ C2)).
  destruct (create_good _ _ _ E) as (G & Gc & _). cbn [fst snd] in G, Gc. assert (Fs : Forall simple_token (table_all T)) by (apply Forall_forall; intros t' Ht; apply simple_b_ok, S1, Ht).
  apply (created_lexer rules_file tokens_file order O lex_fuel fuel _ x T tests (fst v) t); cbn [rt_rest rt_root mu_container mu_channels ct_tokens]; auto.
  - apply closed_table; auto. intros t' Ht. split; [apply simple_b_ok, C1; exact Ht|apply Hch; exact Ht].
  - apply apart_check_ok. exact C2.
Qed.
Lemma shipped_lexer u v t x : shipped_tokens base_tokens = Ok u -> shipped_tokens base_channels = Ok v -> tx_prefix x = false -> In t (table_all (fst u)) ->
  exists channels p, path_for (fst u) none none t = Ok p /\ plain p /\ plain_channels channels /\ (forall q, among channels q -> plain q) /\
    (forall q, among channels q <-> exists c, In c (table_all (fst v)) /\ path_for (fst u) none none c = Ok q) /\
    fst (app_ast rules_file tokens_file order lex_fuel fuel [] {| rt_root := t_name t; rt_rest := {| mu_container := base_texts; mu_channels := base_channels |} |} x) = fst (to_ast channels lex_fuel p false (tx_content x) (lst_init false)).
Proof.
  intros Hu Hv Hx It. assert (Kv := holds_ok _ _ v base_channels_check Hv). unfold channels_fine in Kv. apply andb_prop in Kv. destruct Kv as [Kv _]. apply andb_prop in Kv. destruct Kv as [K1 K2].
  assert (S := holds_ok _ _ u base_check Hu). unfold base_fine in S. apply andb_prop in S. destruct S as [S1 _]. assert (B := holds_ok _ _ u base_ends_check Hu). unfold base_ends, ends_fine in B. apply andb_prop in B. destruct B as [B _].
  rewrite shipped_is in Hu, Hv. unfold base_texts.
  exact (texts_lexer base_patterns base_rules base_tokens base_channels u v (t_name t) x Hu Hv (non_empty_ok _ channels_not_empty) base_references_check S1 B K1 K2 Hx t It eq_refl).
Qed.
End Shipped.

