(* EndProofs6.v - the parser of the shipped grammar always answers. *)
From Coq Require Import Strings.String Strings.Byte Sorting.Permutation Lia.
From Verif Require Import Go GoLemmas DomainModel DomainSpec DomainProofs CardModel CardSpec CardProofs PatModel PatSpec PatProofs RuleModel RuleSpec RuleProofs PathModel PathSpec PathProofs LexModel LexSpec LexProofs LexProofs2 LexProofs3 AstModel AstSpec AstProofs AstProofs2 RootModel RootProofs AstProofs3 SuiteModel SuiteSpec SuiteProofs TextModel TextSpec TextTokSpec TextRefSpec TextProofs3 TextRefProofs2 AppModel AppSpec AppProofs AppProofs2 AppProofs3 GramModel OrdSpec OrdProofs OrdProofs2 EvtSpec AdeqSpec AdeqProofs7 AdeqProofs8 EndSpec EndProofs EndProofs5 RootSpec.
Open Scope list_scope.

(* ---- closed tables ---- *)
Definition closed_b (ts : list token) : bool :=
  forallb (fun t => forallb (fun l => forallb (fun i => match i with TElem e => match te_content e with TRef r =>
      if existsb (fun u => bytes_eqb (t_name u) (tr_name r)) ts then negb (bytes_eqb (tr_name r) (t_name t) && Nat.leb (length (elements l)) 1) else false
    | TRule _ => true end | TSwitch => true end) l) (t_must t)) ts.
Lemma closed_b_at ts t l e r : closed_b ts = true -> In t ts -> In l (t_must t) -> In (TElem e) l -> te_content e = TRef r -> is_declared ts (tr_name r) /\ (tr_name r = t_name t -> ~ lonely l).
Proof.
  intros H Ht Hl He Er. unfold closed_b in H. rewrite forallb_forall in H. specialize (H t Ht). rewrite forallb_forall in H. specialize (H l Hl). rewrite forallb_forall in H. specialize (H _ He). cbn in H. rewrite Er in H.
  destruct (existsb (fun u => bytes_eqb (t_name u) (tr_name r)) ts) eqn:X; [|discriminate]. split.
  - apply existsb_exists in X. destruct X as (u & Hu & Eu). apply bytes_eqb_eq in Eu. exists u. auto.
  - intros En Lo. unfold lonely in Lo. apply Nat.leb_le in Lo. rewrite En, bytes_eqb_refl, Lo in H. discriminate.
Qed.
Lemma closed_table T C : good_table T -> good_channels C -> Forall simple_token (table_all T) -> closed_b (table_all T) = true -> (forall t, In t (channel_list C) -> simple_token t /\ exists r, rule_channel t r) -> closed_grammar T C.
Proof.
  intros G Gc S Cl Ch. rewrite Forall_forall in S. assert (AL : forall t, In t (table_all T) -> all_lines t = t_must t) by (intros t Ht; unfold all_lines; rewrite (proj1 (proj2 (S t Ht))), app_nil_r; reflexivity).
  split; [exact G|]. split; [exact Gc|]. split.
  - intros t [Ht|Ht].
    + split; [apply S; exact Ht|]. intros n (l & e & r & Hl & He & Er & <-). rewrite (AL t Ht) in Hl. apply (closed_b_at _ t l e r Cl Ht Hl He Er).
    + destruct (Ch t Ht) as [St (r & _ & Nn & k & Em & _)]. split; [exact St|]. intros n (l & e & r' & Hl & He & Er & _). exfalso. unfold all_lines in Hl. rewrite Em, Nn in Hl. destruct Hl as [<-|[]]. destruct He as [[= <-]|[]]. discriminate.
  - intros t Ht (l & e & r & Hl & He & Er & En & Lo). rewrite (AL t Ht) in Hl. apply (proj2 (closed_b_at _ t l e r Cl Ht Hl He Er) En Lo).
Qed.

(* ---- grammars given as texts ---- *)
Section Texts.
Variables rules_file tokens_file : bytes -> option bytes.
Variable order : list path -> nat -> list path.
Hypothesis O : an_order order.
Variables lex_fuel n : nat.
Lemma created_answers r x T tests C t still depth :
  create_tokens (mu_container (rt_rest r)) (mu_channels (rt_rest r)) = Ok ((T, tests), C) -> to_references (ct_tokens (mu_container (rt_rest r))) = Ok no_links ->
  closed_grammar T C -> (forall t, In t (channel_list C) -> exists r, rule_channel t r) ->
  (forall t p, In t (table_all T) -> path_for T none none t = Ok p -> settles still depth p) ->
  In t (table_all T) -> t_name t = rt_root r -> tx_prefix x = false -> (length (tx_content x) + 2) * (depth + 2) <= lex_fuel ->
  exists a, fst (app_ast rules_file tokens_file order lex_fuel n [] r x) = Ok a.
Proof.
  intros E R Cg Ch Se It Nt Hx Lf. destruct (create_good _ _ _ E) as (G & Gc & _). cbn [fst snd] in G, Gc.
  assert (Eq : app_ast rules_file tokens_file order lex_fuel n [] r x = (lexer_says T (replacing []) C order lex_fuel t x, [])).
  { rewrite app_ast_is. unfold call_ast. cbv zeta. apply to_references_exact in R. destruct (no_links_refs _ R) as (NR & rf & Er & Hr). rewrite plainly_none by exact NR. unfold create_root_token. rewrite E. cbn [bind fst snd]. destruct (good_find T G) as (Hf & _ & _). rewrite (proj2 (Hf _ t) (conj It Nt)). cbn [bind]. rewrite Er. cbn [bind]. rewrite Hr. reflexivity. }
  rewrite Eq. cbn [fst]. unfold lexer_says. change (replacing []) with none. destruct (closed_lexer T C t Cg It) as (p & m & En & Mp & Mc). rewrite En, Hx.
  destruct (new_lexer_spec T none none t C G Gc) as [Sp _]; [apply (proj1 (proj2 (proj2 Cg)) t (or_introl It))|]. apply Sp in En. destruct En as (Hp & ps & F & Em).
  assert (Hc : forall q, among (order (map snd m)) q -> In q (map snd m)) by (intros q (j & Hq); eapply Permutation_in; [apply Permutation_sym, O|exact Hq]).
  apply (settled_answers (order (map snd m)) p still depth lex_fuel (tx_content x) (lst_init false)).
  - intros j k. eapply Permutation_trans; [apply Permutation_sym, O|apply O].
  - intros q Hq. apply Hc in Hq. rewrite Em, map_rev in Hq. apply in_rev in Hq.
    assert (X : exists t, In t (channel_list C) /\ path_for T none none t = Ok q).
    { clear - F Hq. induction F as [|u q' l ps E F IH]; [destruct Hq|]. cbn in Hq. destruct Hq as [<-|Hq]; [exists u; split; [left; reflexivity|exact E]|]. destruct (IH Hq) as (w & Hw & Ew). exists w. split; [right; exact Hw|exact Ew]. }
    destruct X as (u & Iu & Eu). destruct (Ch u Iu) as (ru & Hr). exists ru. unfold path_for in Eu. destruct (to_path T none none pstate_init u) as [y st'] eqn:Ey. cbn in Eu. subst y. apply (channel_path T none none _ u ru q st' Hr Ey).
  - intros q Hq. apply made_sane. apply Mc. apply Hc. exact Hq.
  - apply (made_sane p Mp).
  - apply (made_sane p Mp).
  - apply (Se t p It Hp).
  - reflexivity.
  - exact Lf.
Qed.
(* the tables of the texts, checked *)
Definition ends_fine (still : list bytes) (depth height : nat) (root : bytes) (u : table token * list (bytes * option (list bytes))) : bool :=
  closed_b (table_all (fst u)) &&
  match find (fun t => bytes_eqb (t_name t) root) (table_all (fst u)) with
  | Some t => match path_for (fst u) none none t with Ok p => forallb (tree (pa_deps p) still depth height) (map snd (pa_deps p)) | _ => false end
  | None => false
  end.
Lemma texts_answer pt rl tk ch u v still depth height root x k :
  tokens_of pt rl tk = Ok u -> tokens_of pt rl ch = Ok v -> ch <> [] -> to_references tk = Ok no_links ->
  forallb simple_b (table_all (fst u)) = true -> ends_fine still depth height root u = true ->
  forallb simple_b (table_all (fst v)) = true -> apart_check (table_all (fst v)) = true ->
  is_declared (table_all (fst u)) k -> tx_prefix x = false -> (length (tx_content x) + 2) * (depth + 2) <= lex_fuel ->
  exists a, fst (app_ast rules_file tokens_file order lex_fuel n [] {| rt_root := k; rt_rest := {| mu_container := {| ct_patterns := pt; ct_rules := rl; ct_tokens := tk |}; mu_channels := ch |} |} x) = Ok a.
Proof.
  intros Hu Hv Nc R S1 S2 C1 C2 (t & It & Nt) Hx Lf. rewrite forallb_forall in S1. rewrite forallb_forall in C1. unfold ends_fine in S2. apply andb_prop in S2. destruct S2 as [Cl S2].
  destruct (find _ (table_all (fst u))) as [t0|] eqn:Ft; [|discriminate]. apply find_some in Ft. destruct Ft as [I0 _]. destruct (path_for (fst u) none none t0) as [p0| | |] eqn:E0; try discriminate.
  assert (E : create_tokens {| ct_patterns := pt; ct_rules := rl; ct_tokens := tk |} ch = Ok (u, Some (fst v))).
  { unfold tokens_of in Hu, Hv. unfold create_tokens. cbn [ct_patterns ct_rules ct_tokens]. destruct (to_patterns pt) as [ps| | |]; cbn [bind] in *; try discriminate. destruct (to_rules rl (Some ps)) as [rs| | |]; cbn [bind] in *; try discriminate. rewrite Hu. cbn [bind]. destruct ch; [congruence|]. rewrite Hv. reflexivity. }
  destruct u as [T tests]. cbn [fst] in *. assert (Hch : forall t, In t (table_all (fst v)) -> exists r, rule_channel t r) by (apply (proj1 (apart_check_ok _ C2))).
  destruct (create_good _ _ _ E) as (G & Gc & _). cbn [fst snd] in G, Gc. assert (Fs : Forall simple_token (table_all T)) by (apply Forall_forall; intros t' Ht; apply simple_b_ok, S1, Ht).
  apply (created_answers _ x T tests (Some (fst v)) t still depth); cbn [rt_rest rt_root mu_container mu_channels ct_tokens]; auto.
  - apply closed_table; auto. intros t' Ht. split; [apply simple_b_ok, C1; exact Ht|apply Hch; exact Ht].
  - intros t' p Ht Ep. apply (table_settles T T t0 p0 still depth height G G eq_refl Fs I0 E0 S2 t' p Ht Ep).
Qed.
End Texts.
(* ---- the shipped grammar ---- *)
(* the tokens below which no name is reached again *)
Definition base_still : list bytes := map bs
  ["inputOutput"; "direction"; "sliceDelimiter"; "indexValue"; "operator"; "operatorArithmetic"; "operatorRelational"; "operatorLogical"; "assigneeNames"; "commaAssigneeName"; "assigneeName"; "listElementFetcher"; "intIncrement"; "intIncrementValue"; "declarableValue"; "computableValue"; "primitiveValue"; "stringValue"; "boolValue"; "intValue"; "floatValue"; "primitiveType"; "computableType"; "variableName"]%string.
Definition base_ends (u : table token * list (bytes * option (list bytes))) : bool := ends_fine base_still 20 100 (bs "program"%string) u.
Lemma base_ends_check : AdeqProofs8.holds (shipped_tokens base_tokens) base_ends = true.
Proof. vm_compute. reflexivity. Qed.
Section Shipped.
Variables rules_file tokens_file : bytes -> option bytes.
Variable order : list path -> nat -> list path.
Hypothesis O : an_order order.
Variables lex_fuel fuel : nat.
Lemma holds_made {A} (x : res A) f : AdeqProofs8.holds x f = true -> exists v, x = Ok v /\ f v = true.
Proof. destruct x as [v| | |]; try discriminate. intros H. exists v. auto. Qed.
Lemma shipped_answers u k x : shipped_tokens base_tokens = Ok u -> is_declared (table_all (fst u)) k -> tx_prefix x = false -> (length (tx_content x) + 2) * 22 <= lex_fuel ->
  exists a, fst (app_ast rules_file tokens_file order lex_fuel fuel [] {| rt_root := k; rt_rest := {| mu_container := base_texts; mu_channels := base_channels |} |} x) = Ok a.
Proof.
  intros Hu Hk Hx Lf. destruct (holds_made _ _ base_channels_check) as (v & Hv & Kv). unfold channels_fine in Kv. apply andb_prop in Kv. destruct Kv as [Kv _]. apply andb_prop in Kv. destruct Kv as [K1 K2].
  assert (S := holds_ok _ _ u base_check Hu). unfold base_fine in S. apply andb_prop in S. destruct S as [S1 _]. assert (B := holds_ok _ _ u base_ends_check Hu). unfold base_ends in B.
  rewrite shipped_is in Hu, Hv. unfold base_texts.
  exact (texts_answer rules_file tokens_file order O lex_fuel fuel base_patterns base_rules base_tokens base_channels u v base_still 20 100 (bs "program"%string) x k Hu Hv (non_empty_ok _ channels_not_empty) base_references_check S1 B K1 K2 Hk Hx Lf).
Qed.
End Shipped.
