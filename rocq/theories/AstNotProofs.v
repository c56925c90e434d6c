(* AstNotProofs.v - proofs for AstNotProps.v. *)
From Coq Require Import Strings.String Strings.Byte Lia.
From Verif Require Import Go GoLemmas DomainModel DomainSpec DomainProofs CardModel CardSpec CardProofs PatModel PatSpec PatProofs RuleModel RuleSpec RuleProofs PathModel PathSpec PathProofs LexModel LexSpec LexProofs LexProofs2 LexProofs3 AstModel AstSpec AstProofs AstProofs2 AstProofs3 RootModel RootSpec RootProofs AstNotSpec.
Open Scope list_scope.

Section Not.
Variable channels : nat -> list path.
Hypothesis Hch : forall p, among channels p -> plain p.
Variables (root : path) (nots : list line).
Hypothesis Hroot : plain (opened root).
Hypothesis Hnot : el_not (pa_element root) = Some nots.

Lemma opened_occurs l c : In l (el_must (pa_element root) ++ nots) -> In (ICont c) l -> occurs_in (opened root) c.
Proof. intros Hl Hc. apply oc_root. left. exists l. split; [unfold opened; cbn [pa_element el_must]; rewrite Hnot; exact Hl|exact Hc]. Qed.
Lemma root_named : el_name (pa_element root) <> [].
Proof. apply (proj1 Hroot (pa_element (opened root)) (or_introl eq_refl)). Qed.
Lemma opened_line_good l : In l (el_must (pa_element root) ++ nots) -> forall c, In (ICont c) l -> good_cont c.
Proof.
  intros Hl c Hc. destruct (plain_good _ Hroot) as [Ge _]. apply Ge. left. exists l. split; [unfold opened; cbn [pa_element el_must]; rewrite Hnot; exact Hl|exact Hc].
Qed.
(* what the lexer answers *)
Lemma not_answer fuel script st t : fst (to_token channels fuel root script st) = Ok t ->
  exists c, t = Tok (pa_element root) (pa_deps root) c /\
  match c with
  | None => True
  | Some (m, n) =>
    fairs (NLine m) /\ (lm_valid m = true -> (Forall ast_of (lm_blocks m) /\ concat (map b_disc (lm_blocks m)) <> []) /\ line_fits channels root (el_must (pa_element root)) (lm_index m) script /\ is_prefix (lm_disc m) script /\ exists l, nth_error (el_must (pa_element root)) (lm_index m) = Some l /\ line_reads channels True (pa_deps root) true true l script (cut (lm_disc m) script)) /\
    match n with None => True | Some n => fairs (NLine n) /\ (lm_valid n = true -> line_fits channels root nots (lm_index n) script) end
  end.
Proof.
  intros H. unfold to_token in H. destruct (element_to_token _ _ _ _ _ _) as [r st'] eqn:E. cbn [fst] in H. subst r.
  unfold element_to_token in E. apply mbind_ok in E. destruct E as (c & s1 & E & H). apply lift_ok in H. destruct H as [H _]. exists c. split; [destruct (el_name _); congruence|].
  assert (Gd : good_deps (pa_deps root)) by apply (plain_good _ Hroot).
  assert (Gc : forall p, among channels p -> good_path p) by (intros p Hp; apply plain_good, Hch, Hp).
  unfold element_to_content in E. apply mbind_ok in E. destruct E as (m & s2 & Em & E). destruct m as [m|]; [|apply ret_ok in E; destruct E as [<- _]; exact I].
  rewrite Hnot in E. apply mbind_ok in E. destruct E as (n & s3 & En & E). apply ret_ok in E. destruct E as [<- _].
  change (pa_deps root) with (pa_deps (opened root)) in Em, En, Gd.
  assert (Fits : forall ls st0 x st1, (forall l, In l ls -> In l (el_must (pa_element root) ++ nots)) -> best_line (cbm channels fuel) ls (pa_deps (opened root)) script true st0 = (Ok (Some x), st1) -> lm_valid x = true ->
     line_fits channels root ls (lm_index x) script /\ is_prefix (lm_disc x) script /\ exists l, nth_error ls (lm_index x) = Some l /\ line_reads channels True (pa_deps root) true true l script (cut (lm_disc x) script)).
  { intros ls st0 x st1 Sub B V. destruct (best_line_sound channels (cbm channels fuel) (cbm_sound channels Gc fuel) ls _ _ _ _ _ _ ltac:(intros l Hl c Hc; apply (opened_line_good l (Sub l Hl) c Hc)) Gd B V) as (N & P & l & Hl & R).
    split; [|split; [exact P|exists l; split; [exact Hl|exact R]]]. exists l, (lm_disc x), (cut (lm_disc x) script). split; [exact Hl|]. split; [apply prefix_cut; exact P|]. split; [exact N|exact R]. }
  split; [|split].
  - eapply (best_line_fair (cbm channels fuel) (cbm_fair channels Hch fuel) (opened root)); [exact Hroot| |exact Em]. intros l c Hl. apply opened_occurs. apply in_or_app. left. exact Hl.
  - intros V. split.
    + eapply (best_line_ast (cbm channels fuel) (cbm_ast channels Hch fuel) (opened root)); [exact Hroot| |exact Em|exact V]. intros l c Hl. apply opened_occurs. apply in_or_app. left. exact Hl.
    + eapply Fits; [|exact Em|exact V]. intros l Hl. apply in_or_app. left. exact Hl.
  - destruct n as [n|]; [|exact I]. split.
    + eapply (best_line_fair (cbm channels fuel) (cbm_fair channels Hch fuel) (opened root)); [exact Hroot| |exact En]. intros l c Hl. apply opened_occurs. apply in_or_app. right. exact Hl.
    + intros V. eapply Fits; [|exact En|exact V]. intros l Hl. apply in_or_app. right. exact Hl.
Qed.
End Not.

Lemma not_step e d must n : tok_mistake false [] (Tok e d (Some (must, Some n))) [] =
  match line_mistake false [] (el_name e) n [] with
  | (Ok None, s1) => mm_fail (PcToken (el_name e)) [] (McValidNot (lm_index n)) s1
  | (Ok (Some _), _) => tok_mistake false [] (Tok e d (Some (must, None))) []
  | (Err, s1) => (Err, s1)
  | (Panic, s1) => (Panic, s1)
  | (NoFuel, s1) => (NoFuel, s1)
  end.
Proof.
  change (tok_mistake false [] (Tok e d (Some (must, Some n))) []) with
    (match line_mistake false [] (el_name e) n [] with
     | (Ok a, s') => match a with None => mm_fail (PcToken (el_name e)) [] (McValidNot (lm_index n)) | Some _ => mm_bind mm_reset (fun _ => line_mistake false [] (el_name e) must) end s'
     | (Err, s') => (Err, s') | (Panic, s') => (Panic, s') | (NoFuel, s') => (NoFuel, s') end).
  destruct (line_mistake false [] (el_name e) n []) as [[[m|]| | |] s1]; reflexivity.
Qed.
(* a token with a not-block, whatever the lexer: the not line first, then the must line *)
Lemma not_exactly e d must n : el_name e <> [] -> fairs (NLine must) -> fairs (NLine n) ->
  (lm_valid n = true -> exists m, to_mistake false (Tok e d (Some (must, Some n))) = Ok (Some m) /\ mi_content m = McValidNot (lm_index n) /\ mi_container m = PcToken (el_name e) /\ mi_parents m = []) /\
  (lm_valid n = false -> to_mistake false (Tok e d (Some (must, Some n))) = to_mistake false (Tok e d (Some (must, None)))).
Proof.
  intros Nn Fm Fn. destruct (proj1 (proj2 dec_tree) n [] (el_name e) Nn Fn []) as (o & s1 & E & D). unfold to_mistake. rewrite not_step, E. split; intros V.
  - destruct o as [m|]; [apply D in V; discriminate|]. destruct (build_mistake_ok (PcToken (el_name e)) [] s1 (McValidNot (lm_index n)) Nn) as [m Em]. exists m. unfold mm_fail. rewrite Em. cbn [bind fst]. split; [reflexivity|]. apply build_mistake_spec in Em. tauto.
  - destruct o as [m|]; [reflexivity|]. rewrite (proj1 D eq_refl) in V. discriminate.
Qed.
Lemma must_exactly e d must : el_name e <> [] -> fairs (NLine must) ->
  (to_mistake false (Tok e d (Some (must, None))) = Ok None <-> lm_valid must = true) /\
  (lm_valid must = false -> exists m, to_mistake false (Tok e d (Some (must, None))) = Ok (Some m)).
Proof.
  intros Nn Fm. assert (F : fair_tree (Tok e d (Some (must, None)))).
  { apply fairs_parts; [split; [exact Nn|reflexivity]|]. intros c Hc. inversion Hc; subst. exact Fm. }
  exact (mistake_iff_invalid _ F).
Qed.
Lemma ast_of_line e d i bl n : el_name e <> [] -> Forall ast_of bl -> concat (map b_disc bl) <> [] -> forallb b_valid bl = true ->
  exists a, ast_tok (Tok e d (Some (LM i bl, n))) = Ok a /\ at_discovery a = lm_disc (LM i bl) /\ at_name a = el_name e /\ at_line a = i /\ solid a.
Proof.
  intros Nn A Nt V. destruct (collect_ast bl A) as (l & El & Dl & Fl). cbn [ast_tok]. rewrite El. cbn [bind]. destruct (el_name e) as [|b0 nm]; [contradiction|]. eexists. split; [reflexivity|]. split; [|split; [reflexivity|split; [reflexivity|]]].
  - rewrite at_disc_concat, Dl. cbn [lm_disc]. rewrite V. symmetry. apply join_concat.
  - apply firm_solid; [discriminate|exact Fl|]. rewrite at_disc_concat, Dl. exact Nt.
Qed.
(* without not-blocks no mistake speaks of one *)
Definition not_free (o : option mistake) : Prop := match o with Some m => forall i, mi_content m <> McValidNot i | None => True end.
Lemma nf_fail c parents content : (forall i, content <> McValidNot i) -> mark (mm_fail c parents content) not_free.
Proof.
  intros N s a s' H. unfold mm_fail in H. destruct (build_mistake c parents s content) as [m| | |] eqn:E; cbn [bind] in H; inversion H; subst.
  apply build_mistake_spec in E. cbn [not_free]. intros i X. apply (N i). destruct E as (_ & _ & E & _). congruence.
Qed.
Lemma nf_first {A} (f : A -> MM (option mistake)) l : Forall (fun x => mark (f x) not_free) l -> mark (first_mistake f l) not_free.
Proof.
  induction 1 as [|x l Hx Hl IH]; cbn [first_mistake]; [apply mark_ret; exact I|]. eapply mark_bind; [exact Hx|]. intros [m|] Hm; [apply mark_ret; exact Hm|exact IH].
Qed.
Lemma nf_rule can parents r : mark (rule_mistake can parents r) not_free.
Proof.
  unfold rule_mistake. destruct (negb _); [apply nf_fail; discriminate|]. destruct (rm_results r) as [|x l]; [apply mark_ret; exact I|]. unfold result_mistake. destruct (rr_matches x) as [ms|]; [|apply mark_ret; exact I].
  apply nf_first. apply Forall_forall. intros p _. unfold pattern_mistake. eapply mark_bind; [apply mark_any|]. intros _ _. eapply mark_bind; [apply mark_any|]. intros i _.
  destruct (_ && _); [|apply mark_ret; exact I]. destruct (_ <? _); [apply mark_bad; exact I|]. destruct (firstn _ _); [apply mark_bad; exact I|apply nf_fail; discriminate].
Qed.
Lemma nf_tree can :
  (forall t parents, fairs (NTok t) -> mark (tok_mistake can parents t) not_free) /\ (forall l parents name, fairs (NLine l) -> mark (line_mistake can parents name l) not_free) /\
  (forall b parents name, fairs (NBlock b) -> mark (block_mistake can parents name b) not_free) /\ (forall m parents name, fairs (NMatch m) -> mark (match_mistake can parents name m) not_free) /\
  (forall t parents name, fairs (NTM t) -> mark (tm_mistake can parents name t) not_free).
Proof.
  apply tree_ind.
  - intros e d parents F s a s' H. cbn [tok_mistake] in H. destruct (build_mistake _ _ _ _) as [m| | |] eqn:E; cbn [bind] in H; inversion H; subst. apply build_mistake_spec in E. cbn [not_free]. intros i X. destruct E as (_ & _ & E & _). congruence.
  - intros e d m Hm parents F. cbn [tok_mistake]. eapply mark_bind; [apply mark_any|]. intros _ _. apply Hm. eapply fairs_part; [exact F|constructor].
  - intros e d m n Hm Hn parents F. destruct (fairs_here _ F) as [_ X]. discriminate.
  - intros i bl H parents name F. cbn [line_mistake]. apply nf_first. rewrite Forall_forall in H |- *. intros b Hb. apply H; [exact Hb|]. eapply fairs_part; [exact F|constructor; exact Hb].
  - intros m o Hm Ho parents name F. cbn [block_mistake]. eapply mark_bind; [apply mark_any|]. intros _ _. apply Hm. eapply fairs_part; [exact F|constructor].
  - intros b o Hb Ho parents name F. cbn [block_mistake]. eapply mark_bind; [apply mark_any|]. intros _ _. apply Hb. eapply fairs_part; [exact F|constructor].
  - intros n o Ho parents name F. cbn [block_mistake]. eapply mark_bind; [apply mark_any|]. intros _ _. apply nf_fail; discriminate.
  - intros t Ht parents name F. apply Ht. eapply fairs_part; [exact F|constructor].
  - intros r parents name F. apply nf_rule.
  - intros t _ parents name F. apply mark_ret. exact I.
  - intros r parents name F. apply mark_ret. exact I.
  - intros l Hl parents name F. destruct (fairs_here _ F).
  - intros e sp i k toks H parents name F. cbn [tm_mistake]. eapply mark_bind with (P := not_free).
    + destruct toks as [|t toks]; [destruct (is_valid k 0); [apply mark_ret; exact I|apply nf_fail; discriminate]|]. destruct (is_valid k _); [|apply nf_fail; discriminate]. apply nf_first. rewrite Forall_forall in H |- *. intros x Hx. apply H; [exact Hx|]. eapply fairs_part; [exact F|constructor; exact Hx].
    + intros [m|] Hm; [apply mark_ret; exact Hm|]. apply nf_first. apply Forall_forall. intros x _. unfold spec_mistake. destruct (specific_is_valid _ _); [apply mark_ret; exact I|]. destruct (sp_name x); [apply mark_bad; exact I|apply nf_fail; discriminate].
Qed.
Section Not2.
Variable channels : nat -> list path.
Hypothesis Hch : forall p, among channels p -> plain p.
Variables (root : path) (nots : list line).
Hypothesis Hroot : plain (opened root).
Hypothesis Hnot : el_not (pa_element root) = Some nots.
Lemma parser_with_not fuel script st a : fst (to_ast channels fuel root false script st) = Ok a ->
  match a with
  | ASuccess x =>
      at_name x = el_name (pa_element root) /\
      exists l rest, nth_error (el_must (pa_element root)) (at_line x) = Some l /\ script = at_discovery x ++ rest /\ at_discovery x <> [] /\ line_reads channels True (pa_deps root) true true l script rest
  | AMistake m =>
      forall i, mi_content m = McValidNot i -> mi_container m = PcToken (el_name (pa_element root)) /\ mi_parents m = [] /\ line_fits channels root nots i script
  end.
Proof.
  intros H. unfold to_ast in H. destruct (to_token channels fuel root script st) as [r s'] eqn:E. destruct r as [t| | |]; try discriminate. cbn [fst] in H.
  destruct (not_answer channels Hch root nots Hroot Hnot fuel script st t) as (c & -> & K); [rewrite E; reflexivity|]. assert (Nn := root_named root Hroot). set (e := pa_element root) in *. set (d := pa_deps root) in *.
  assert (Suc : forall must n x, fairs (NLine must) -> (lm_valid must = true -> (Forall ast_of (lm_blocks must) /\ concat (map b_disc (lm_blocks must)) <> []) /\ line_fits channels root (el_must e) (lm_index must) script /\ is_prefix (lm_disc must) script /\ exists l, nth_error (el_must e) (lm_index must) = Some l /\ line_reads channels True d true true l script (cut (lm_disc must) script)) ->
    to_mistake false (Tok e d (Some (must, None))) = Ok None -> ast_tok (Tok e d (Some (must, n))) = Ok x ->
    at_name x = el_name e /\ exists l rest, nth_error (el_must e) (at_line x) = Some l /\ script = at_discovery x ++ rest /\ at_discovery x <> [] /\ line_reads channels True d true true l script rest).
  { intros must n x Fm K1 Tm A. assert (V := proj1 (proj1 (must_exactly e d must Nn Fm)) Tm). destruct (K1 V) as ((Ao & Nt) & _ & P & l & Hl & R). destruct must as [i bl]. cbn [lm_blocks lm_valid lm_index] in *.
    destruct (ast_of_line e d i bl n Nn Ao Nt V) as (x' & Ex & D & Nm & Li & So). rewrite A in Ex. inversion Ex; subst x'. split; [exact Nm|]. exists l, (cut (lm_disc (LM i bl)) script). rewrite Li, D. split; [exact Hl|]. split; [apply prefix_cut; exact P|]. split; [|exact R]. cbn [lm_disc]. rewrite V, join_concat. exact Nt. }
  assert (Mis : forall must m i, fairs (NLine must) -> to_mistake false (Tok e d (Some (must, None))) = Ok (Some m) -> mi_content m = McValidNot i -> False).
  { intros must m i Fm Tm X. unfold to_mistake in Tm. destruct (tok_mistake false [] (Tok e d (Some (must, None))) []) as [r s1] eqn:Em. cbn [fst] in Tm. subst r.
    assert (F : fairs (NTok (Tok e d (Some (must, None))))) by (apply fairs_parts; [split; [exact Nn|reflexivity]|]; intros c0 Hc0; inversion Hc0; subst; exact Fm).
    exact (proj1 (nf_tree false) _ [] F _ _ _ Em i X). }
  destruct c as [[must n]|].
  - destruct K as (Fm & K1 & K2). destruct n as [n|].
    + destruct K2 as [Fn K2]. destruct (not_exactly e d must n Nn Fm Fn) as [N1 N2]. destruct (lm_valid n) eqn:V.
      * destruct (N1 eq_refl) as (m & Tm & Mc & Mk & Mp). rewrite Tm in H. cbn [bind] in H. inversion H; subst a. intros i X. rewrite Mc in X. inversion X; subst i. split; [exact Mk|]. split; [exact Mp|]. apply K2. reflexivity.
      * specialize (N2 eq_refl). rewrite N2 in H. destruct (to_mistake false (Tok e d (Some (must, None)))) as [[m|]| | |] eqn:Tm; try discriminate; cbn [bind] in H.
        -- inversion H; subst a. intros i X. destruct (Mis must m i Fm Tm X).
        -- destruct (ast_tok _) as [x| | |] eqn:Ea; try discriminate. cbn [bind] in H. inversion H; subst a. exact (Suc must _ x Fm K1 Tm Ea).
    + destruct (to_mistake false (Tok e d (Some (must, None)))) as [[m|]| | |] eqn:Tm; try discriminate; cbn [bind] in H.
      * inversion H; subst a. intros i X. destruct (Mis must m i Fm Tm X).
      * destruct (ast_tok _) as [x| | |] eqn:Ea; try discriminate. cbn [bind] in H. inversion H; subst a. exact (Suc must _ x Fm K1 Tm Ea).
  - unfold to_mistake in H. cbn [tok_mistake fst] in H. destruct (build_mistake _ _ _ _) as [m| | |] eqn:Em; cbn [bind] in H; try discriminate. inversion H; subst a. intros i X. apply build_mistake_spec in Em. destruct Em as (_ & _ & Em & _). congruence.
Qed.
(* exactly *)
Lemma answer_with_not fuel script st t : fst (to_token channels fuel root script st) = Ok t ->
  match tok_content t with
  | None => exists m, to_mistake false t = Ok (Some m) /\ mi_content m = McNoMatch
  | Some (must, None) => (to_mistake false t = Ok None <-> lm_valid must = true) /\ (lm_valid must = false -> exists m, to_mistake false t = Ok (Some m))
  | Some (must, Some n) =>
    if lm_valid n
    then exists m, to_mistake false t = Ok (Some m) /\ mi_content m = McValidNot (lm_index n) /\ mi_container m = PcToken (el_name (pa_element root)) /\ mi_parents m = []
    else (to_mistake false t = Ok None <-> lm_valid must = true) /\ (lm_valid must = false -> exists m, to_mistake false t = Ok (Some m))
  end.
Proof.
  intros H. destruct (not_answer channels Hch root nots Hroot Hnot fuel script st t H) as (c & -> & K). assert (Nn := root_named root Hroot). cbn [tok_content]. destruct c as [[must [n|]]|].
  - destruct K as (Fm & _ & Fn & _). destruct (not_exactly (pa_element root) (pa_deps root) must n Nn Fm Fn) as [N1 N2]. destruct (lm_valid n); [apply N1; reflexivity|]. rewrite (N2 eq_refl). apply must_exactly; assumption.
  - apply must_exactly; tauto.
  - unfold to_mistake. cbn [tok_mistake fst]. destruct (build_mistake_ok (PcToken (el_name (pa_element root))) [] [] McNoMatch Nn) as [m E]. rewrite E. exists m. split; [reflexivity|]. apply build_mistake_spec in E. tauto.
Qed.
End Not2.
