From Coq Require Import Strings.String Strings.Byte Lia.
From Verif Require Import Go GoLemmas DomainModel DomainSpec DomainProofs CardModel CardSpec CardProofs PatModel PatSpec PatProofs RuleModel RuleSpec RuleProofs PathModel PathSpec PathProofs LexModel LexSpec LexProofs LexProofs2 LexProofs3 AstModel AstSpec AstProofs AstProofs2 RootModel RootSpec RootProofs.

(* ---- syntax trees of valid answers ---- *)
Definition firm (m : amatch) : Prop := forall e, In e (of_match m) -> proper e /\ match e with EToken _ x => solid x | EText _ _ => True end.
Definition ast_of (b : block) : Prop := exists l, ast_block b = Ok l /\ concat (map am_discovery l) = b_disc b /\ Forall firm l.
Lemma firm_solid name line l : name <> [] -> Forall firm l -> at_discovery (AToken name line l) <> [] -> solid (AToken name line l).
Proof.
  intros Nn F Nt. assert (K : forall e, In e (entries l) -> proper e /\ match e with EToken _ x => solid x | EText _ _ => True end).
  { intros e He. unfold entries in He. apply in_concat in He. destruct He as (le & Hl & He). apply in_map_iff in Hl. destruct Hl as (m & <- & Hm). rewrite Forall_forall in F. apply (F m Hm e He). }
  constructor; [exact Nn| |intros e He; apply (K e He)|intros n x Hx; apply (K _ Hx)]. intros X. apply Nt. rewrite at_disc_entries, X. reflexivity.
Qed.
Definition tok_ast (t : tok) : Prop := exists a, ast_tok t = Ok a /\ at_discovery a = tok_disc t /\ at_name a = tok_name t /\ option_map lm_index (the_must t) = Some (at_line a) /\ solid a.
Lemma collect_ast bl : Forall ast_of bl -> exists l, collect ast_block bl = Ok l /\ concat (map am_discovery l) = concat (map b_disc bl) /\ Forall firm l.
Proof.
  induction 1 as [|b bl (l & E & D & F) H (l2 & E2 & D2 & F2)]; [exists []; auto|]. cbn [collect]. rewrite E. cbn [bind]. rewrite E2. cbn [bind]. exists (l ++ l2). split; [reflexivity|]. split; [rewrite map_app, concat_app, D, D2; reflexivity|apply Forall_app; auto].
Qed.
Lemma collect_toks toks : Forall tok_ast toks -> exists l, collect (fun x => let* a := ast_tok x in Ok [a]) toks = Ok l /\ concat (map at_discovery l) = concat (map tok_disc toks) /\ Forall solid l.
Proof.
  induction 1 as [|t toks (a & E & D & _ & _ & S) H (l2 & E2 & D2 & S2)]; [exists []; auto|]. cbn [collect]. rewrite E. cbn [bind]. rewrite E2. cbn [bind]. exists (a :: l2). split; [reflexivity|]. split; [cbn [map concat]; rewrite D, D2; reflexivity|constructor; assumption].
Qed.
Lemma at_disc_concat n i l : at_discovery (AToken n i l) = concat (map am_discovery l).
Proof. cbn [at_discovery]. apply join_concat. Qed.

Lemma rule_result_ok r k s ch st x st' : good_rule r -> rule_to_match r k s ch st = (Ok x, st') -> is_prefix (rm_disc x) s ->
  exists o, rule_result x = Ok o /\ match o with Some y => am_discovery y | None => [] end = rm_disc x /\ match o with Some y => firm y | None => True end.
Proof.
  intros G H P. destruct (rule_match_regular r k s ch st x st' G H) as (Er & _ & _ & R). unfold rule_result, rm_disc in *. rewrite Er. clear H Er.
  assert (K : forall l s acc, rule_run r s l -> is_prefix (join [] (map rr_content l)) s ->
    exists ds, result_discoveries l acc 0 = Ok (acc ++ ds, 0) /\ disc_content ds = join [] (map rr_content l) /\ (l <> [] -> ds <> [] /\ join [] (map rr_content l) <> [])).
  { clear - G. induction l as [|x l IH]; intros s acc R P; [exists []; rewrite app_nil_r; split; [reflexivity|split; [reflexivity|intros X; contradiction]]|]. inversion R as [|s0 x0 l0 E Nm R']; subst.
    rewrite join_concat in P. cbn [map concat] in P. apply prefix_cut_app in P. destruct P as [P1 P2]. assert (F := to_result_front r s x G E Nm P1). destruct (to_result_index r s x G E Nm) as (_ & _ & Nc & _).
    unfold cut in P2. destruct (IH (skipn (length (rr_content x)) s) (acc ++ concat (map r_disc (found x))) R' ltac:(rewrite join_concat; exact P2)) as (ds & E2 & D2 & _).
    assert (Dx : disc_content (concat (map r_disc (found x))) = rr_content x).
    { rewrite rr_content_taken. unfold disc_content. rewrite join_concat. clear. induction (found x) as [|m ms IH]; [reflexivity|]. cbn [map concat]. rewrite map_app, concat_app, IH. reflexivity. }
    exists (concat (map r_disc (found x)) ++ ds). cbn [result_discoveries]. unfold first_index in F. unfold found in *. destruct (rr_matches x) as [[|m ms]|]; try discriminate. destruct (r_disc m) as [|d0 ds0] eqn:Ed; [discriminate|]. inversion F as [Ei].
    cbn [disc_index bind]. rewrite Ei in *. rewrite E2. split; [rewrite <- app_assoc; reflexivity|]. split.
    - unfold disc_content in *. rewrite !join_concat in *. rewrite map_app, concat_app, Dx, D2. reflexivity.
    - intros _. split; [cbn [map concat]; rewrite Ed; discriminate|]. rewrite join_concat. change (rr_content x ++ concat (map rr_content l) <> []). destruct (rr_content x); [contradiction|discriminate]. }
  destruct (K _ s [] R P) as (ds & E & D & N). destruct (rm_results x) as [|y l] eqn:El; [exists None; split; [reflexivity|split; [reflexivity|exact I]]|]. rewrite E. cbn [bind app]. destruct (N ltac:(discriminate)) as [N' Nj].
  destruct ds as [|d ds]; [contradiction|]. cbn [Nat.ltb Nat.leb andb]. destruct G as [G _]. unfold rule_ok in G. apply andb_prop in G. destruct G as [G _]. apply andb_prop in G. destruct G as [G1 G2].
  destruct (rl_code r) as [|c0 code]; [discriminate|]. destruct (rl_name r) as [|n0 nm]; [discriminate|]. eexists. split; [reflexivity|]. split; [cbn [am_discovery ar_disc]; exact D|]. intros e [<-|[]]. split; [|exact I]. split; cbn [en_name en_text ar_disc]; [discriminate|]. rewrite D. exact Nj.
Qed.

Section Asts.
Variable channels : nat -> list path.
Hypothesis Hch : forall p, among channels p -> plain p.
Definition astf (f : pcontainer -> gmap element -> bytes -> bool -> bool -> M (option block)) : Prop :=
  forall p c s ch nx st b st', plain p -> occurs_in p c -> f c (pa_deps p) s ch nx st = (Ok (Some b), st') -> b_valid b = true -> is_prefix (b_disc b) s -> ast_of b.
Section Step.
Variable f : pcontainer -> gmap element -> bytes -> bool -> bool -> M (option block).
Hypothesis Hf : astf f.
Lemma line_loop_ast p l : plain p -> forall s ch nx acc st bl st', (forall c, In (ICont c) l -> occurs_in p c) -> line_loop f l (pa_deps p) s ch nx acc st = (Ok (Some bl), st') ->
  Forall ast_of acc -> forallb b_valid bl = true -> Forall ast_of bl.
Proof.
  intros Hp. induction l as [|[|c] l IH]; intros s ch nx acc st bl st' Ho H Ha V; cbn [line_loop] in H.
  - mstep. some. exact Ha.
  - eapply IH; [|exact H|exact Ha|exact V]. intros c Hc. apply Ho. right. exact Hc.
  - apply mbind_ok in H. destruct H as (o & s1 & E & H). destruct o as [b|].
    + destruct (b_valid b) eqn:Vb; cbn [negb] in H.
      * destruct (has_prefix _ _) eqn:Hpre; [|mstep; discriminate]. apply has_prefix_is_prefix in Hpre. assert (E' := Hf p c _ _ _ _ _ _ Hp (Ho c (or_introl eq_refl)) E Vb Hpre). clear E. rename E' into E.
        eapply IH; [|exact H| |exact V]; [intros c' Hc; apply Ho; right; exact Hc|]. apply Forall_app. split; [exact Ha|constructor; [exact E|constructor]].
      * mstep. some. cbn in V. rewrite Vb in V. discriminate.
    + mstep. some. exact Ha.
Qed.
Lemma best_line_ast p ls s ch st m st' : plain p -> (forall l c, In l ls -> In (ICont c) l -> occurs_in p c) -> best_line f ls (pa_deps p) s ch st = (Ok (Some m), st') -> lm_valid m = true -> Forall ast_of (lm_blocks m) /\ concat (map b_disc (lm_blocks m)) <> [].
Proof.
  intros Hp Ho H V. apply best_line_chosen in H. destruct H as (outs & R & C). destruct m as [i bl]. cbn [lm_blocks lm_valid] in *. split; [|destruct C as [[(_ & _ & C) _]|[_ [[_ C] _]]]; [exact C|congruence]].
  assert (Hn : nth_error outs i = Some (Some bl)) by (destruct C as [[[C _] _]|[_ [[C _] _]]]; exact C). clear C. revert i Hn.
  induction R as [st0|l ls o outs st0 st1 st2 E R IH]; intros i Hi; [destruct i; discriminate|]. destruct i as [|i]; [|apply (IH ltac:(intros l0 c Hl; apply Ho; right; exact Hl) i Hi)]. cbn in Hi. inversion Hi; subst o. clear Hi.
  unfold line_to_matches in E. apply mbind_ok in E. destruct E as (o & s1 & E & H). mstep. destruct o as [[|b o]|]; try discriminate. some. eapply line_loop_ast; [exact Hp| |exact E|constructor|exact V]. intros c. apply Ho. left. reflexivity.
Qed.
Lemma element_ast p e s ch st t st' : plain p -> element_of p e -> element_to_token f e (pa_deps p) s ch st = (Ok t, st') -> tok_valid t = true ->
  tok_ast t /\ exists i bl, tok_content t = Some (LM i bl, None) /\ Forall ast_of bl.
Proof.
  intros Hp He H V. destruct (proj1 Hp e He) as [Nn No]. unfold element_to_token in H. apply mbind_ok in H. destruct H as (c & s1 & E & H). mstep. assert (Et : t = Tok e (pa_deps p) c) by (destruct (el_name _); congruence). subst t.
  unfold element_to_content in E. rewrite No in E. apply mbind_ok in E. destruct E as (m & s2 & Em & E). destruct m as [m|]; mstep; subst c; [|discriminate].
  cbn [tok_valid] in V. destruct (best_line_ast p _ _ _ _ _ _ Hp (fun l c => element_line_occurs p e l c He) Em V) as [A Nt]. destruct m as [i bl]. cbn [lm_blocks lm_valid] in *. split; [|exists i, bl; split; [reflexivity|exact A]].
  destruct (collect_ast bl A) as (l & El & Dl & Fl). unfold tok_ast. cbn [ast_tok]. rewrite El. cbn [bind]. unfold tok_name. cbn [tok_el]. destruct (el_name e) as [|b0 nm]; [contradiction|]. eexists. split; [reflexivity|]. split; [|split; [reflexivity|split; [reflexivity|]]].
  - rewrite at_disc_concat, Dl. cbn [tok_disc lm_disc]. rewrite V. symmetry. apply join_concat.
  - apply firm_solid; [discriminate|exact Fl|]. rewrite at_disc_concat, Dl. exact Nt.
Qed.
Lemma find_ast s chs : (forall p, In p chs -> plain p) -> forall st m st', find_in_channels f chs s st = (Ok (Some m), st') -> lm_valid m = true /\ Forall ast_of (lm_blocks m).
Proof.
  induction chs as [|p chs IH]; intros Hp st m st' H; cbn [find_in_channels] in H; [mstep; discriminate|]. apply mbind_ok in H. destruct H as (t & s1 & E & H).
  destruct (tok_valid t) eqn:V; [|eapply IH; [intros q Hq; apply Hp; right; exact Hq|exact H]]. apply element_ast in E; [|apply Hp; left; reflexivity|left; reflexivity|exact V]. destruct E as (_ & i & bl & Ec & A).
  mstep. rewrite Ec in *. oks. split; [|exact A]. destruct t as [e d c]. cbn in Ec. subst c. exact V.
Qed.
Lemma tokens_ast p e pmax ch : plain p -> element_of p e -> forall fuel acc s st l st', token_loop f fuel e (pa_deps p) pmax ch acc s st = (Ok l, st') -> Forall tok_ast acc -> Forall tok_ast l.
Proof.
  intros Hp He. induction fuel as [|n IH]; intros acc s st l st' H Ha; [discriminate|]. cbn [token_loop] in H. apply mbind_ok in H. destruct H as (t & s1 & E & H).
  destruct (tok_valid t) eqn:V; cbn [negb] in H; [|mstep; subst; exact Ha]. apply element_ast in E; [|assumption..]. destruct E as [E _].
  assert (Ha' : Forall tok_ast (acc ++ [t])) by (apply Forall_app; split; [exact Ha|constructor; [exact E|constructor]]).
  destruct (tok_content t) as [[m x]|]; [|mstep; discriminate].
  destruct (has_prefix _ _); [|mstep; subst; exact Ha']. match type of H with (if ?b then _ else _) _ = _ => destruct b end; [mstep; subst; exact Ha'|]. eapply IH; [exact H|exact Ha'].
Qed.
Definition match_ast (m : mtch) : Prop := exists o, ast_match m = Ok o /\ match o with Some y => am_discovery y | None => [] end = m_disc m /\ match o with Some y => firm y | None => True end.
Lemma token_match_ast p fuel e sp k s ch st t st' : plain p -> element_of p e -> token_to_match f fuel e sp k (pa_deps p) s ch st = (Ok t, st') -> match_ast (token_or_skip t).
Proof.
  intros Hp He H. unfold token_or_skip. destruct (_ && _); [exists None; repeat split|]. unfold token_to_match in H. destruct (delimiter k) as [mn mx]. apply mbind_ok in H. destruct H as (l & s1 & E & H). apply tokens_ast in E; [|assumption|assumption|constructor]. mstep.
  destruct s; [discriminate|]. destruct (forallb _ sp); [|discriminate]. oks.
  destruct (collect_toks l E) as (l2 & E2 & D2 & S2). unfold match_ast. cbn [ast_match ast_tm m_disc tm_disc]. destruct l as [|t0 l]; [exists None; repeat split|]. rewrite E2. cbn [bind]. destruct (proj1 Hp e He) as [Nn _]. destruct (el_name e) as [|b0 nm]; [contradiction|].
  eexists. split; [reflexivity|]. split; [cbn [am_discovery]; rewrite !join_concat; exact D2|].
  intros y Hy. cbn [of_match] in Hy. apply in_map_iff in Hy. destruct Hy as (u & <- & Hu). rewrite Forall_forall in S2. specialize (S2 u Hu). split; [|exact S2]. split; cbn [en_name en_text]; [discriminate|]. inversion S2 as [nm' li ms Nn' Ne' Pr Sk]; subst. rewrite at_disc_entries. destruct (entries ms) as [|e0 es]; [contradiction|]. destruct (Pr e0 (or_introl eq_refl)) as [_ X]. change (en_text e0 ++ concat (map en_text es) <> []). destruct (en_text e0); [contradiction|discriminate].
Qed.
Lemma container_ast p fuel c s ch st m st' : plain p -> occurs_in p c -> container_to_match f fuel c (pa_deps p) s ch st = (Ok (Some m), st') -> is_prefix (m_disc m) s -> match_ast m.
Proof.
  intros Hp Ho H P. assert (Hc := proj2 Hp c Ho). destruct c as [e sp k|r k|nm sp k|ls]; cbn [container_to_match] in H; [| | |destruct Hc].
  - apply mbind_ok in H. destruct H as (t & s1 & E & H). mstep. some. eapply token_match_ast; [exact Hp| |exact E]. right. right. exists sp, k. exact Ho.
  - apply mbind_ok in H. destruct H as (x & s1 & E & H). mstep. some. unfold rule_or_skip in *. destruct (_ && _); [exists None; repeat split|]. cbn [m_disc] in P. destruct (rule_result_ok _ _ _ _ _ _ _ Hc E P) as (o & Eo & D). exists o. split; [exact Eo|exact D].
  - match type of H with (if ?b then _ else _) = _ => destruct b end; [discriminate|]. apply mbind_ok in H. destruct H as (e & s1 & Ef & H). apply mbind_ok in H. destruct H as (t & s2 & E & H). mstep. some.
    match goal with H : lift _ _ = _ |- _ => apply lift_ok in H; destruct H as [Ed _] end. unfold dep_fetch in Ed. destruct (mlookup (pa_deps p) nm) as [e'|] eqn:El; [|discriminate]. oks.
    eapply token_match_ast; [exact Hp| |exact E]. right. left. exists nm. exact El.
Qed.
Lemma cbm_step_ast n : astf (cbm_step channels f n).
Proof.
  intros p c s ch nx st o st' Hp Ho H V P. unfold cbm_step in H. destruct s as [|b s].
  - mstep. destruct (cont_card c) as [k| | |]; try discriminate. cbn [bind] in *. destruct (is_valid k 0); [discriminate|].
    destruct (build_next n c (pa_deps p)); try discriminate. cbn [bind] in *. oks. discriminate.
  - apply mbind_ok in H. destruct H as (o1 & s1 & E & H). destruct o1 as [bl|].
    + mstep. some. destruct ch; [|mstep; discriminate]. unfold find_channel_block in E. apply mbind_ok in E. destruct E as (m & s2 & Em & E). destruct m as [m|]; [|mstep; discriminate]. unfold range_channels in Em. apply find_ast in Em; [|intros q Hq; apply Hch; eexists; exact Hq]. destruct Em as [Vm Am].
      destruct (has_prefix _ _) eqn:Hpre; [|mstep; discriminate]. apply mbind_ok in E. destruct E as (x & s3 & Ex & E). mstep. destruct x as [x|]; [|discriminate]. some.
      cbn [b_disc b_valid] in V, P. apply prefix_cut_app in P. destruct P as [P1 P2]. assert (Ex' := Hf p c _ _ _ _ _ _ Hp Ho Ex V P2). destruct Ex' as (l & El & Dl & Fl). destruct m as [i bm]. cbn [lm_blocks lm_valid] in *. destruct (collect_ast bm Am) as (l0 & E0 & D0 & F0).
      exists (l0 ++ l). cbn [ast_block]. rewrite E0. cbn [bind]. rewrite El. cbn [bind]. split; [reflexivity|]. split; [cbn [b_disc lm_disc]; rewrite Vm, join_concat, map_app, concat_app, D0, Dl; reflexivity|apply Forall_app; auto].
    + apply mbind_ok in H. destruct H as (m & s2 & Em & H). mstep. destruct m as [m|]; [|discriminate]. some. cbn [b_disc] in P. apply container_ast in Em; [|assumption..]. destruct Em as (o & Eo & D & F). exists (match o with Some y => [y] | None => [] end). cbn [ast_block]. rewrite Eo. cbn [bind app]. split; [reflexivity|]. split; [cbn [b_disc app]; rewrite <- D; destruct o; cbn; [apply app_nil_r|reflexivity]|]. destruct o; constructor; [exact F|constructor].
Qed.
End Step.
Lemma cbm_ast n : astf (cbm channels n).
Proof. induction n as [|n IH]; intros p c s ch nx st o st' Hp Ho H; [discriminate|]. cbn [cbm] in H. exact (cbm_step_ast (cbm channels n) IH n p c s ch nx st o st' Hp Ho H). Qed.
Lemma to_token_ast root fuel script st t : plain root -> fst (to_token channels fuel root script st) = Ok t -> tok_valid t = true -> tok_ast t.
Proof. intros Hp H V. unfold to_token in H. destruct (element_to_token _ _ _ _ _ _) as [r st'] eqn:E. cbn in H. subst r. exact (proj1 (element_ast (cbm channels fuel) (cbm_ast fuel) root _ _ _ _ _ _ Hp (or_introl eq_refl) E V)). Qed.
End Asts.

(* the parser's answer *)
Lemma ast_decides channels root fuel script st t :
  (forall p, among channels p -> plain p) -> plain root -> fst (to_token channels fuel root script st) = Ok t ->
  (tok_valid t = true -> exists a, fst (to_ast channels fuel root false script st) = Ok (ASuccess a) /\ at_discovery a = tok_disc t /\ at_name a = el_name (pa_element root) /\ option_map lm_index (the_must t) = Some (at_line a) /\ solid a) /\
  (tok_valid t = false -> exists m, fst (to_ast channels fuel root false script st) = Ok (AMistake m) /\ to_mistake false t = Ok (Some m)).
Proof.
  intros Hc Hr H. unfold to_ast. destruct (lexer_mistake_iff_invalid channels root fuel script st t Hc Hr H) as [I1 I2]. destruct (to_token channels fuel root script st) as [r s'] eqn:E. cbn [fst] in H. subst r. split; intros V.
  - rewrite (proj2 I1 V). cbn [bind fst]. destruct (to_token_ast channels Hc root fuel script st t Hr) as (a & Ea & D & Nm & Li & So); [rewrite E; reflexivity|exact V|]. rewrite Ea. exists a. split; [reflexivity|]. split; [exact D|]. split; [|split; [exact Li|exact So]].
    rewrite Nm. unfold tok_name. destruct (to_token_chosen channels root fuel script st t) as (_ & _ & _ & _ & El); [rewrite E; reflexivity|]. rewrite El. reflexivity.
  - destruct (I2 V) as [m Em]. exists m. rewrite Em. split; reflexivity.
Qed.
Lemma ast_success_text channels root fuel script st a :
  (forall p, among channels p -> plain p) -> plain root -> fst (to_ast channels fuel root false script st) = Ok (ASuccess a) ->
  exists rest, script = at_discovery a ++ rest /\ at_discovery a <> [] /\ el_reads channels True (pa_deps root) true (pa_element root) script rest.
Proof.
  intros Hc Hr H. destruct (fst (to_token channels fuel root script st)) as [t| | |] eqn:E.
  - destruct (ast_decides channels root fuel script st t Hc Hr E) as [A1 A2]. destruct (tok_valid t) eqn:V; [|destruct (A2 eq_refl) as (m & Em & _); congruence]. destruct (A1 eq_refl) as (a' & Ea & D & _). rewrite H in Ea. inversion Ea; subst a'. rewrite D.
    destruct (to_token_sound channels ltac:(intros p Hp; apply plain_good, Hc, Hp) root fuel script st t (plain_good _ Hr) E V) as (rest & Es & Rd & Ne). exists rest. split; [exact Es|]. split; [|exact Rd]. apply Ne. apply (proj1 Hr _ (or_introl eq_refl)).
  - unfold to_ast in H. destruct (to_token channels fuel root script st) as [r s']. cbn in E. subst r. discriminate.
  - unfold to_ast in H. destruct (to_token channels fuel root script st) as [r s']. cbn in E. subst r. discriminate.
  - unfold to_ast in H. destruct (to_token channels fuel root script st) as [r s']. cbn in E. subst r. discriminate.
Qed.

(* ---- the lexer does not fail ---- *)
Definition safe {A} (m : M A) : Prop := forall s, fst (m s) = NoFuel \/ exists a, fst (m s) = Ok a.
Lemma safe_ret {A} (a : A) : safe (ret a). Proof. intros s. right. exists a. reflexivity. Qed.
Lemma safe_lift {A} (r : res A) : r = NoFuel \/ (exists a, r = Ok a) -> safe (lift r). Proof. intros H s. exact H. Qed.
Lemma safe_bind {A B} (m : M A) (f : A -> M B) : safe m -> (forall a s s', m s = (Ok a, s') -> safe (f a)) -> safe (mbind m f).
Proof.
  intros Hm Hf s. unfold mbind. specialize (Hm s). destruct (m s) as [[a| | |] s1] eqn:E; cbn [fst] in Hm.
  - apply (Hf a s s1 E).
  - destruct Hm as [X|(a & X)]; discriminate.
  - destruct Hm as [X|(a & X)]; discriminate.
  - left. reflexivity.
Qed.
Section Safe.
Variable channels : nat -> list path.
Definition sane (p : path) : Prop := plain p /\ resolved p.
Hypothesis Hch : forall p, among channels p -> sane p.
Lemma first_container_some l : (exists c, In (ICont c) l) -> exists c, first_container l = Some c /\ In (ICont c) l.
Proof.
  induction l as [|[|c] l IH]; intros (c0 & H); [destruct H| |].
  - destruct H as [H|H]; [discriminate|]. destruct IH as (c & E & I); [exists c0; exact H|]. exists c. split; [exact E|right; exact I].
  - exists c. split; [reflexivity|left; reflexivity].
Qed.
Lemma first_rule_safe p : sane p -> forall fuel name, mlookup (pa_deps p) name <> None -> first_rule fuel (pa_deps p) name = NoFuel \/ exists r, first_rule fuel (pa_deps p) name = Ok r /\ good_rule r /\ rl_content r <> RConstant [].
Proof.
  intros [Hp Hr]. induction fuel as [|n IH]; intros name Hn; [left; reflexivity|]. cbn [first_rule]. unfold dep_fetch. destruct (mlookup (pa_deps p) name) as [e|] eqn:E; [|contradiction]. cbn [bind].
  assert (He : element_of p e) by (right; left; exists name; exact E). destruct (proj1 Hr e He) as (l & ls & Em & Hl). rewrite Em. destruct (first_container_some l Hl) as (c & Ec & Ic). rewrite Ec.
  assert (Oc : occurs_in p c) by (eapply element_line_occurs; [exact He|rewrite Em; left; reflexivity|exact Ic]). assert (P1 := proj2 Hp c Oc). assert (P2 := proj2 Hr c Oc).
  destruct c as [e' sp k|r k|nm sp k|ls']; [apply IH; exact P2|right; exists r; auto|apply IH; exact P2|destruct P1].
Qed.
Lemma next_from_rule_safe r : good_rule r -> rl_content r <> RConstant [] -> exists n, next_from_rule r = Ok n.
Proof.
  intros [G _] N. unfold next_from_rule. unfold rule_ok in G. apply andb_prop in G. destruct G as [_ G]. destruct (rl_content r) as [[|b c]|[|q ps] k]; [contradiction|eexists; reflexivity|discriminate|eexists; reflexivity].
Qed.
Lemma build_next_safe p fuel c : sane p -> occurs_in p c -> build_next fuel c (pa_deps p) = NoFuel \/ exists n, build_next fuel c (pa_deps p) = Ok n.
Proof.
  intros Hp Oc. assert (P1 := proj2 (proj1 Hp) c Oc). assert (P2 := proj2 (proj2 Hp) c Oc).
  destruct c as [e sp k|r k|nm sp k|ls]; cbn [build_next]; [| | |destruct P1].
  - destruct (first_rule_safe p Hp fuel (el_name e) P2) as [->|(r & -> & G & N)]; [left; reflexivity|]. right. apply next_from_rule_safe; assumption.
  - right. apply next_from_rule_safe; assumption.
  - destruct (first_rule_safe p Hp fuel nm P2) as [->|(r & -> & G & N)]; [left; reflexivity|]. right. apply next_from_rule_safe; assumption.
Qed.
Lemma rule_loop_safe r pmax local sl : good_rule r -> forall fuel acc s, safe (rule_loop fuel r pmax local sl acc s).
Proof.
  intros G. induction fuel as [|n IH]; intros acc s; [intros st; left; reflexivity|]. cbn [rule_loop]. destruct (to_result_answers r s G) as [x E]. rewrite E. destruct (rr_matches x) as [ms|] eqn:Em; [|apply safe_ret].
  destruct (to_result_index r s x G E ltac:(congruence)) as (i & Fi & _ & L). rewrite Fi. intros st.
  assert (Y : forall (s' : lst), fst (Ok (acc ++ [x]), s') = NoFuel \/ (exists a, fst (Ok (acc ++ [x]), s') = Ok a)) by (intros; right; eexists; reflexivity).
  destruct (_ && _); [apply Y|]. destruct (_ <=? _); [apply Y|]. destruct (length s <? length (rr_content x)) eqn:Lt; [apply Nat.ltb_lt in Lt; lia|]. match goal with |- context [if ?b then (Ok _, _) else _] => destruct b end; [apply Y|]. apply IH.
Qed.
Definition safef (f : pcontainer -> gmap element -> bytes -> bool -> bool -> M (option block)) : Prop :=
  forall p c s ch nx, sane p -> occurs_in p c -> safe (f c (pa_deps p) s ch nx).
Section Step.
Variable f : pcontainer -> gmap element -> bytes -> bool -> bool -> M (option block).
Hypothesis Hf : safef f.
Lemma line_loop_safe p l : sane p -> forall s ch nx acc, (forall c, In (ICont c) l -> occurs_in p c) -> safe (line_loop f l (pa_deps p) s ch nx acc).
Proof.
  intros Hp. induction l as [|[|c] l IH]; intros s ch nx acc Ho; cbn [line_loop]; [apply safe_ret|apply IH; intros c Hc; apply Ho; right; exact Hc|].
  apply safe_bind; [apply Hf; [exact Hp|apply Ho; left; reflexivity]|]. intros [b|] st st' _; [|apply safe_ret]. destruct (negb _); [apply safe_ret|]. destruct (has_prefix _ _); [apply IH; intros c' Hc; apply Ho; right; exact Hc|apply safe_ret].
Qed.
Lemma best_line_safe p ls s ch : sane p -> (forall l c, In l ls -> In (ICont c) l -> occurs_in p c) -> safe (best_line f ls (pa_deps p) s ch).
Proof.
  intros Hp Ho. apply safe_bind; [|intros; apply safe_ret]. revert Ho. generalize 0 at 1 as i. generalize 0 as big. generalize (@None (nat * list block)) at 1 as v. generalize (@None (nat * list block)) as iv.
  induction ls as [|l ls IH]; intros iv v big i Ho; cbn [best_loop]; [apply safe_ret|]. apply safe_bind; [apply safe_bind; [apply line_loop_safe; [exact Hp|intros c; apply Ho; left; reflexivity]|intros; apply safe_ret]|].
  assert (Ho' : forall l c, In l ls -> In (ICont c) l -> occurs_in p c) by (intros l0 c Hl; apply Ho; right; exact Hl).
  intros [bl|] st st' _; [|apply IH; exact Ho']. destruct (negb _); [apply IH; exact Ho'|]. destruct (_ <? _); apply IH; exact Ho'.
Qed.
Lemma element_safe p e s ch : sane p -> element_of p e -> safe (element_to_token f e (pa_deps p) s ch).
Proof.
  intros Hp He. destruct (proj1 (proj1 Hp) e He) as [Nn No]. apply safe_bind; [|intros a _ _ _; apply safe_lift; right; destruct (el_name e); [contradiction|eexists; reflexivity]].
  apply safe_bind; [apply best_line_safe; [exact Hp|intros l c; apply element_line_occurs; exact He]|]. intros [m|] st st' _; [|apply safe_ret]. rewrite No. apply safe_ret.
Qed.
Lemma valid_content t : tok_valid t = true -> exists m n, tok_content t = Some (m, n).
Proof. destruct t as [e d [[m n]|]]; [eexists _, _; reflexivity|discriminate]. Qed.
Lemma find_safe s chs : (forall p, In p chs -> sane p) -> safe (find_in_channels f chs s).
Proof.
  induction chs as [|p chs IH]; intros Hp; cbn [find_in_channels]; [apply safe_ret|]. apply safe_bind; [apply element_safe; [apply Hp; left; reflexivity|left; reflexivity]|]. intros t st st' _. destruct (tok_valid t) eqn:V; [|apply IH; intros q Hq; apply Hp; right; exact Hq].
  apply safe_lift. right. destruct (valid_content t V) as (m & n & ->). eexists; reflexivity.
Qed.
Lemma tokens_safe p e pmax ch : sane p -> element_of p e -> forall fuel acc s, safe (token_loop f fuel e (pa_deps p) pmax ch acc s).
Proof.
  intros Hp He. induction fuel as [|n IH]; intros acc s; cbn [token_loop]; [intros st; left; reflexivity|]. apply safe_bind; [apply element_safe; assumption|]. intros t st st' _. destruct (tok_valid t) eqn:V; cbn [negb]; [|apply safe_ret]. destruct (valid_content t V) as (m & x & ->).
  destruct (has_prefix _ _); [|apply safe_ret]. match goal with |- context [if ?b then _ else _] => destruct b end; [apply safe_ret|apply IH].
Qed.
Lemma token_match_safe p fuel e sp k s ch : sane p -> element_of p e -> Forall (fun s => sp_name s <> []) sp -> s <> [] -> safe (token_to_match f fuel e sp k (pa_deps p) s ch).
Proof.
  intros Hp He Hs Ns. unfold token_to_match. destruct (delimiter k) as [mn mx]. apply safe_bind; [apply tokens_safe; assumption|]. intros l st st' _. apply safe_lift. right. destruct s; [contradiction|].
  assert (X : forallb (fun s => non_empty (sp_name s)) sp = true) by (apply forallb_forall; rewrite Forall_forall in Hs; intros x Hx; specialize (Hs x Hx); destruct (sp_name x); [contradiction|reflexivity]). rewrite X. eexists; reflexivity.
Qed.
Lemma cbm_step_safe n : safef (cbm_step channels f n).
Proof.
  intros p c s ch nx Hp Oc. assert (P1 := proj2 (proj1 Hp) c Oc). assert (P2 := proj2 (proj2 Hp) c Oc). unfold cbm_step. destruct s as [|b s].
  - apply safe_lift. assert (K : exists k, cont_card c = Ok k) by (destruct c; [eexists; reflexivity..|destruct P1]). destruct K as [k ->]. cbn [bind]. destruct (is_valid k 0); [right; eexists; reflexivity|]. destruct (build_next_safe p n c Hp Oc) as [->|(x & ->)]; [left; reflexivity|right; eexists; reflexivity].
  - apply safe_bind.
    + destruct ch; [|apply safe_ret]. apply safe_bind; [intros st0; apply find_safe; intros q Hq; apply Hch; eexists; exact Hq|]. intros [m|] st st' _; [|apply safe_ret]. destruct (has_prefix _ _); [|apply safe_ret]. apply safe_bind; [apply Hf; assumption|intros; apply safe_ret].
    + intros [x|] st st' _; [apply safe_ret|]. apply safe_bind; [|intros; apply safe_ret]. destruct c as [e sp k|r k|nm sp k|ls]; cbn [container_to_match]; [| | |destruct P1].
      * apply safe_bind; [|intros; apply safe_ret]. apply token_match_safe; [exact Hp|right; right; exists sp, k; exact Oc|exact P1|discriminate].
      * apply safe_bind; [|intros; apply safe_ret]. intros st0. unfold rule_to_match. destruct (delimiter k). match goal with |- context [mbind ?m ?g st0] => assert (KK : safe (mbind m g)) end; [|apply KK]. apply safe_bind; [apply rule_loop_safe; exact P1|]. intros l s0 s1 _ s2. right. eexists; reflexivity.
      * intros st0. match goal with |- context [if ?b then _ else _] => destruct b end; [right; eexists; reflexivity|].
        match goal with |- context [mbind ?m ?g ?st1] => assert (KK : safe (mbind m g)) end; [|apply KK]. unfold dep_fetch. destruct (mlookup (pa_deps p) nm) as [e|] eqn:El; [|contradiction]. apply safe_bind; [apply safe_lift; right; eexists; reflexivity|]. intros e' s0 s1 X. apply lift_ok in X. destruct X as [X _]. inversion X; subst e'.
        apply safe_bind; [|intros; apply safe_ret]. apply token_match_safe; [exact Hp|right; left; exists nm; exact El|exact P1|discriminate].
Qed.
End Step.
Lemma cbm_safe n : safef (cbm channels n).
Proof. induction n as [|n IH]; intros p c s ch nx Hp Oc; [intros st; left; reflexivity|]. cbn [cbm]. apply cbm_step_safe; assumption. Qed.
Lemma to_token_safe root fuel script st : sane root -> fst (to_token channels fuel root script st) = NoFuel \/ exists t, fst (to_token channels fuel root script st) = Ok t.
Proof. intros Hr. unfold to_token. apply (element_safe (cbm channels fuel) (cbm_safe fuel) root); [exact Hr|left; reflexivity]. Qed.
End Safe.
Lemma parser_never_fails channels root fuel script st :
  (forall p, among channels p -> plain p /\ resolved p) -> plain root -> resolved root ->
  fst (to_ast channels fuel root false script st) = NoFuel \/ exists a, fst (to_ast channels fuel root false script st) = Ok a.
Proof.
  intros Hc Hr Hs. destruct (to_token_safe channels Hc root fuel script st (conj Hr Hs)) as [N|(t & E)].
  - left. unfold to_ast. destruct (to_token channels fuel root script st) as [r s']. cbn in N. subst r. reflexivity.
  - right. destruct (ast_decides channels root fuel script st t (fun p Hp => proj1 (Hc p Hp)) Hr E) as [A1 A2]. destruct (tok_valid t); [destruct (A1 eq_refl) as (a & Ea & _)|destruct (A2 eq_refl) as (m & Em & _)]; eexists; eassumption.
Qed.
Lemma parser_answers depth channels root script st fuel :
  (forall p, among channels p -> plain p /\ resolved p /\ ends depth p /\ switch_free p) -> plain root -> resolved root -> ends depth root ->
  (length script + 1) * (2 * depth + 4) <= fuel -> exists a, fst (to_ast channels fuel root false script st) = Ok a.
Proof.
  intros Hc Hr Hs He L. destruct (parser_never_fails channels root fuel script st ltac:(intros p Hp; split; apply (Hc p Hp)) Hr Hs) as [N|A]; [exfalso|exact A].
  assert (T := to_token_ends depth channels ltac:(intros p Hp; apply (Hc p Hp)) root script st fuel He L). destruct (to_token_safe channels ltac:(intros p Hp; split; apply (Hc p Hp)) root fuel script st (conj Hr Hs)) as [X|(t & E)]; [contradiction|].
  destruct (ast_decides channels root fuel script st t ltac:(intros p Hp; apply (Hc p Hp)) Hr E) as [A1 A2]. destruct (tok_valid t); [destruct (A1 eq_refl) as (a & Ea & _)|destruct (A2 eq_refl) as (m & Em & _)]; congruence.
Qed.

(* ---- paths made for tables ---- *)
Section Made.
Variable D : list token.
Lemma iunf_from s p al l x ext c : instrs_unfold D none none s p al l x ext -> In (ICont c) x -> exists y ext', In (TElem y) l /\ elem_unfolds D none none s p al y c ext'.
Proof.
  revert x ext. induction l as [|i l IH]; intros x ext U I; inversion U; subst; [destruct I| |].
  - destruct I as [I|I]; [discriminate|]. match goal with H : instrs_unfold _ _ _ _ _ _ l _ _ |- _ => destruct (IH _ _ H I) as (y & e' & Hy & E) end. exists y, e'. split; [right; exact Hy|exact E].
  - destruct I as [[= <-]|I]; [eexists _, _; split; [left; reflexivity|eassumption]|]. match goal with H : instrs_unfold _ _ _ _ _ _ l _ _ |- _ => destruct (IH _ _ H I) as (y & e' & Hy & E) end. exists y, e'. split; [right; exact Hy|exact E].
Qed.
Lemma lunf_from s p ls xs ext x c : lines_unfold D none none s p ls xs ext -> In x xs -> In (ICont c) x -> exists l al y ext', In l ls /\ In (TElem y) l /\ elem_unfolds D none none s p al y c ext'.
Proof.
  revert xs ext. induction ls as [|l0 ls IH]; intros xs ext U I J; inversion U; subst; [destruct I|]. destruct I as [<-|I].
  - match goal with H : instrs_unfold _ _ _ _ _ _ l0 _ _ |- _ => destruct (iunf_from _ _ _ _ _ _ _ H J) as (y & e' & Hy & E) end. exists l0, (lonely l0), y, e'. split; [left; reflexivity|]. split; [exact Hy|exact E].
  - match goal with H : lines_unfold _ _ _ _ _ ls _ _ |- _ => destruct (IH _ _ H I J) as (l & al & y & e' & Hl & Hy & E) end. exists l, al, y, e'. split; [right; exact Hl|]. split; [exact Hy|exact E].
Qed.
Variable t : token.
Definition known (u : token) : Prop := u = t \/ In u D.
Hypothesis Ht : forall u, known u -> simple_token u.
(* where an element and a container come from *)
Definition from (s : list bytes) (e : element) : Prop := (forall n, In n s -> is_declared D n) /\ exists u ext, known u /\ unfolds D none none s u e ext.
Lemma from_simple s e : from s e -> el_name e <> [] /\ el_not e = None /\ exists l ls, el_must e = l :: ls /\ exists c, In (ICont c) l.
Proof.
  intros (Hs & u & ext & Ku & U). destruct (Ht u Ku) as (Ok & Nn & (l & ls & y & Em & Iy) & _). inversion U as [? ? must ext0 En L|? ? ls0 must not ext1 ext2 En]; subst; [|congruence]. cbn [el_name el_not el_must].
  split; [unfold token_ok in Ok; destruct (t_name u); [discriminate|discriminate]|]. split; [reflexivity|].
  rewrite Em in L. inversion L as [|? ? ? x ex ? xs ex' Ix Lx]; subst. exists x, xs. split; [reflexivity|]. clear - Ix Iy. revert x ex Ix. generalize (lonely l) as al. induction l as [|i l IH]; intros al x ex Ix; [destruct Iy|]. inversion Ix; subst.
  - destruct Iy as [Iy|Iy]; [discriminate|]. match goal with H : instrs_unfold _ _ _ _ _ _ l _ _ |- _ => destruct (IH Iy _ _ _ H) as [c Hc] end. exists c. right. exact Hc.
  - eexists. left. reflexivity.
Qed.
Lemma specs_non_empty r l : tref_ok r = true -> specs_are r l -> Forall (fun s => sp_name s <> []) l.
Proof.
  unfold specs_are, tref_ok. intros Ok E. apply andb_prop in Ok. destruct Ok as [_ Ok]. apply Forall_forall. intros s Hs Hn.
  assert (I : In (sp_name s, sp_card s) (map (fun s => (sp_name s, sp_card s)) l)) by (apply (in_map (fun s => (sp_name s, sp_card s))); exact Hs). rewrite E in I. destruct (tr_specs r) as [x|]; [|destruct I]. apply andb_prop in Ok. destruct Ok as [_ Ok]. apply in_map_iff in I. destruct I as (y & Ey & Iy).
  rewrite forallb_forall in Ok. specialize (Ok y Iy). unfold tspec_ok in Ok. inversion Ey as [[E1 E2]]. rewrite E1, Hn in Ok. discriminate.
Qed.
Lemma from_directly s e c : from s e -> directly e c ->
  match c with
  | PRule r _ => good_rule r /\ rl_content r <> RConstant []
  | PToken e' sp _ => Forall (fun s => sp_name s <> []) sp /\ is_declared D (el_name e') /\ exists s', from s' e'
  | PRec n sp _ => Forall (fun s => sp_name s <> []) sp /\ is_declared D n
  | PLines _ => False
  end.
Proof.
  intros F Hd. assert (Fs := from_simple s e F). destruct F as (Hs & u & ext & Ku & U). destruct (Ht u Ku) as (Ok & Nn & _ & Hr). destruct Hd as [(x & Hx & Hc)|(ls & E & _)]; [|destruct Fs as (_ & Fn & _); congruence].
  inversion U as [? ? must ext0 En L|? ? ls0 must not ext1 ext2 En]; subst; [|congruence]. cbn [el_must] in Hx. destruct (lunf_from _ _ _ _ _ _ _ L Hx Hc) as (l & al & y & ext' & Il & Iy & E).
  assert (Oy : tinstr_ok (TElem y) = true).
  { unfold token_ok in Ok. apply andb_prop in Ok. destruct Ok as [Ok _]. apply andb_prop in Ok. destruct Ok as [_ Ok]. rewrite forallb_forall in Ok. specialize (Ok l Il). unfold tline_ok in Ok. apply andb_prop in Ok. destruct Ok as [_ Ok]. rewrite forallb_forall in Ok. apply Ok. exact Iy. }
  cbn [tinstr_ok] in Oy.
  inversion E as [? ? ? ? r k Ey Ck|? ? ? ? r specs k Ey Ck Sp In1 Al|? ? ? ? r specs k el ex Ey Ck Sp Ni Rp|? ? ? ? r specs k v el ex Ey Ck Sp Ni Rp Iv Ev Uv|? ? ? ? r specs k el ex Ey Ck Sp Ni Rp Nd Nf]; subst; rewrite Ey in Oy; try discriminate.
  - destruct (Hr l y r Il Iy Ey) as [H1 H2]. split; [split; assumption|exact H1].
  - split; [eapply specs_non_empty; eassumption|]. apply Hs. exact In1.
  - split; [eapply specs_non_empty; eassumption|]. split; [exists v; split; [exact Iv|]; symmetry; eapply unf_name; exact Uv|]. exists (tr_name r :: s). split.
    + intros n [<-|Hn]; [exists v; auto|apply Hs; exact Hn].
    + exists v, ext'. split; [right; exact Iv|exact Uv].
Qed.
End Made.
Lemma made_sane p : made p -> plain p /\ resolved p.
Proof.
  intros (T & ts & t & G & F & St & Sa & E). pose (D := table_all T).
  assert (Ht : forall u, known D t u -> simple_token u) by (intros u [->|H]; [exact St|rewrite Forall_forall in Sa; apply Sa; exact H]).
  assert (Ot : token_ok t = true) by apply St.
  destruct (path_element_exact T none none ts t p G F Ot E) as [ext U].
  assert (Fr : from D t [] (pa_element p)) by (split; [intros n []|]; exists t, ext; split; [left; reflexivity|exact U]).
  assert (Fd : forall n e, mlookup (pa_deps p) n = Some e -> from D t [] e).
  { intros n e He. assert (Hd : dep_fetch (pa_deps p) n = Ok e) by (unfold dep_fetch; rewrite He; reflexivity). apply (path_fetch T ts t p n e G F Ot E) in Hd. destruct Hd as [[_ ->]|(_ & u & Iu & _ & Uu)]; [exact Fr|]. split; [intros m []|]. exists u, []. split; [right; exact Iu|exact Uu]. }
  assert (Fo : forall c, occurs_in p c -> exists s e, from D t s e /\ directly e c).
  { intros c Ho. induction Ho as [c Hd|n e c Hn Hd|e sp k c Ho IH Hd]; [exists [], (pa_element p); auto|exists [], e; split; [eapply Fd; exact Hn|exact Hd]|].
    destruct IH as (s & e0 & Fe & He). assert (X := from_directly D t Ht s e0 _ Fe He). cbn in X. destruct X as (_ & _ & s' & Fe'). exists s', e. auto. }
  assert (Fe : forall e, element_of p e -> exists s, from D t s e).
  { intros e [->|[(n & Hn)|(sp & k & Ho)]]; [exists []; exact Fr|exists []; eapply Fd; exact Hn|]. destruct (Fo _ Ho) as (s & e0 & Fe & He). assert (X := from_directly D t Ht s e0 _ Fe He). cbn in X. apply X. }
  assert (Rs : forall n, is_declared D n -> mlookup (pa_deps p) n <> None).
  { intros n (u & Iu & Eu) Hn. assert (X : exists e, dep_fetch (pa_deps p) n = Ok e); [|destruct X as (e & X); unfold dep_fetch in X; rewrite Hn in X; discriminate].
    destruct (good_find T G) as (Hf & Hnd & Hok). destruct (list_eq_dec byte_eq_dec n (t_name t)) as [->|Ne]; [exists (pa_element p); apply (path_fetch T ts t p _ _ G F Ot E); left; auto|].
    assert (E' := E). apply (to_path_step T none none Hf Hok _ t (after_calls_ok T none none Hf Hok ts F) Ot) in E'. destruct E' as (deps & e0 & ext0 & Hd & _). destruct (deps_of_all _ _ _ _ _ Hd u Iu) as (e & ext' & Uu).
    exists e. apply (path_fetch T ts t p _ _ G F Ot E). right. split; [exact Ne|]. exists u. assert (ext' = []) as -> by (eapply unf_no_ext; eauto). auto. }
  split; split.
  - intros e He. destruct (Fe e He) as [s Fs]. destruct (from_simple D t Ht s e Fs) as (H1 & H2 & _). auto.
  - intros c Ho. destruct (Fo c Ho) as (s & e & Fs & He). assert (X := from_directly D t Ht s e c Fs He). destruct c; [apply X|apply X|apply X|exact X].
  - intros e He. destruct (Fe e He) as [s Fs]. destruct (from_simple D t Ht s e Fs) as (_ & _ & H). exact H.
  - intros c Ho. destruct (Fo c Ho) as (s & e & Fs & He). assert (X := from_directly D t Ht s e c Fs He). destruct c; [apply Rs; apply X|apply X|apply Rs; apply X|exact I].
Qed.
Lemma made_good p : made p -> good_path p.
Proof. intros H. apply plain_good. apply (made_sane p H). Qed.
Lemma parser_end_to_end channels root fuel script st : (forall p, among channels p -> made p) -> made root ->
  fst (to_ast channels fuel root false script st) = NoFuel \/
  (exists m, fst (to_ast channels fuel root false script st) = Ok (AMistake m)) \/
  (exists a rest, fst (to_ast channels fuel root false script st) = Ok (ASuccess a) /\ script = at_discovery a ++ rest /\ at_discovery a <> [] /\ el_reads channels True (pa_deps root) true (pa_element root) script rest).
Proof.
  intros Hc Hr. destruct (made_sane root Hr) as [R1 R2]. destruct (parser_never_fails channels root fuel script st ltac:(intros p Hp; apply made_sane, Hc, Hp) R1 R2) as [N|([m|a] & E)]; [left; exact N|right; left; exists m; exact E|].
  right. right. destruct (ast_success_text channels root fuel script st a ltac:(intros p Hp; apply made_sane, Hc, Hp) R1 E) as (rest & E1 & E2 & E3). exists a, rest. auto.
Qed.
