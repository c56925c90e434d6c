(* PickProofs3.v - proofs for PickProps.v: the lexer reads what the relations say. *)
From Coq Require Import Strings.String Strings.Byte Lia.
From Verif Require Import Go GoLemmas DomainModel DomainSpec DomainProofs CardModel CardSpec CardProofs PatModel PatSpec PatProofs RuleModel RuleSpec RuleProofs PathModel PathSpec PathProofs LexModel LexSpec LexProofs LexProofs2 LexProofs3 AstModel AstSpec AstProofs AstProofs2 AstProofs3 OrdSpec OrdProofs PickSpec PickProofs PickProofs2.
Open Scope list_scope.

Scheme gives_mut := Minimality for gives Sort Prop
with bad_mut := Minimality for bad Sort Prop
with lgives_mut := Minimality for line_gives Sort Prop
with lbad_mut := Minimality for line_bad Sort Prop
with beaten_mut := Minimality for beaten Sort Prop
with picks_mut := Minimality for picks Sort Prop
with tokens_mut := Minimality for tokens Sort Prop.
Combined Scheme pick_ind from gives_mut, bad_mut, lgives_mut, lbad_mut, beaten_mut, picks_mut, tokens_mut.

Lemma draw_cons b bl o out : draws b o -> draw_all bl out -> draw_all (b :: bl) (o ++ out).
Proof. intros (ms & E & D) (ns & E' & D'). exists (ms ++ ns). cbn [collect]. rewrite E, E'. cbn [bind]. rewrite map_app, concat_app, D, D'. split; reflexivity. Qed.
Lemma has_prefix_app w s : has_prefix w (w ++ s) = true.
Proof. apply has_prefix_is_prefix. exists s. reflexivity. Qed.
Lemma cut_app w s : cut w (w ++ s) = s.
Proof. unfold cut. rewrite skipn_app, skipn_all, Nat.sub_diag. reflexivity. Qed.
Lemma forallb_toks {A} (f : A -> bool) l : Forall (fun x => f x = true) l -> forallb f l = true.
Proof. intros F. apply forallb_forall. apply Forall_forall. exact F. Qed.

Section Main.
Variable channels : nat -> list path.
Hypothesis Hc : plain_channels channels.
Notation run := (cbm channels).
Definition pre_off (st : lst) : Prop := ls_pre st = false.
Definition G (c : pcontainer) (ch nx : bool) (s : bytes) (out : list tree) (s1 : bytes) : Prop := s <> [] /\
  forall n d st o st', ls_pre st = false -> run n c d s ch nx st = (Ok o, st') -> exists b, o = Some b /\ b_valid b = true /\ s = b_disc b ++ s1 /\ draws b out.
Definition B (c : pcontainer) (ch nx : bool) (s : bytes) : Prop :=
  forall n d st o st', ls_pre st = false -> run n c d s ch nx st = (Ok o, st') -> exists b, o = Some b /\ b_valid b = false.
Definition LG (l : line) (ch nx : bool) (s : bytes) (out : list tree) (rest : bytes) : Prop :=
  forall n d acc st o st', ls_pre st = false -> line_loop (run n) l d s ch nx acc st = (Ok o, st') ->
  exists bl, o = Some (acc ++ bl) /\ forallb b_valid bl = true /\ s = text bl ++ rest /\ draw_all bl out.
Definition LB (l : line) (ch nx : bool) (s : bytes) : Prop :=
  forall n d acc st o st', ls_pre st = false -> line_loop (run n) l d s ch nx acc st = (Ok o, st') -> exists b, o = Some [b] /\ b_valid b = false.
Definition BT (m : nat) (nx : bool) (s : bytes) (ls : list line) : Prop :=
  forall n d st outs st', ls_pre st = false -> lines_run (fun l => line_to_matches (run n) l d s nx) ls st outs st' -> ls_pre st' = false /\ forall j bl, candidate outs j bl -> m + length (text bl) <= length s.
Definition PK (e : element) (nx : bool) (s : bytes) (t : tree) (rest : bytes) : Prop :=
  forall n d st x st', ls_pre st = false -> element_to_token (run n) e d s nx st = (Ok x, st') ->
  exists m a, tok_content x = Some (m, None) /\ tok_valid x = true /\ lm_disc m = tok_disc x /\ s = tok_disc x ++ rest /\ tok_disc x <> [] /\ ast_tok x = Ok a /\ drawn a = t /\ option_map lm_index (Some m) = Some (at_line a).
Definition TK (e : element) (nx : bool) (k : cardinality) (done : nat) (s : bytes) (ts : list tree) (s1 : bytes) : Prop :=
  forall n d fuel acc st l st', ls_pre st = false -> length acc = done -> token_loop (run n) fuel e d (snd (delimiter k)) nx acc s st = (Ok l, st') ->
  exists l' al, l = acc ++ l' /\ length l' = length ts /\ Forall (fun x => tok_valid x = true) l' /\ s = concat (map tok_disc l') ++ s1 /\ collect (fun x => let* a := ast_tok x in Ok [a]) l' = Ok al /\ map drawn al = ts.

Lemma run_step n c d s ch nx st o st' : s <> [] -> run n c d s ch nx st = (Ok o, st') -> still channels ch c s -> ls_pre st = false ->
  exists n' m sa, n = S n' /\ ls_pre sa = false /\ container_to_match (run n') n' c d s nx sa = (Ok m, st') /\ o = match m with Some x => Some (BCont x None) | None => None end.
Proof.
  intros Ns H St P. destruct n as [|n]; [discriminate|]. cbn [cbm] in H. unfold cbm_step in H. destruct s as [|b s]; [contradiction|]. apply mbind_ok in H. destruct H as (f & sa & E & H). apply (still_none channels Hc n c d) in E; try assumption. destruct E as [-> Pa].
  apply mbind_ok in H. destruct H as (m & sb & E & H). apply ret_ok in H. destruct H as [<- <-]. exists n, m, sa. auto.
Qed.
Lemma rule_case r k ch nx s n d st o st' : s <> [] -> run n (PRule r k) d s ch nx st = (Ok o, st') -> still channels ch (PRule r k) s -> ls_pre st = false ->
  exists x sa, ls_pre sa = false /\ rule_to_match r k s nx sa = (Ok x, st') /\ o = Some (BCont (rule_or_skip x) None).
Proof. intros Ns H St P. destruct (run_step _ _ _ _ _ _ _ _ _ Ns H St P) as (n' & m & sa & _ & Pa & E & ->). cbn [container_to_match] in E. apply mbind_ok in E. destruct E as (x & sb & E & H'). apply ret_ok in H'. destruct H' as [<- <-]. exists x, sa. auto. Qed.
Lemma token_case e k ch nx s n d st o st' : s <> [] -> run n (PToken e [] k) d s ch nx st = (Ok o, st') -> still channels ch (PToken e [] k) s -> ls_pre st = false ->
  exists n' sa sb l, ls_pre sa = false /\ token_loop (run n') n' e d (snd (delimiter k)) nx [] s sa = (Ok l, sb) /\ o = Some (BCont (token_or_skip (TM e [] s k l)) None).
Proof.
  intros Ns H St P. destruct (run_step _ _ _ _ _ _ _ _ _ Ns H St P) as (n' & m & sa & _ & Pa & E & ->). cbn [container_to_match] in E. apply mbind_ok in E. destruct E as (t & sb & E & H'). apply ret_ok in H'. destruct H' as [<- <-].
  unfold token_to_match in E. destruct (delimiter k) as [mn mx] eqn:Ed. apply mbind_ok in E. destruct E as (l & sc & E & H'). apply lift_ok in H'. destruct H' as [H' <-]. destruct s as [|b s]; [contradiction|]. cbn [forallb] in H'. injection H' as <-. cbn [snd]. exists n', sa, sc, l. auto.
Qed.
Lemma tm_plain e s k l : Forall (fun x => tok_valid x = true) l -> tm_valid (TM e [] s k l) = is_valid k (N.of_nat (length l)).
Proof. intros F. cbn [tm_valid forallb]. rewrite (forallb_toks _ _ F). rewrite andb_true_r. reflexivity. Qed.
Lemma or_bool b c : negb b = false -> c = true -> b = true. Proof. destruct b; auto. Qed.

Theorem main :
  (forall c ch nx s out s1, gives channels c ch nx s out s1 -> G c ch nx s out s1) /\
  (forall c ch nx s, bad channels c ch nx s -> B c ch nx s) /\
  (forall l ch nx s out rest, line_gives channels l ch nx s out rest -> LG l ch nx s out rest) /\
  (forall l ch nx s, line_bad channels l ch nx s -> LB l ch nx s) /\
  (forall m nx s ls, beaten channels m nx s ls -> BT m nx s ls) /\
  (forall e nx s t rest, picks channels e nx s t rest -> PK e nx s t rest) /\
  (forall e nx k done s ts s1, tokens channels e nx k done s ts s1 -> TK e nx k done s ts s1).
Proof.
  apply pick_ind.
  - (* gv_rule *) intros r k ch nx s w s1 L St T. destruct (takes_starts r k s w s1 L T) as (_ & Ns). split; [exact Ns|]. intros n d st o st' P H.
    destruct (rule_case _ _ _ _ _ _ _ _ _ _ Ns H St P) as (x & sa & Pa & E & ->). destruct (takes_match r k s w s1 L T sa nx Pa) as (x' & E' & Ek & Er & Ev & Ed & Nr & Nw). rewrite E in E'. injection E' as <- ->.
    exists (BCont (MRule x) None). unfold rule_or_skip. rewrite Ev, andb_false_r. split; [reflexivity|]. split; [exact Ev|]. cbn [b_disc m_disc app]. rewrite Ed. split; [apply T|].
    destruct (rule_draws r k s w s1 nx _ x _ L E Er Ed (proj1 T) Nw) as (y & Ey & Dy). exists [y]. cbn [ast_block ast_match bind]. rewrite Ey. cbn [bind app map concat]. rewrite Dy. split; reflexivity.
  - (* gv_no_rule *) intros r k ch nx s L Ns St Nb K0. split; [exact Ns|]. intros n d st o st' P H.
    destruct (rule_case _ _ _ _ _ _ _ _ _ _ Ns H St P) as (x & sa & Pa & E & ->). destruct (missing_match r k s L Nb sa nx Pa) as (x' & E' & Ek & Ev & _). rewrite E in E'. injection E' as <- ->.
    eexists. split; [reflexivity|]. unfold rule_or_skip. rewrite Ek, K0. cbn [andb]. destruct (rm_valid x) eqn:V; cbn [negb].
    + destruct (Ev eq_refl) as (Er & _). split; [exact V|]. cbn [b_disc m_disc app]. unfold rm_disc. rewrite Er. split; [reflexivity|]. exists []. cbn [ast_block ast_match bind]. unfold rule_result. rewrite Er. split; reflexivity.
    + split; [reflexivity|]. split; [reflexivity|]. exists []. split; reflexivity.
  - (* gv_tokens *) intros e k ch nx s ts s1 Ns St _ T K. split; [exact Ns|]. intros n d st o st' P H.
    destruct (token_case _ _ _ _ _ _ _ _ _ _ Ns H St P) as (n' & sa & sb & l & Pa & E & ->). destruct (T n' d n' [] sa l sb Pa eq_refl E) as (l' & al & El & Ln & F & Es & Ca & Da). cbn [app] in El. subst l'.
    eexists. split; [reflexivity|]. unfold token_or_skip. cbn [tm_card]. rewrite (tm_plain e s k l F), Ln, K. cbn [negb]. rewrite andb_false_r. split; [cbn [b_valid m_valid]; rewrite (tm_plain e s k l F), Ln; exact K|]. cbn [b_disc m_disc app tm_disc]. rewrite join_concat. split; [exact Es|].
    destruct l as [|x l].
    + exists []. cbn [ast_block ast_match ast_tm bind app map concat]. split; [reflexivity|]. destruct ts; [reflexivity|discriminate].
    + assert (Nn : el_name e <> []). { destruct n' as [|n']; [discriminate|]. cbn [token_loop] in E. apply mbind_ok in E. destruct E as (t & sc & E & _). unfold element_to_token in E. apply mbind_ok in E. destruct E as (c & sd & _ & E). apply lift_ok in E. destruct E as [E _]. destruct (el_name e); [discriminate|discriminate]. }
      exists [AMToken (el_name e) al]. cbn [ast_block ast_match ast_tm bind]. rewrite Ca. cbn [bind]. destruct (el_name e); [contradiction|]. cbn [bind app map concat parts_of]. rewrite app_nil_r. split; [reflexivity|exact Da].
  - (* gv_skip *) intros c ch nx s nm w s1 out s2 Ch Sk _ [Ns1 IH]. destruct (passes_split channels _ _ _ _ Sk) as (Es & Ns & _). split; [exact Ns|]. intros n d st o st' P H. destruct n as [|n]; [discriminate|].
    destruct (skip_some channels Hc n c d s ch nx nm w s1 st o st' Ch Sk P H) as [(b & sa & sb & E & Pa & m & -> & Dm & Am)|(sa & sb & E & Pa)].
    + destruct (IH n d sa _ sb Pa E) as (b' & Eb & V & Es1 & Db). injection Eb as <-. exists (BBlock b (Some m)). split; [reflexivity|]. split; [exact V|]. cbn [b_disc]. rewrite Dm, <- app_assoc, <- Es1. split; [exact Es|].
      destruct m as [i bl]. destruct (Am i bl eq_refl) as (ms & Em & Em'). destruct Db as (ns & En & En'). exists (ms ++ ns). cbn [ast_block]. rewrite Em. cbn [bind]. rewrite En. cbn [bind]. rewrite map_app, concat_app, Em', En'. split; reflexivity.
    + destruct (IH n d sa _ sb Pa E) as (b' & Eb & _). discriminate.
  - (* bd_end *) intros c ch nx k Ck K0 n d st o st' P H. destruct n as [|n]; [discriminate|]. cbn [cbm] in H. unfold cbm_step in H. apply lift_ok in H. destruct H as [H _]. rewrite Ck in H. cbn [bind] in H. rewrite K0 in H. destruct (build_next n c d); try discriminate. injection H as <-. eexists. split; reflexivity.
  - (* bd_rule *) intros r k ch nx s L Ns St Nb K0 n d st o st' P H.
    destruct (rule_case _ _ _ _ _ _ _ _ _ _ Ns H St P) as (x & sa & Pa & E & ->). destruct (missing_match r k s L Nb sa nx Pa) as (x' & E' & Ek & _ & Ev). rewrite E in E'. injection E' as <- ->.
    eexists. split; [reflexivity|]. unfold rule_or_skip. rewrite Ek, K0. exact (Ev K0).
  - (* bd_tokens *) intros e k ch nx s ts s1 Ns St _ T K0 K n d st o st' P H.
    destruct (token_case _ _ _ _ _ _ _ _ _ _ Ns H St P) as (n' & sa & sb & l & Pa & E & ->). destruct (T n' d n' [] sa l sb Pa eq_refl E) as (l' & al & El & Ln & F & Es & Ca & Da). cbn [app] in El. subst l'.
    eexists. split; [reflexivity|]. unfold token_or_skip. cbn [tm_card]. rewrite K0. cbn [andb b_valid m_valid]. rewrite (tm_plain e s k l F), Ln. exact K.
  - (* bd_skip *) intros c ch nx s nm w s1 Ch Sk _ IH n d st o st' P H. destruct n as [|n]; [discriminate|].
    destruct (skip_some channels Hc n c d s ch nx nm w s1 st o st' Ch Sk P H) as [(b & sa & sb & E & Pa & m & -> & _)|(sa & sb & E & Pa)].
    + destruct (IH n d sa _ sb Pa E) as (b' & Eb & V). injection Eb as <-. eexists. split; [reflexivity|exact V].
    + destruct (IH n d sa _ sb Pa E) as (b' & Eb & _). discriminate.
  - (* lg_end *) intros ch nx s n d acc st o st' P H. cbn [line_loop] in H. apply ret_ok in H. destruct H as [<- <-]. exists []. rewrite app_nil_r. split; [reflexivity|]. split; [reflexivity|]. split; [reflexivity|]. exists []. split; reflexivity.
  - (* lg_switch *) intros l ch nx s out rest _ IH n d acc st o st' P H. cbn [line_loop] in H. exact (IH _ _ _ _ _ _ P H).
  - (* lg_more *) intros c l ch nx s og s1 out rest _ [Ns Ig] _ IH n d acc st o st' P H. cbn [line_loop] in H. apply mbind_ok in H. destruct H as (ob & sa & E & H). assert (Pa := cbm_keeps channels n c d s ch nx st P). rewrite E in Pa. cbn [snd] in Pa.
    destruct (Ig n d st ob sa P E) as (b & -> & V & Es & Db). rewrite V in H. cbn [negb] in H. rewrite Es, has_prefix_app, cut_app in H. destruct (IH _ _ _ _ _ _ Pa H) as (bl & -> & Vl & El & Dl). exists (b :: bl). split; [rewrite <- app_assoc; reflexivity|]. split; [cbn [forallb]; rewrite V; exact Vl|].
    split; [unfold text in *; cbn [map concat]; rewrite <- app_assoc, <- El; exact Es|exact (draw_cons _ _ _ _ Db Dl)].
  - (* lg_over *) intros c l ch nx k Ck K0 n d acc st o st' P H. cbn [line_loop] in H. apply mbind_ok in H. destruct H as (ob & sa & E & H). destruct n as [|n]; [discriminate|]. cbn [cbm] in E. unfold cbm_step in E. apply lift_ok in E. destruct E as [E <-]. rewrite Ck in E. cbn [bind] in E. rewrite K0 in E. injection E as <-.
    apply ret_ok in H. destruct H as [<- <-]. exists []. rewrite app_nil_r. split; [reflexivity|]. split; [reflexivity|]. split; [reflexivity|]. exists []. split; reflexivity.
  - (* lb_switch *) intros l ch nx s _ IH n d acc st o st' P H. cbn [line_loop] in H. exact (IH _ _ _ _ _ _ P H).
  - (* lb_here *) intros c l ch nx s _ IH n d acc st o st' P H. cbn [line_loop] in H. apply mbind_ok in H. destruct H as (ob & sa & E & H). destruct (IH _ _ _ _ _ P E) as (b & -> & V). rewrite V in H. cbn [negb] in H. apply ret_ok in H. destruct H as [<- <-]. exists b. auto.
  - (* lb_later *) intros c l ch nx s og s1 _ [Ns Ig] _ IH n d acc st o st' P H. cbn [line_loop] in H. apply mbind_ok in H. destruct H as (ob & sa & E & H). assert (Pa := cbm_keeps channels n c d s ch nx st P). rewrite E in Pa. cbn [snd] in Pa.
    destruct (Ig n d st ob sa P E) as (b & -> & V & Es & Db). rewrite V in H. cbn [negb] in H. rewrite Es, has_prefix_app, cut_app in H. exact (IH _ _ _ _ _ _ Pa H).
  - (* bt_nil *) intros m nx s n d st outs st' P H. inversion H; subst. split; [exact P|]. intros [|j] bl (Hn & _); discriminate.
  - (* bt_bad *) intros m nx s l ls _ IB _ IH n d st outs st' P H. inversion H as [|? ? o os ? s1 ? E R]; subst. unfold line_to_matches in E. apply mbind_ok in E. destruct E as (ol & sb & E & E'). apply ret_ok in E'. destruct E' as [<- <-].
    assert (Pb := line_keeps (run n) (cbm_keeps channels n) l d s nx nx [] st P). rewrite E in Pb. cbn [snd] in Pb. destruct (IB _ _ _ _ _ _ P E) as (b & -> & V). destruct (IH _ _ _ _ _ Pb R) as (Pe & IHc). split; [exact Pe|].
    intros [|j] bl (Hn & Vb & Tb); [|apply (IHc j); split; [exact Hn|auto]]. cbn in Hn. injection Hn as <-. cbn [forallb] in Vb. rewrite V in Vb. discriminate.
  - (* bt_less *) intros m nx s l ls out rest _ IG Lm _ IH n d st outs st' P H. inversion H as [|? ? o os ? s1 ? E R]; subst. unfold line_to_matches in E. apply mbind_ok in E. destruct E as (ol & sb & E & E'). apply ret_ok in E'. destruct E' as [<- <-].
    assert (Pb := line_keeps (run n) (cbm_keeps channels n) l d s nx nx [] st P). rewrite E in Pb. cbn [snd] in Pb. destruct (IG _ _ _ _ _ _ P E) as (bl' & -> & V & Es & _). destruct (IH _ _ _ _ _ Pb R) as (Pe & IHc). split; [exact Pe|].
    intros [|j] bl (Hn & Vb & Tb); [|apply (IHc j); split; [exact Hn|auto]]. cbn in Hn. destruct bl'; [discriminate|]. injection Hn as <-. rewrite Es, app_length. lia.
  - (* pk_line *) intros e nx s before l after out rest Nn Em _ IG Ls _ IB _ IA n d st x st' P H. unfold element_to_token, element_to_content in H. apply mbind_ok in H. destruct H as (c & sa & E & H). apply lift_ok in H. destruct H as [H <-].
    apply mbind_ok in E. destruct E as (om & sb & E & E'). rewrite Nn in E'. apply best_line_chosen in E. destruct E as (outs & R & C). rewrite Em in R.
    assert (Sp : exists o1 o2 s1 s2 bl, outs = o1 ++ Some bl :: o2 /\ length o1 = length before /\ lines_run (fun l => line_to_matches (run n) l d s nx) before st o1 s1 /\ ls_pre s1 = false /\ ls_pre s2 = false /\ lines_run (fun l => line_to_matches (run n) l d s nx) after s2 o2 sb /\ forallb b_valid bl = true /\ s = text bl ++ rest /\ draw_all bl out /\ bl <> []).
    { clear - IB IG Ls R P Hc. specialize (IB n d).
      assert (SP : exists o1 o2 s1, outs = o1 ++ o2 /\ length o1 = length before /\ lines_run (fun l => line_to_matches (run n) l d s nx) before st o1 s1 /\ lines_run (fun l => line_to_matches (run n) l d s nx) (l :: after) s1 o2 sb).
      { clear IB P. revert st outs R. induction before as [|l0 before IH]; intros st outs R; [exists [], outs, st; cbn [app length] in *; split; [reflexivity|]; split; [reflexivity|]; split; [constructor|exact R]|]. cbn [app] in R. inversion R as [|? ? o os ? s1 ? E R']; subst. destruct (IH s1 os R') as (o1 & o2 & s2 & -> & Ln & R1 & R2). exists (o :: o1), o2, s2. split; [reflexivity|]. split; [cbn; lia|]. split; [econstructor; eassumption|exact R2]. }
      destruct SP as (o1 & o2 & s1 & -> & Ln & R1 & R2). destruct (IB _ _ _ P R1) as (P1 & _). inversion R2 as [|? ? o os ? s2 ? E R']; subst. unfold line_to_matches in E. apply mbind_ok in E. destruct E as (ol & sc & E & E'). apply ret_ok in E'. destruct E' as [<- <-].
      assert (Pb := line_keeps (run n) (cbm_keeps channels n) l d s nx nx [] s1 P1). rewrite E in Pb. cbn [snd] in Pb. destruct (IG _ _ _ _ _ _ P1 E) as (bl & -> & V & Es & D). cbn [app] in *. assert (Nb : bl <> []) by (intros ->; cbn in Es; subst rest; lia). destruct bl as [|b bl]; [contradiction|]. exists o1, os, s1, sc, (b :: bl). auto 12. }
    destruct Sp as (o1 & o2 & s1 & s2 & bl & -> & Ln & R1 & P1 & P2 & R2 & V & Es & D & Nb). destruct (IB _ _ _ _ _ P R1) as (_ & CB). destruct (IA _ _ _ _ _ P2 R2) as (_ & CA). assert (Ls' : length s = length (text bl) + length rest) by (rewrite Es at 1; apply app_length).
    assert (Cand : candidate (o1 ++ Some bl :: o2) (length before) bl) by (split; [rewrite <- Ln, nth_error_app2, Nat.sub_diag by lia; reflexivity|split; [exact V|intros Z; rewrite Z in Ls'; cbn in Ls'; lia]]).
    assert (Om : om = Some (LM (length before) bl)).
    { destruct om as [[i b']|].
      - destruct C as [[Ci Cm]|[Cn _]]; [|exfalso; exact (Cn _ _ Cand)]. destruct (Cm _ _ Cand) as [M1 M2]. destruct (Nat.lt_trichotomy i (length before)) as [Hi|[->|Hi]].
        + exfalso. assert (Ci' : candidate o1 i b') by (destruct Ci as (Hn & Ci); split; [rewrite nth_error_app1 in Hn by lia; exact Hn|exact Ci]). specialize (CB _ _ Ci'). lia.
        + destruct Ci as (Hn & _). destruct Cand as (Hn' & _). rewrite Hn in Hn'. injection Hn' as ->. reflexivity.
        + exfalso. assert (Ci' : candidate o2 (i - S (length before)) b'). { destruct Ci as (Hn & Ci). split; [|exact Ci]. rewrite nth_error_app2 in Hn by lia. rewrite Ln in Hn. destruct (i - length before) as [|q] eqn:Q; [lia|]. cbn in Hn. replace (i - S (length before)) with q by lia. exact Hn. }
          specialize (CA _ _ Ci'). specialize (M2 Hi). lia.
      - destruct C as [Cn _]. exfalso. exact (Cn _ _ Cand). }
    subst om. apply ret_ok in E'. destruct E' as [<- <-]. destruct (el_name e) as [|n0 nm] eqn:En; [discriminate|]. injection H as <-. destruct D as (ms & Ec & Ed).
    exists (LM (length before) bl), (AToken (el_name e) (length before) ms). cbn [tok_content tok_valid tok_disc lm_valid ast_tok]. rewrite Ec, En. cbn [bind]. rewrite lm_disc_valid by exact V. split; [reflexivity|]. split; [exact V|]. split; [reflexivity|]. split; [exact Es|]. split; [apply Cand|]. split; [reflexivity|]. split; [rewrite drawn_token, Ed; reflexivity|reflexivity].
  - (* tk_none *) intros e nx k done s Nn _ IB n d fuel acc st l st' P La H. destruct fuel as [|fuel]; [discriminate|]. cbn [token_loop] in H. apply mbind_ok in H. destruct H as (t & sa & E & H).
    assert (V : tok_valid t = false).
    { unfold element_to_token, element_to_content in E. apply mbind_ok in E. destruct E as (c & sb & E & E'). apply lift_ok in E'. destruct E' as [E' <-]. apply mbind_ok in E. destruct E as (om & sc & E & E2). rewrite Nn in E2. apply best_line_chosen in E. destruct E as (outs & R & C). destruct (IB _ _ _ _ _ P R) as (_ & CB).
      destruct om as [[i b']|]; apply ret_ok in E2; destruct E2 as [<- _]; destruct (el_name e); try discriminate; injection E' as <-; [|reflexivity]. cbn [tok_valid lm_valid]. destruct C as [[Ci _]|[_ [[_ F] _]]]; [|exact F]. exfalso. specialize (CB _ _ Ci). destruct Ci as (_ & _ & Nt). destruct (text b'); [contradiction|cbn in CB; lia]. }
    rewrite V in H. cbn [negb] in H. apply ret_ok in H. destruct H as [<- <-]. exists [], []. rewrite app_nil_r. repeat split; constructor.
  - (* tk_last *) intros e nx k done s t s1 _ IP (m & Em & Lm) n d fuel acc st l st' P La H. destruct fuel as [|fuel]; [discriminate|]. cbn [token_loop] in H. apply mbind_ok in H. destruct H as (x & sa & E & H). destruct (IP _ _ _ _ _ P E) as (lm & a & Ec & V & Ed & Es & Nd & Ea & Da & _).
    rewrite V, Ec in H. cbn [negb] in H. rewrite Ed in H. rewrite Es in H. rewrite has_prefix_app in H. rewrite Em in H. replace (m <=? N.of_nat (length (acc ++ [x])))%N with true in H by (symmetry; apply N.leb_le; rewrite app_length; cbn; lia). apply ret_ok in H. destruct H as [<- <-].
    exists [x], [a]. split; [reflexivity|]. split; [reflexivity|]. split; [constructor; [exact V|constructor]|]. cbn [map concat]. rewrite app_nil_r. split; [exact Es|]. cbn [collect]. rewrite Ea. cbn [bind app map]. rewrite Da. split; reflexivity.
  - (* tk_more *) intros e nx k done s t s1 ts s2 _ IP Lm _ IH n d fuel acc st l st' P La H. destruct fuel as [|fuel]; [discriminate|]. cbn [token_loop] in H. apply mbind_ok in H. destruct H as (x & sa & E & H). assert (Pa := element_keeps (run n) (cbm_keeps channels n) e d s nx st P). rewrite E in Pa. cbn [snd] in Pa.
    destruct (IP _ _ _ _ _ P E) as (lm & a & Ec & V & Ed & Es & Nd & Ea & Da & _).
    rewrite V, Ec in H. cbn [negb] in H. rewrite Ed in H. rewrite Es in H. rewrite has_prefix_app, cut_app in H. replace (match snd (delimiter k) with Some m => (m <=? N.of_nat (length (acc ++ [x])))%N | None => false end) with false in H.
    + apply IH in H; [|exact Pa|rewrite app_length; cbn; lia]. destruct H as (l' & al & -> & Ln & F & Es' & Ca & Dl). exists (x :: l'), (a :: al). rewrite <- app_assoc. split; [reflexivity|]. split; [cbn; lia|]. split; [constructor; assumption|]. cbn [map concat]. rewrite <- app_assoc, <- Es'. split; [exact Es|]. cbn [collect]. rewrite Ea, Ca. cbn [bind app map]. rewrite Da, Dl. split; reflexivity.
    + destruct (snd (delimiter k)) as [m|]; [|reflexivity]. specialize (Lm m eq_refl). symmetry. apply N.leb_gt. rewrite app_length. cbn. lia.
Qed.
End Main.
