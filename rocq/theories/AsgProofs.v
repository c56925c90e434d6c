(* AsgProofs.v - proofs for AsgProps.v: a line that reads to the end of the text needs no
   reading of the lines after it, whatever they are. *)
From Coq Require Import Strings.String Strings.Byte Lia.
From Verif Require Import Go GoLemmas DomainModel DomainSpec DomainProofs CardModel CardSpec CardProofs PatModel PatSpec PatProofs RuleModel RuleSpec RuleProofs PathModel PathSpec PathProofs LexModel LexSpec LexProofs LexProofs2 LexProofs3 AstModel AstSpec AstProofs AstProofs2 AstProofs3 OrdSpec OrdProofs PickSpec PickProofs PickProofs2 PickProofs3.
Open Scope list_scope.

Section End.
Variable channels : nat -> list path.
Hypothesis Hc : plain_channels channels.
Notation run := (cbm channels).

(* what a line reads is at the start of the text *)
Lemma line_prefix f l d : forall s ch nx acc st bl st', line_loop f l d s ch nx acc st = (Ok (Some bl), st') -> forallb b_valid bl = true -> exists bl', bl = acc ++ bl' /\ is_prefix (text bl') s.
Proof.
  induction l as [|i l IH]; intros s ch nx acc st bl st' H V; cbn [line_loop] in H.
  - apply ret_ok in H. destruct H as [E _]. injection E as <-. exists []. rewrite app_nil_r. split; [reflexivity|]. exists s. reflexivity.
  - destruct i as [|c]; [exact (IH _ _ _ _ _ _ _ H V)|]. apply mbind_ok in H. destruct H as (ob & sa & E & H). destruct ob as [b|].
    + destruct (b_valid b) eqn:Vb; cbn [negb] in H.
      * destruct (has_prefix (b_disc b) s) eqn:Pf; [|apply ret_ok in H; destruct H as [H _]; discriminate]. apply has_prefix_is_prefix in Pf. apply IH in H; [|exact V]. destruct H as (bl' & -> & P'). exists (b :: bl'). rewrite <- app_assoc. split; [reflexivity|]. destruct Pf as (r & ->). rewrite cut_app in P'. destruct P' as (r' & ->). exists r'. unfold text. cbn [map concat]. rewrite <- app_assoc. reflexivity.
      * apply ret_ok in H. destruct H as [E' _]. injection E' as <-. cbn [forallb] in V. rewrite Vb in V. discriminate.
    + apply ret_ok in H. destruct H as [E' _]. injection E' as <-. exists []. rewrite app_nil_r. split; [reflexivity|]. exists s. reflexivity.
Qed.
Lemma BT_end nx s ls : BT channels 0 nx s ls.
Proof.
  intros n d. induction ls as [|l ls IH]; intros st outs st' P H; inversion H as [|? ? o os ? s1 ? E R]; subst; [split; [exact P|]; intros [|j] bl (Hn & _); discriminate|].
  unfold line_to_matches in E. apply mbind_ok in E. destruct E as (ol & sb & E & E'). apply ret_ok in E'. destruct E' as [<- <-]. assert (Pb := line_keeps (run n) (cbm_keeps channels n) l d s nx nx [] st P). rewrite E in Pb. cbn [snd] in Pb. destruct (IH _ _ _ Pb R) as (Pe & IHc). split; [exact Pe|].
  intros [|j] bl (Hn & Vb & Tb); [|apply (IHc j); split; [exact Hn|auto]]. cbn in Hn. destruct ol as [[|b bl']|]; try discriminate. injection Hn as <-. destruct (line_prefix _ _ _ _ _ _ _ _ _ _ E Vb) as (x & Ex & (r & Er)). cbn [app] in Ex. subst x. rewrite Er, app_length. lia.
Qed.

(* the token is read along a line that reads to the end, the first of them *)
Lemma PK_end e s before l after out : el_not e = None -> el_must e = before ++ l :: after -> s <> [] -> LG channels l true true s out [] -> BT channels 1 true s before -> PK channels e true s (Branch (el_name e) (length before) out) [].
Proof.
  intros Nn Em Ns IG IB n d st x st' P H. assert (IA := BT_end true s after). unfold element_to_token, element_to_content in H. apply mbind_ok in H. destruct H as (c & sa & E & H). apply lift_ok in H. destruct H as [H <-].
  apply mbind_ok in E. destruct E as (om & sb & E & E'). rewrite Nn in E'. apply best_line_chosen in E. destruct E as (outs & R & C). rewrite Em in R.
  assert (Sp : exists o1 o2 s1 s2 bl, outs = o1 ++ Some bl :: o2 /\ length o1 = length before /\ lines_run (fun l => line_to_matches (run n) l d s true) before st o1 s1 /\ ls_pre s1 = false /\ ls_pre s2 = false /\ lines_run (fun l => line_to_matches (run n) l d s true) after s2 o2 sb /\ forallb b_valid bl = true /\ s = text bl ++ [] /\ draw_all bl out /\ bl <> []).
  { clear - IB IG Ns R P Hc. specialize (IB n d).
    assert (SP : exists o1 o2 s1, outs = o1 ++ o2 /\ length o1 = length before /\ lines_run (fun l => line_to_matches (run n) l d s true) before st o1 s1 /\ lines_run (fun l => line_to_matches (run n) l d s true) (l :: after) s1 o2 sb).
    { clear IB P. revert st outs R. induction before as [|l0 before IH]; intros st outs R; [exists [], outs, st; cbn [app length] in *; split; [reflexivity|]; split; [reflexivity|]; split; [constructor|exact R]|]. cbn [app] in R. inversion R as [|? ? o os ? s1 ? E R']; subst. destruct (IH s1 os R') as (o1 & o2 & s2 & -> & Ln & R1 & R2). exists (o :: o1), o2, s2. split; [reflexivity|]. split; [cbn; lia|]. split; [econstructor; eassumption|exact R2]. }
    destruct SP as (o1 & o2 & s1 & -> & Ln & R1 & R2). destruct (IB _ _ _ P R1) as (P1 & _). inversion R2 as [|? ? o os ? s2 ? E R']; subst. unfold line_to_matches in E. apply mbind_ok in E. destruct E as (ol & sc & E & E'). apply ret_ok in E'. destruct E' as [<- <-].
    assert (Pb := line_keeps (run n) (cbm_keeps channels n) l d s true true [] s1 P1). rewrite E in Pb. cbn [snd] in Pb. destruct (IG _ _ _ _ _ _ P1 E) as (bl & -> & V & Es & D). cbn [app] in *. assert (Nb : bl <> []) by (intros ->; cbn in Es; contradiction). destruct bl as [|b bl]; [contradiction|]. exists o1, os, s1, sc, (b :: bl). auto 12. }
  destruct Sp as (o1 & o2 & s1 & s2 & bl & -> & Ln & R1 & P1 & P2 & R2 & V & Es & D & Nb). destruct (IB _ _ _ _ _ P R1) as (_ & CB). destruct (IA _ _ _ _ _ P2 R2) as (_ & CA). rewrite app_nil_r in Es.
  assert (Cand : candidate (o1 ++ Some bl :: o2) (length before) bl) by (split; [rewrite <- Ln, nth_error_app2, Nat.sub_diag by lia; reflexivity|split; [exact V|rewrite <- Es; exact Ns]]).
  assert (Om : om = Some (LM (length before) bl)).
  { destruct om as [[i b']|].
    - destruct C as [[Ci Cm]|[Cn _]]; [|exfalso; exact (Cn _ _ Cand)]. destruct (Cm _ _ Cand) as [M1 M2]. destruct (Nat.lt_trichotomy i (length before)) as [Hi|[->|Hi]].
      + exfalso. assert (Ci' : candidate o1 i b') by (destruct Ci as (Hn & Ci); split; [rewrite nth_error_app1 in Hn by lia; exact Hn|exact Ci]). specialize (CB _ _ Ci'). rewrite Es in CB. lia.
      + destruct Ci as (Hn & _). destruct Cand as (Hn' & _). rewrite Hn in Hn'. injection Hn' as ->. reflexivity.
      + exfalso. assert (Ci' : candidate o2 (i - S (length before)) b'). { destruct Ci as (Hn & Ci). split; [|exact Ci]. rewrite nth_error_app2 in Hn by lia. rewrite Ln in Hn. destruct (i - length before) as [|q] eqn:Q; [lia|]. cbn in Hn. replace (i - S (length before)) with q by lia. exact Hn. }
        specialize (CA _ _ Ci'). specialize (M2 Hi). rewrite Es in CA. lia.
    - destruct C as [Cn _]. exfalso. exact (Cn _ _ Cand). }
  subst om. apply ret_ok in E'. destruct E' as [<- <-]. destruct (el_name e) as [|n0 nm] eqn:En; [discriminate|]. injection H as <-. destruct D as (ms & Ec & Ed).
  exists (LM (length before) bl), (AToken (el_name e) (length before) ms). cbn [tok_content tok_valid tok_disc lm_valid ast_tok]. rewrite Ec, En. cbn [bind]. rewrite lm_disc_valid by exact V. split; [reflexivity|]. split; [exact V|]. split; [reflexivity|]. split; [rewrite app_nil_r; exact Es|]. split; [apply Cand|]. split; [reflexivity|]. split; [rewrite drawn_token, Ed; reflexivity|reflexivity].
Qed.
(* a token that is there once, nothing being skipped before it *)
Lemma G_token e ch s t s1 : s <> [] -> (ch = true -> PickSpec.quiet channels s) -> PK channels e true s t s1 -> G channels (PToken e [] CMandatory) ch true s [t] s1.
Proof.
  intros Ns Q IP. split; [exact Ns|]. intros n d st o st' P H.
  destruct (token_case channels Hc _ _ _ _ _ _ _ _ _ _ Ns H (fun E => or_introl (Q E)) P) as (n' & sa & sb & l & Pa & E & ->).
  destruct n' as [|n']; [discriminate|]. cbn [token_loop] in E. apply mbind_ok in E. destruct E as (x & sc & E & E'). destruct (IP _ _ _ _ _ Pa E) as (lm & a & Ec & V & Ed & Es & Nd & Ea & Da & _).
  rewrite V, Ec in E'. cbn [negb] in E'. rewrite Ed in E'. rewrite Es in E'. rewrite has_prefix_app in E'. apply ret_ok in E'. destruct E' as [E' <-]. cbn [app] in E'. subst l. 
  assert (F : Forall (fun y => tok_valid y = true) [x]) by (constructor; [exact V|constructor]). eexists. split; [reflexivity|]. unfold token_or_skip. cbn [tm_card]. rewrite (tm_plain e s CMandatory [x] F). cbn [length negb is_valid]. rewrite andb_false_r. split; [cbn [b_valid m_valid]; rewrite (tm_plain e s CMandatory [x] F); reflexivity|]. cbn [b_disc m_disc app tm_disc]. rewrite join_concat. cbn [map concat]. rewrite app_nil_r. split; [exact Es|].
  assert (Nn : el_name e <> []). { unfold element_to_token in E. apply mbind_ok in E. destruct E as (c & sd & _ & E). apply lift_ok in E. destruct E as [E _]. destruct (el_name e); [discriminate|discriminate]. }
  exists [AMToken (el_name e) [a]]. cbn [ast_block ast_match ast_tm bind]. cbn [collect]. rewrite Ea. cbn [bind app]. destruct (el_name e); [contradiction|]. cbn [bind app map concat parts_of]. rewrite Da. split; reflexivity.
Qed.
(* a channel is read before the container *)
Lemma G_skip c s nm w s1 out s2 : passes channels s nm w s1 -> G channels c true true s1 out s2 -> G channels c true true s (Text nm w :: out) s2.
Proof.
  intros Sk [Ns1 IH]. destruct (passes_split channels _ _ _ _ Sk) as (Es & Ns & _). split; [exact Ns|]. intros n d st o st' P H. destruct n as [|n]; [discriminate|].
  destruct (skip_some channels Hc n c d s true true nm w s1 st o st' eq_refl Sk P H) as [(b & sa & sb & E & Pa & m & -> & Dm & Am)|(sa & sb & E & Pa)].
  - destruct (IH n d sa _ sb Pa E) as (b' & Eb & V & Es1 & Db). injection Eb as <-. exists (BBlock b (Some m)). split; [reflexivity|]. split; [exact V|]. cbn [b_disc]. rewrite Dm, <- app_assoc, <- Es1. split; [exact Es|].
    destruct m as [i bl]. destruct (Am i bl eq_refl) as (ms & Em & Em'). destruct Db as (ns & En & En'). exists (ms ++ ns). cbn [ast_block]. rewrite Em. cbn [bind]. rewrite En. cbn [bind]. rewrite map_app, concat_app, Em', En'. split; reflexivity.
  - destruct (IH n d sa _ sb Pa E) as (b' & Eb & _). discriminate.
Qed.
Lemma LG_more c l s o s1 out rest : G channels c true true s o s1 -> LG channels l true true s1 out rest -> LG channels (ICont c :: l) true true s (o ++ out) rest.
Proof.
  intros [Ns Ig] IH n d acc st ob' st' P H. cbn [line_loop] in H. apply mbind_ok in H. destruct H as (ob & sa & E & H). assert (Pa := cbm_keeps channels n c d s true true st P). rewrite E in Pa. cbn [snd] in Pa.
  destruct (Ig n d st ob sa P E) as (b & -> & V & Es & Db). rewrite V in H. cbn [negb] in H. rewrite Es, has_prefix_app, cut_app in H. destruct (IH _ _ _ _ _ _ Pa H) as (bl & -> & Vl & El & Dl). exists (b :: bl). split; [rewrite <- app_assoc; reflexivity|]. split; [cbn [forallb]; rewrite V; exact Vl|].
  split; [unfold text in *; cbn [map concat]; rewrite <- app_assoc, <- El; exact Es|exact (draw_cons _ _ _ _ Db Dl)].
Qed.
Lemma LG_one c s o s1 : G channels c true true s o s1 -> LG channels [ICont c] true true s o s1.
Proof. intros H. rewrite <- (app_nil_r o). apply LG_more with (s1 := s1); [exact H|]. apply (proj1 (proj2 (proj2 (main channels Hc)))). constructor. Qed.
(* readings of the relations *)
Lemma picks_PK e s t rest : picks channels e true s t rest -> PK channels e true s t rest. Proof. apply (proj1 (proj2 (proj2 (proj2 (proj2 (proj2 (main channels Hc))))))). Qed.
Lemma gives_G c s out s1 : gives channels c true true s out s1 -> G channels c true true s out s1. Proof. apply (proj1 (main channels Hc)). Qed.
Lemma line_LG l s out rest : line_gives channels l true true s out rest -> LG channels l true true s out rest. Proof. apply (proj1 (proj2 (proj2 (main channels Hc)))). Qed.
Lemma beaten_BT m s ls : beaten channels m true s ls -> BT channels m true s ls. Proof. apply (proj1 (proj2 (proj2 (proj2 (proj2 (main channels Hc)))))). Qed.
(* tokens after a first one *)
Lemma TK_more e k done s t s1 ts s2 : PK channels e true s t s1 -> (forall m, snd (delimiter k) = Some m -> (N.of_nat (S done) < m)%N) -> TK channels e true k (S done) s1 ts s2 -> TK channels e true k done s (t :: ts) s2.
Proof.
  intros IP Lm IH n d fuel acc st l st' P La H. destruct fuel as [|fuel]; [discriminate|]. cbn [token_loop] in H. apply mbind_ok in H. destruct H as (x & sa & E & H). assert (Pa := element_keeps (run n) (cbm_keeps channels n) e d s true st P). rewrite E in Pa. cbn [snd] in Pa.
  destruct (IP _ _ _ _ _ P E) as (lm & a & Ec & V & Ed & Es & Nd & Ea & Da & _).
  rewrite V, Ec in H. cbn [negb] in H. rewrite Ed in H. rewrite Es in H. rewrite has_prefix_app, cut_app in H. replace (match snd (delimiter k) with Some m => (m <=? N.of_nat (length (acc ++ [x])))%N | None => false end) with false in H.
  - apply IH in H; [|exact Pa|rewrite app_length; cbn; lia]. destruct H as (l' & al & -> & Ln & F & Es' & Ca & Dl). exists (x :: l'), (a :: al). rewrite <- app_assoc. split; [reflexivity|]. split; [cbn; lia|]. split; [constructor; assumption|]. cbn [map concat]. rewrite <- app_assoc, <- Es'. split; [exact Es|]. cbn [collect]. rewrite Ea, Ca. cbn [bind app map]. rewrite Da, Dl. split; reflexivity.
  - destruct (snd (delimiter k)) as [m|]; [|reflexivity]. specialize (Lm m eq_refl). symmetry. apply N.leb_gt. rewrite app_length. cbn. lia.
Qed.
Lemma tokens_TK e k done s ts s1 : tokens channels e true k done s ts s1 -> TK channels e true k done s ts s1. Proof. apply (proj2 (proj2 (proj2 (proj2 (proj2 (proj2 (main channels Hc))))))). Qed.
Lemma G_tokens e k ch s ts s1 : s <> [] -> (ch = true -> PickSpec.quiet channels s) -> TK channels e true k 0 s ts s1 -> is_valid k (N.of_nat (length ts)) = true -> G channels (PToken e [] k) ch true s ts s1.
Proof.
  intros Ns Q T K. split; [exact Ns|]. intros n d st o st' P H.
  destruct (token_case channels Hc _ _ _ _ _ _ _ _ _ _ Ns H (fun E => or_introl (Q E)) P) as (n' & sa & sb & l & Pa & E & ->). destruct (T n' d n' [] sa l sb Pa eq_refl E) as (l' & al & El & Ln & F & Es & Ca & Da). cbn [app] in El. subst l'.
  eexists. split; [reflexivity|]. unfold token_or_skip. cbn [tm_card]. rewrite (tm_plain e s k l F), Ln, K. cbn [negb]. rewrite andb_false_r. split; [cbn [b_valid m_valid]; rewrite (tm_plain e s k l F), Ln; exact K|]. cbn [b_disc m_disc app tm_disc]. rewrite join_concat. split; [exact Es|].
  destruct l as [|x l].
  - exists []. cbn [ast_block ast_match ast_tm bind app map concat]. split; [reflexivity|]. destruct ts; [reflexivity|discriminate].
  - assert (Nn : el_name e <> []). { destruct n' as [|n']; [discriminate|]. cbn [token_loop] in E. apply mbind_ok in E. destruct E as (t & sc & E & _). unfold element_to_token in E. apply mbind_ok in E. destruct E as (c & sd & _ & E). apply lift_ok in E. destruct E as [E _]. destruct (el_name e); [discriminate|discriminate]. }
    exists [AMToken (el_name e) al]. cbn [ast_block ast_match ast_tm bind]. rewrite Ca. cbn [bind]. destruct (el_name e); [contradiction|]. cbn [bind app map concat parts_of]. rewrite app_nil_r. split; [reflexivity|exact Da].
Qed.
End End.
