(* PickProofs2.v - proofs for PickProps.v: channels, containers, lines and tokens. *)
From Coq Require Import Strings.String Strings.Byte Lia.
From Verif Require Import Go GoLemmas DomainModel DomainSpec DomainProofs CardModel CardSpec CardProofs PatModel PatSpec PatProofs RuleModel RuleSpec RuleProofs PathModel PathSpec PathProofs LexModel LexSpec LexProofs LexProofs2 LexProofs3 AstModel AstSpec AstProofs AstProofs2 AstProofs3 OrdSpec OrdProofs PickSpec PickProofs.
Open Scope list_scope.

(* ---- what a match draws ---- *)
Definition parts_of (m : amatch) : list tree := match m with AMToken _ l => map drawn l | AMRule n r => [Text n (disc_content (ar_disc r))] end.
Lemma drawn_token n i ms : drawn (AToken n i ms) = Branch n i (concat (map parts_of ms)).
Proof. reflexivity. Qed.
Definition draws (b : block) (out : list tree) : Prop := exists ms, ast_block b = Ok ms /\ concat (map parts_of ms) = out.
Definition draw_all (bl : list block) (out : list tree) : Prop := exists ms, collect ast_block bl = Ok ms /\ concat (map parts_of ms) = out.
Lemma rule_draws r k s w s1 ch st x st' : leaf_rule r -> rule_to_match r k s ch st = (Ok x, st') -> rm_rule x = r -> rm_disc x = w -> s = w ++ s1 -> w <> [] -> exists y, rule_result x = Ok (Some y) /\ parts_of y = [Text (rl_name r) w].
Proof.
  intros L H Er Ed Es Nw. destruct (rule_result_ok r k s ch st x st' (proj1 L) H) as (o & E & D & F); [rewrite Ed, Es; exists s1; reflexivity|]. destruct o as [y|]; [|rewrite Ed in D; congruence].
  exists y. split; [exact E|]. unfold rule_result in E. destruct (rm_results x); [discriminate|]. destruct (result_discoveries _ _ _) as [[ds first]| | |]; try discriminate. cbn [bind] in E. destruct ds as [|d0 ds]; [discriminate|].
  destruct (_ && _); [discriminate|]. destruct (rl_code _); [discriminate|]. rewrite Er in E. destruct (rl_name r) as [|n0 nm]; [discriminate|]. injection E as <-. cbn [parts_of ar_disc]. cbn [am_discovery ar_disc] in D. rewrite D, Ed. reflexivity.
Qed.

(* ---- channels ---- *)
Section Channels.
Variable channels : nat -> list path.
Hypothesis Hc : plain_channels channels.
Lemma chans_simple k : Forall (fun p => exists r, simple_channel p r /\ (False -> of_patterns r)) (channels k).
Proof. apply Forall_forall. intros p Hp. destruct (proj1 Hc p) as (r & Hr); [exists k; exact Hp|]. exists r. split; [exact Hr|intros []]. Qed.
Lemma find_no_fuel k s st o st' : find_in_channels (cbm channels 0) (channels k) s st = (Ok o, st') -> channels k = [] /\ o = None /\ st' = st.
Proof.
  assert (F := chans_simple k). destruct (channels k) as [|p l]; intros H; [inversion H; auto|]. inversion F as [|? ? (r & Hr & _) _]; subst. cbn [find_in_channels] in H. apply mbind_ok in H. destruct H as (t & s1 & H & _).
  rewrite (simple_no_fuel channels p r s st Hr) in H. discriminate.
Qed.
Lemma find_quiet n k s st o st' : s <> [] -> quiet channels s -> ls_pre st = false -> find_in_channels (cbm channels n) (channels k) s st = (Ok o, st') -> o = None /\ st' = st.
Proof.
  intros Ns Qs P H. destruct n as [|n]; [apply find_no_fuel in H; tauto|]. destruct s as [|b s]; [contradiction|]. destruct (find_simple False channels n (channels k) b s (chans_simple k)) as (res & R & M). rewrite (R st (or_introl P)) in H. injection H as <- <-. split; [|reflexivity].
  destruct res as [m|]; [|reflexivity]. destruct M as (p & r & t & Hp & Hr & Hb & _). exfalso. apply (Qs p r); [exists k; exact Hp|exact Hr|exact Hb].
Qed.
Lemma takes_starts r k s w s1 : leaf_rule r -> takes r k s w s1 -> begins r s /\ s <> [].
Proof.
  intros L (Es & n & T & _). inversion T as [|n0 sa s2 sb T1 T2]. split; [exact (takes_begins _ _ _ T1)|]. destruct (takes_result r s s2 L T1) as (x & _ & _ & _ & E & N). intros ->. symmetry in E. apply app_eq_nil in E. tauto.
Qed.
Lemma find_skip n k s name w s1 st o st' : passes channels s name w s1 -> ls_pre st = false -> find_in_channels (cbm channels n) (channels k) s st = (Ok o, st') ->
  st' = st /\ exists m, o = Some m /\ lm_disc m = w /\ (forall i bl, m = LM i bl -> draw_all bl [Text name w]).
Proof.
  intros (p & r & kp & (j & Hp) & Sp & L & Em & T & ->) P H. assert (Hpk := proj2 (proj2 Hc) j k p Hp). destruct n as [|n]; [apply find_no_fuel in H; destruct H as (E & _); rewrite E in Hpk; destruct Hpk|].
  destruct (takes_starts r kp s w s1 L T) as (Hb & Ns). destruct s as [|b s]; [contradiction|].
  destruct (takes_match r kp (b :: s) w s1 L T (lst_init false) false eq_refl) as (x & Ex & Ek & Er & Ev & Ed & Nr & Nw).
  destruct (rule_match_plain r kp (b :: s) False (proj1 L) ltac:(intros [])) as (x' & _ & Hx). assert (x' = x). { specialize (Hx (lst_init false) (or_introl eq_refl)). rewrite Ex in Hx. congruence. } subst x'.
  set (t := Tok (pa_element p) (pa_deps p) (Some (LM 0 [BCont (MRule x) None], None))).
  assert (O : outcome False (cbm channels (S n)) p (b :: s) t).
  { intros st0 P0. destruct Sp as (G & Nm & Nn & k' & Em' & K0). rewrite Em in Em'. injection Em' as <-. assert (Rs : rule_or_skip x = MRule x) by (unfold rule_or_skip; rewrite Ek, K0; reflexivity).
    unfold element_to_token, element_to_content, best_line. rewrite Em, Nn. cbn [best_loop]. unfold line_to_matches. cbn [line_loop]. unfold mbind. cbn [cbm cbm_step ret container_to_match]. unfold mbind. cbn [ret]. rewrite (Hx st0 P0). cbn [ret]. rewrite Rs.
    cbn [b_valid m_valid b_disc m_disc app]. rewrite Ev. cbn [negb]. rewrite Ed. replace (has_prefix w (b :: s)) with true by (destruct T as (Es & _); rewrite Es; symmetry; apply has_prefix_is_prefix; exists s1; reflexivity). cbn [ret].
    cbn [lm_valid forallb b_valid m_valid]. rewrite Ev. cbn [andb negb]. cbn [lm_disc forallb b_valid m_valid map b_disc m_disc join app]. rewrite Ev. cbn [andb]. rewrite Ed. destruct w as [|w0 w]; [contradiction|]. change (0 <? length (w0 :: w)) with true. cbn [lift ret].
    destruct (el_name (pa_element p)); [congruence|reflexivity]. }
  destruct (find_simple False channels n (channels k) b s (chans_simple k)) as (res & R & M). rewrite (R st (or_introl P)) in H. injection H as <- <-. split; [reflexivity|]. destruct res as [m|].
  - destruct M as (q & r' & t' & Hq & Sq & Hb' & O' & V & Ec). assert (q = p) by (apply (proj1 (proj2 Hc) q p r' r (b :: s)); [exists k; exact Hq|exists j; exact Hp|assumption..]). subst q. rewrite (outcome_one _ _ _ _ _ _ O' O) in Ec. cbn in Ec. injection Ec as <-.
    exists (LM 0 [BCont (MRule x) None]). split; [reflexivity|]. split; [cbn [lm_disc forallb b_valid m_valid map b_disc m_disc join app]; rewrite Ev, Ed; reflexivity|].
    intros i bl E. injection E as <- <-. destruct (rule_draws r kp _ w s1 _ _ x _ L Ex Er Ed (proj1 T) Nw) as (y & Ey & Dy). exists [y]. cbn [collect ast_block ast_match]. rewrite Ey. cbn [bind app collect map concat]. rewrite Dy. split; reflexivity.
  - exfalso. specialize (M p t Hpk O). cbn in M. rewrite Ev in M. discriminate.
Qed.
Lemma passes_split s name w s1 : passes channels s name w s1 -> s = w ++ s1 /\ s <> [] /\ w <> [].
Proof. intros (p & r & k & _ & _ & L & _ & T & _). split; [apply T|]. split; [apply (takes_starts r k s w s1 L T)|]. destruct (takes_match r k s w s1 L T (lst_init false) false eq_refl) as (x & _ & _ & _ & _ & _ & _ & N). exact N. Qed.
(* before a container *)
Lemma still_none n c d s ch nx st o st' : s <> [] -> still channels ch c s -> ls_pre st = false ->
  (if ch then find_channel_block channels (cbm channels n) c d s nx else ret None) st = (Ok o, st') -> o = None /\ ls_pre st' = false.
Proof.
  intros Ns S P H. destruct ch; [|apply ret_ok in H; destruct H as [<- <-]; auto]. unfold find_channel_block in H. apply mbind_ok in H. destruct H as (f & s1 & E & H). destruct (S eq_refl) as [Qs|(nm & w & k & Sk & Ck & K0)].
  - unfold range_channels in E. apply (find_quiet _ _ _ _ _ _ Ns Qs) in E; [|exact P]. destruct E as [-> ->]. apply ret_ok in H. destruct H as [<- <-]. auto.
  - unfold range_channels in E. apply (find_skip _ _ _ _ _ _ _ _ _ Sk) in E; [|exact P]. destruct E as (-> & m & -> & Dm & _). rewrite Dm in H. destruct (passes_split _ _ _ _ Sk) as (Es & _ & _). rewrite app_nil_r in Es. rewrite <- Es in H. rewrite (proj2 (has_prefix_is_prefix s s)) in H by (exists []; rewrite app_nil_r; reflexivity).
    apply mbind_ok in H. destruct H as (b & s2 & E & H). apply ret_ok in H. destruct H as [<- <-]. unfold cut in E. rewrite skipn_all in E. destruct n as [|n]; [discriminate|]. cbn [cbm] in E. unfold cbm_step in E. apply lift_ok in E. destruct E as [E <-]. rewrite Ck in E. cbn [bind] in E. rewrite K0 in E. injection E as <-. auto.
Qed.
Lemma skip_some n c d s ch nx name w s1 st o st' : ch = true -> passes channels s name w s1 -> ls_pre st = false ->
  cbm channels (S n) c d s ch nx st = (Ok o, st') ->
  (exists b sa sb, cbm channels n c d s1 nx nx sa = (Ok (Some b), sb) /\ ls_pre sa = false /\ exists m, o = Some (BBlock b (Some m)) /\ lm_disc m = w /\ (forall i bl, m = LM i bl -> draw_all bl [Text name w])) \/
  (exists sa sb, cbm channels n c d s1 nx nx sa = (Ok None, sb) /\ ls_pre sa = false).
Proof.
  intros -> Sk P H. destruct (passes_split _ _ _ _ Sk) as (Es & Ns & Nw). destruct s as [|b0 s]; [contradiction|]. cbn [cbm] in H. unfold cbm_step in H. apply mbind_ok in H. destruct H as (f & sa & E & H). unfold find_channel_block in E. apply mbind_ok in E. destruct E as (g & sb & Eg & E).
  unfold range_channels in Eg. apply (find_skip _ _ _ _ _ _ _ _ _ Sk) in Eg; [|exact P]. destruct Eg as (-> & m & -> & Dm & Am). rewrite Dm in E. rewrite (proj2 (has_prefix_is_prefix w (b0 :: s))) in E by (rewrite Es; exists s1; reflexivity).
  apply mbind_ok in E. destruct E as (ob & sc & Eb & E). apply ret_ok in E. destruct E as [<- <-]. assert (Cs : cut w (b0 :: s) = s1) by (unfold cut; rewrite Es, skipn_app, skipn_all, Nat.sub_diag; reflexivity). rewrite Cs in Eb. destruct ob as [b|].
  - left. exists b, {| ls_rec := ls_rec st; ls_pre := ls_pre st; ls_tick := S (ls_tick st) |}, sc. split; [exact Eb|]. split; [exact P|]. apply ret_ok in H. destruct H as [<- <-]. exists m. auto.
  - right. eauto.
Qed.
End Channels.
