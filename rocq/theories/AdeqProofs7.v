(* AdeqProofs7.v - what the lexer accepts conforms to the tokens. *)
From Coq Require Import Strings.String Strings.Byte Sorting.Permutation Lia.
From Verif Require Import Go GoLemmas DomainModel DomainSpec DomainProofs CardModel CardSpec CardProofs PatModel PatSpec PatProofs RuleModel RuleSpec RuleProofs PathModel PathSpec PathProofs LexModel LexSpec LexProofs LexProofs2 LexProofs3 AstModel AstSpec AstProofs AstProofs2 RootModel RootProofs AstProofs3 OrdSpec EvtSpec AdeqSpec RootSpec.
Open Scope list_scope.

Definition in_token (n : bytes) (e : entry) : bool := match e with EToken _ _ => has_name n e | EText _ _ => false end.
Definition cnt (n : bytes) (l : list amatch) : nat := length (filter (in_token n) (entries l)).
Lemma entries_app a b : entries (a ++ b) = entries a ++ entries b.
Proof. unfold entries. rewrite map_app, concat_app. reflexivity. Qed.
Lemma cnt_app n a b : cnt n (a ++ b) = cnt n a + cnt n b.
Proof. unfold cnt. rewrite entries_app, filter_app, app_length. reflexivity. Qed.
Lemma cnt_texts n l : Forall (fun e => exists m w, e = EText m w) (entries l) -> cnt n l = 0.
Proof. unfold cnt. induction 1 as [|e r (m & w & ->) H IH]; [reflexivity|exact IH]. Qed.
Lemma cnt_tokens n m l : cnt n [AMToken m l] = if bytes_eqb m n then length l else 0.
Proof.
  unfold cnt, entries. cbn [map of_match concat]. rewrite app_nil_r. destruct (bytes_eqb m n) eqn:E.
  - apply bytes_eqb_eq in E. subst m. induction l as [|x l IH]; [reflexivity|]. cbn [map filter in_token]. unfold has_name at 1. cbn [en_name]. destruct (list_eq_dec _ n n); [|congruence]. cbn [length]. f_equal. exact IH.
  - assert (Ne : m <> n) by (intros ->; rewrite (proj2 (bytes_eqb_eq n n) eq_refl) in E; discriminate). induction l as [|x l IH]; [reflexivity|]. cbn [map filter in_token]. unfold has_name at 1. cbn [en_name]. destruct (list_eq_dec _ m n); [congruence|exact IH].
Qed.
Lemma tokens_named_cons n a l : tokens_named n (a :: l) = cnt n (at_matches a) + tokens_named n l.
Proof. unfold tokens_named, cnt. cbn [map concat]. rewrite filter_app, app_length. reflexivity. Qed.

Lemma rule_result_is x y : rule_result x = Ok (Some y) -> exists ar, y = AMRule (rl_name (rm_rule x)) ar.
Proof.
  unfold rule_result. intros H. destruct (rm_results x); [discriminate|]. destruct (result_discoveries _ _ _) as [[ds first]| | |]; cbn [bind] in H; try discriminate. destruct ds; [discriminate|]. destruct (_ && _); [discriminate|]. destruct (rl_code _); [discriminate|]. destruct (rl_name (rm_rule x)) as [|b9 nm]; [discriminate|]. injection H as <-. eexists. reflexivity.
Qed.
(* what a rule match gives: nothing when it is absent, else one text *)
Lemma rule_entries r k s ch st x st' : good_rule r -> rule_to_match r k s ch st = (Ok x, st') -> is_prefix (rm_disc x) s -> rm_valid x = true ->
  exists l, match rule_result x with Ok o => Ok (match o with Some y => [y] | None => [] end) | _ => Err end = Ok l /\ (exists o, rule_result x = Ok o /\ l = match o with Some y => [y] | None => [] end) /\
  ((entries l = [] /\ is_valid k 0 = true) \/ exists w, w <> [] /\ entries l = [EText (rl_name r) w]).
Proof.
  intros G H P V. destruct (rule_match_regular r k s ch st x st' G H) as (Er & Ek & _ & R). destruct (rule_result_ok r k s ch st x st' G H P) as (o & Eo & D & Fo). rewrite Eo. eexists. split; [reflexivity|]. split; [exists o; auto|]. destruct o as [y|].
  - right. destruct (rule_result_is x y Eo) as (ar & ->). rewrite Er in *. specialize (Fo _ (or_introl eq_refl)). destruct Fo as [[_ Fo] _]. cbn in Fo. exists (disc_content (ar_disc ar)). split; [exact Fo|reflexivity].
  - left. split; [reflexivity|]. destruct (rm_results x) as [|y l] eqn:El.
    + unfold rm_valid, rm_card_valid, rm_amount in V. rewrite El in V. cbn in V. rewrite Ek in V. apply andb_prop in V. apply V.
    + exfalso. inversion R as [|s0 x0 l0 E Nm R']; subst. destruct (to_result_index _ _ _ G E Nm) as (_ & _ & Nc & _). unfold rm_disc in D. rewrite El in D. rewrite join_concat in D. cbn [map concat] in D. symmetry in D. apply app_eq_nil in D. tauto.
Qed.

Section Conf.
Variable ts : list token.
Variable blanks : list bytes.
Variable channels : nat -> list path.
Variable d : gmap element.
Definition el_ok (e : telem) : Prop := forall r, te_content e = TRule r -> good_rule r /\ ~ is_declared ts (rl_name r).
Hypothesis Hts : forall t, In t ts -> t_name t <> [] /\ t_not t = None /\ forall l e, In l (t_must t) -> In (TElem e) l -> el_ok e.
Hypothesis Hdep : forall n e, dep_fetch d n = Ok e -> exists u s ext, In u ts /\ t_name u = n /\ unfolds ts none none s u e ext.
Hypothesis Hch : forall p, among channels p -> exists r, simple_channel p r /\ In (rl_name r) blanks.
Definition blank_entry (e : entry) : Prop := exists n w, e = EText n w /\ In n blanks /\ w <> [].
(* the block gives channel texts and what fills the element *)
Definition block_fills (e : telem) (b : block) : Prop :=
  exists l, ast_block b = Ok l /\ (exists bl g, entries l = bl ++ g /\ Forall blank_entry bl /\ fills ts blanks True e g) /\ forall n, is_declared ts n -> block_amount n b = cnt n l.
Definition cf (f : pcontainer -> gmap element -> bytes -> bool -> bool -> M (option block)) : Prop :=
  (forall s0 p0 al e c ext s ch nx st o st', elem_unfolds ts none none s0 p0 al e c ext -> el_ok e -> f c d s ch nx st = (Ok o, st') ->
    match o with
    | None => skippable e \/ is_reference e
    | Some b => b_valid b = true -> is_prefix (b_disc b) s -> block_fills e b
    end) /\
  (forall r k d' s nx st b st', good_rule r -> f (PRule r k) d' s false nx st = (Ok (Some b), st') -> b_valid b = true -> is_prefix (b_disc b) s ->
    exists l, ast_block b = Ok l /\ Forall (fun e => exists w, w <> [] /\ e = EText (rl_name r) w) (entries l)).
Section Step.
Variable f : pcontainer -> gmap element -> bytes -> bool -> bool -> M (option block).
Hypothesis Hf : cf f.

Lemma blanks_fill es bl g : Forall blank_entry bl -> line_fills ts blanks True es g -> line_fills ts blanks True es (bl ++ g).
Proof. induction 1 as [|e l (n & w & -> & Hn & Hw) H IH]; intros G; [exact G|]. cbn. apply lf_blank; auto. Qed.
Lemma instrs_conf s0 p0 al tl l ext : instrs_unfold ts none none s0 p0 al tl l ext -> (forall e, In (TElem e) tl -> el_ok e) ->
  forall s ch nx acc st bl st', line_loop f l d s ch nx acc st = (Ok (Some bl), st') -> forallb b_valid bl = true ->
  exists br lr, bl = acc ++ br /\ collect ast_block br = Ok lr /\ line_fills ts blanks True (elements tl) (entries lr) /\
    forall n, is_declared ts n -> sum (map (fun b => if b_valid b then block_amount n b else 0) br) = cnt n lr.
Proof.
  induction 1 as [s0 p0 al|s0 p0 al tl x ext U IH|s0 p0 al e c ext tl x ext' Ue U IH]; intros Hok s ch nx acc st bl st' H V; cbn [line_loop] in H.
  - mstep. some. exists [], []. rewrite app_nil_r. repeat split. constructor.
  - apply (IH ltac:(intros e He; apply Hok; right; exact He)) in H; [|exact V]. destruct H as (br & lr & A & B & C & D). exists br, lr. auto.
  - apply mbind_ok in H. destruct H as (o & s1 & E & H). assert (K := proj1 Hf _ _ _ _ _ _ _ _ _ _ _ _ Ue (Hok e (or_introl eq_refl)) E). destruct o as [b|].
    + destruct (b_valid b) eqn:Vb; cbn [negb] in H; [|mstep; some; cbn in V; rewrite Vb in V; discriminate].
      destruct (has_prefix _ _) eqn:Hpre; [|mstep; discriminate]. apply has_prefix_is_prefix in Hpre. destruct (K eq_refl Hpre) as (l & El & (bk & g & Eg & Fb & Fg) & Cn).
      apply (IH ltac:(intros y Hy; apply Hok; right; exact Hy)) in H; [|exact V]. destruct H as (br & lr & A & B & C & D). exists (b :: br), (l ++ lr). split; [rewrite A, <- app_assoc; reflexivity|]. split; [cbn [collect]; rewrite El; cbn [bind]; rewrite B; reflexivity|]. split.
      * rewrite entries_app, Eg, <- app_assoc. apply blanks_fill; [exact Fb|]. change (elements (TElem e :: tl)) with (e :: elements tl). apply lf_elem; assumption.
      * intros n Hn. cbn [map]. change (sum (?a :: ?q)) with (a + sum q). rewrite Vb, cnt_app, (Cn n Hn), (D n Hn). reflexivity.
    + mstep. some. exists [], []. rewrite app_nil_r. split; [reflexivity|]. split; [reflexivity|]. split; [|reflexivity]. apply lf_cut; [exact I|exact K].
Qed.
Lemma lines_nth s0 p0 tls ls ext : lines_unfold ts none none s0 p0 tls ls ext -> forall i l, nth_error ls i = Some l -> exists tl al x, nth_error tls i = Some tl /\ instrs_unfold ts none none s0 p0 al tl l x.
Proof. induction 1 as [|s p tl x ext tls xs ext' U F IH]; intros i l H; [destruct i; discriminate|]. destruct i as [|i]; cbn in H; [injection H as <-; exists tl, (lonely tl), ext; split; [reflexivity|exact U]|exact (IH i l H)]. Qed.
Lemma best_conf s0 p0 tls ls ext s ch st m st' : lines_unfold ts none none s0 p0 tls ls ext -> (forall tl e, In tl tls -> In (TElem e) tl -> el_ok e) -> best_line f ls d s ch st = (Ok (Some m), st') -> lm_valid m = true ->
  exists tl l, nth_error tls (lm_index m) = Some tl /\ collect ast_block (lm_blocks m) = Ok l /\ line_fills ts blanks True (elements tl) (entries l) /\
    forall n, is_declared ts n -> sum (map (fun b => if b_valid b then block_amount n b else 0) (lm_blocks m)) = cnt n l.
Proof.
  intros U Hok H V. apply best_line_chosen in H. destruct H as (outs & R & C). destruct m as [i bl]. cbn [lm_blocks lm_valid lm_index] in *.
  assert (Hn : nth_error outs i = Some (Some bl)) by (destruct C as [[[C _] _]|[_ [[C _] _]]]; exact C). clear C.
  assert (X : exists l st1 st2, nth_error ls i = Some l /\ line_to_matches f l d s ch st1 = (Ok (Some bl), st2)).
  { clear -R Hn. revert i Hn. induction R as [st0|l ls o outs st0 st1 st2 E R IH]; intros i Hi; [destruct i; discriminate|]. destruct i as [|i]; [cbn in Hi; injection Hi as ->; exists l, st0, st1; auto|exact (IH i Hi)]. }
  destruct X as (l & st1 & st2 & El & E). destruct (lines_nth _ _ _ _ _ U i l El) as (tl & al & x & Et & Ui). unfold line_to_matches in E. apply mbind_ok in E. destruct E as (o & s1 & E & H). mstep. destruct o as [[|b o]|]; try discriminate. some.
  destruct (instrs_conf _ _ _ _ _ _ Ui ltac:(intros e He; eapply Hok; [eapply nth_error_In, Et|exact He]) _ _ _ _ _ _ _ E V) as (br & lr & A & B & D & G). cbn [app] in A. subst br. exists tl, lr. auto.
Qed.
Definition tok_conf (n : bytes) (t : tok) : Prop := exists a, ast_tok t = Ok a /\ conforms ts blanks True n a /\ forall m, is_declared ts m -> spec_amount m [t] = cnt m (at_matches a).
Lemma element_conf s0 u e ext s ch st t st' : In u ts -> unfolds ts none none s0 u e ext -> element_to_token f e d s ch st = (Ok t, st') -> tok_valid t = true -> tok_conf (t_name u) t.
Proof.
  intros Hu U H V. destruct (Hts u Hu) as (Nn & No & Hok). assert (Q : exists must, e = Element (t_name u) must None /\ lines_unfold ts none none s0 (t_name u) (t_must u) must ext) by (inversion U; subst; [eexists; split; [reflexivity|assumption]|congruence]). destruct Q as (must & -> & L).
  unfold element_to_token in H. apply mbind_ok in H. destruct H as (c & s1 & E & H). mstep. cbn [el_name] in *. assert (Et : t = Tok (Element (t_name u) must None) d c) by (destruct (t_name u); congruence). subst t.
  unfold element_to_content in E. cbn [el_must el_not] in E. apply mbind_ok in E. destruct E as (m & s2 & Em & E). destruct m as [m|]; mstep; subst c; [|discriminate]. assert (V' := V). cbn [tok_valid] in V.
  destruct (best_conf _ _ _ _ _ _ _ _ _ _ L Hok Em V) as (tl & l & Et & Ec & Fl & Cn). destruct m as [i bl]. cbn [lm_blocks lm_index] in *.
  exists (AToken (t_name u) i l). split; [cbn [ast_tok]; rewrite Ec; cbn [bind el_name]; destruct (t_name u); [congruence|reflexivity]|]. split; [eapply co_token; eassumption|].
  intros n Hn. unfold spec_amount. cbn [map]. rewrite V'. cbn [sum fold_right]. rewrite Nat.add_0_r. cbn [at_matches]. exact (Cn n Hn).
Qed.
Lemma tokens_conf s0 u e ext pmax ch : In u ts -> unfolds ts none none s0 u e ext -> forall fuel acc s st l st', token_loop f fuel e d pmax ch acc s st = (Ok l, st') -> Forall (tok_conf (t_name u)) acc -> Forall (tok_conf (t_name u)) l.
Proof.
  intros Hu U. induction fuel as [|n IH]; intros acc s st l st' H Ha; [discriminate|]. cbn [token_loop] in H. apply mbind_ok in H. destruct H as (t & s1 & E & H).
  destruct (tok_valid t) eqn:V; cbn [negb] in H; [|mstep; subst; exact Ha]. assert (Ct := element_conf _ _ _ _ _ _ _ _ _ Hu U E V).
  assert (Ha' : Forall (tok_conf (t_name u)) (acc ++ [t])) by (apply Forall_app; split; [exact Ha|constructor; [exact Ct|constructor]]).
  destruct (tok_content t) as [[m x]|]; [|mstep; discriminate].
  destruct (has_prefix _ _); [|mstep; subst; exact Ha']. match type of H with (if ?b then _ else _) _ = _ => destruct b end; [mstep; subst; exact Ha'|]. eapply IH; [exact H|exact Ha'].
Qed.
Lemma all_conf n toks : Forall (tok_conf n) toks -> exists l, collect (fun x => let* a := ast_tok x in Ok [a]) toks = Ok l /\ length l = length toks /\ all_conform ts blanks True n l /\
  forall m, is_declared ts m -> spec_amount m toks = tokens_named m l.
Proof.
  induction 1 as [|t toks (a & E & C & N) F (l & El & Ll & Cl & Nl)]; [exists []; repeat split; constructor|]. exists (a :: l). split; [cbn [collect]; rewrite E; cbn [bind]; rewrite El; reflexivity|]. split; [cbn; congruence|]. split; [constructor; assumption|].
  intros m Hm. rewrite tokens_named_cons, <- (N m Hm), <- (Nl m Hm). unfold spec_amount. cbn [map sum fold_right]. rewrite Nat.add_0_r. reflexivity.
Qed.
(* a token in the place of a reference *)
Lemma token_match_conf s0 u el ext e r specs k fuel s ch st t st' : In u ts -> t_name u = tr_name r -> unfolds ts none none s0 u el ext -> te_content e = TRef r -> card_is e k -> specs_are r specs ->
  token_to_match f fuel el specs k d s ch st = (Ok t, st') -> m_valid (token_or_skip t) = true ->
  exists o, ast_match (token_or_skip t) = Ok o /\ fills ts blanks True e (entries (match o with Some y => [y] | None => [] end)) /\ forall n, is_declared ts n -> block_amount n (BCont (token_or_skip t) None) = cnt n (match o with Some y => [y] | None => [] end).
Proof.
  intros Hu En U Er Hk Hs H V. unfold token_to_match in H. destruct (delimiter k) as [mn mx]. apply mbind_ok in H. destruct H as (toks & s1 & E & H). apply (tokens_conf _ _ _ _ _ _ Hu U) in E; [|constructor]. mstep. destruct s; [discriminate|]. destruct (forallb _ specs); [|discriminate]. oks.
  unfold token_or_skip in *. cbn [tm_card] in *. destruct (is_valid k 0 && negb _) eqn:Sk.
  - apply andb_prop in Sk. exists None. split; [reflexivity|]. split; [apply fi_absent; exists k; split; [exact Hk|apply Sk]|reflexivity].
  - cbn [m_valid] in V. assert (V' := V). cbn [tm_valid] in V. apply andb_prop in V. destruct V as [Vs V]. apply andb_prop in V. destruct V as [Vk _].
    destruct (all_conf _ _ E) as (l & El & Ll & Cl & Nl). destruct toks as [|t0 toks].
    + exists None. split; [reflexivity|]. split; [apply fi_absent; exists k; split; [exact Hk|exact Vk]|]. intros n Hn. cbn. destruct (bytes_eqb _ n); reflexivity.
    + assert (Ee : el_name el = t_name u) by (inversion U; reflexivity). assert (Nn := proj1 (Hts u Hu)). exists (Some (AMToken (t_name u) l)). split; [cbn [ast_match ast_tm]; rewrite El; cbn [bind]; rewrite Ee; destruct (t_name u); [congruence|reflexivity]|]. split.
      * unfold entries. cbn [map of_match concat]. rewrite app_nil_r, En. eapply fi_token; [exact Er|exact Hk|intros ->; discriminate|rewrite Ll; exact Vk|rewrite <- En; exact Cl|].
        intros sp Isp Dc. rewrite <- (Nl _ Dc). unfold specs_are in Hs. assert (Isp' : In (ts_name sp, ts_card sp) (map (fun s => (PathModel.sp_name s, sp_card s)) specs)) by (rewrite Hs; destruct (tr_specs r); [apply in_map_iff; exists sp; auto|destruct Isp]).
        apply in_map_iff in Isp'. destruct Isp' as (ps & Eps & Ips). injection Eps as E1 E2. rewrite forallb_forall in Vs. specialize (Vs _ Ips). rewrite E2, E1 in Vs. exact Vs.
      * intros n Hn. rewrite cnt_tokens. cbn [block_amount tm_el tm_toks]. rewrite Ee, Ll. reflexivity.
Qed.
Lemma declared_unfolds s0 p0 al e c ext : elem_unfolds ts none none s0 p0 al e c ext ->
  match c with
  | PRule r k => te_content e = TRule r /\ card_is e k
  | PToken el specs k => exists r u s ext', te_content e = TRef r /\ card_is e k /\ specs_are r specs /\ In u ts /\ t_name u = tr_name r /\ unfolds ts none none s u el ext'
  | PRec n specs k => exists r, te_content e = TRef r /\ card_is e k /\ specs_are r specs /\ n = tr_name r
  | PLines _ => False
  end.
Proof. intros U. inversion U; subst; try discriminate; eauto 12. Qed.
Lemma container_conf s0 p0 al e c ext fuel s ch st o st' : elem_unfolds ts none none s0 p0 al e c ext -> el_ok e -> container_to_match f fuel c d s ch st = (Ok o, st') ->
  match o with None => is_reference e | Some m => m_valid m = true -> is_prefix (m_disc m) s -> exists y, ast_match m = Ok y /\ fills ts blanks True e (entries (match y with Some y => [y] | None => [] end)) /\ forall n, is_declared ts n -> block_amount n (BCont m None) = cnt n (match y with Some y => [y] | None => [] end) end.
Proof.
  intros U Hok H. apply declared_unfolds in U. destruct c as [el sp k|r k|nm sp k|ls]; cbn [container_to_match] in H; [| | |destruct U].
  - destruct U as (r & u & s1 & ext' & Er & Hk & Hs & Hu & En & U). apply mbind_ok in H. destruct H as (t & s2 & E & H). mstep. subst o. intros V _. eapply token_match_conf; eassumption.
  - destruct U as [Er Hk]. destruct (Hok r Er) as [G Nd]. apply mbind_ok in H. destruct H as (x & s2 & E & H). mstep. subst o. intros V P. destruct (rule_match_regular _ _ _ _ _ _ _ G E) as (Exr & Exk & _ & _). unfold rule_or_skip in *. destruct (is_valid (rm_card x) 0 && negb _) eqn:Sk.
    + apply andb_prop in Sk. rewrite Exk in Sk. exists None. split; [reflexivity|]. split; [apply fi_absent; exists k; split; [exact Hk|apply Sk]|reflexivity].
    + cbn [m_valid m_disc] in V, P. destruct (rule_entries _ _ _ _ _ _ _ G E P V) as (l & _ & (y & Ey & ->) & Q). exists y. split; [exact Ey|]. split.
      * destruct Q as [[-> Q]|(w & Nw & ->)]; [apply fi_absent; exists k; auto|eapply fi_rule; assumption].
      * intros n Hn. cbn [block_amount]. rewrite Exr. destruct (bytes_eqb (rl_name r) n) eqn:En; [apply bytes_eqb_eq in En; subst n; contradiction|]. symmetry. apply cnt_texts. destruct Q as [[-> _]|(w & _ & ->)]; repeat constructor. eauto.
  - destruct U as (r & Er & Hk & Hs & ->). match type of H with (if ?b then _ else _) = _ => destruct b end; [injection H as <- _; exists r; exact Er|]. apply mbind_ok in H. destruct H as (el & s1 & Ef & H). apply mbind_ok in H. destruct H as (t & s2 & E & H). mstep. subst o.
    match goal with H : lift _ _ = _ |- _ => apply lift_ok in H; destruct H as [Ed _] end. destruct (Hdep _ _ Ed) as (u & s3 & ext' & Hu & En & U). intros V _. eapply token_match_conf; eassumption.
Qed.
(* a channel *)
Lemma channel_conf s chs : (forall p, In p chs -> among channels p) -> forall st m st', find_in_channels f chs s st = (Ok (Some m), st') ->
  exists l, collect ast_block (lm_blocks m) = Ok l /\ Forall blank_entry (entries l).
Proof.
  induction chs as [|p chs IH]; intros Hp st m st' H; cbn [find_in_channels] in H; [mstep; discriminate|]. apply mbind_ok in H. destruct H as (t & s1 & E & H).
  destruct (tok_valid t) eqn:V; [|eapply IH; [intros q Hq; apply Hp; right; exact Hq|exact H]]. clear IH.
  destruct (Hch p (Hp p (or_introl eq_refl))) as (r & (G & Nn & No & k & Ek & Kv) & Ib).
  unfold element_to_token in E. apply mbind_ok in E. destruct E as (c & s2 & E & E'). apply lift_ok in E'. destruct E' as [E' _]. assert (Et : t = Tok (pa_element p) (pa_deps p) c) by (destruct (el_name (pa_element p)); congruence). subst t.
  unfold element_to_content in E. rewrite No, Ek in E. apply mbind_ok in E. destruct E as (m0 & s3 & Em & E). destruct m0 as [m0|]; apply ret_ok in E; destruct E as [<- _]; [|discriminate]. cbn [tok_content] in *. apply lift_ok in H. destruct H as [H _]. injection H as ->. cbn [tok_valid] in V.
  apply best_line_chosen in Em. destruct Em as (outs & R & C). destruct m as [i bl]. cbn [lm_blocks lm_valid] in *.
  assert (Hn : nth_error outs i = Some (Some bl)) by (destruct C as [[[C _] _]|[_ [[C _] _]]]; exact C). clear C.
  inversion R as [|l0 ls o outs' ? st1 ? E R']; subst. inversion R'; subst. destruct i as [|i]; [|destruct i; discriminate]. cbn in Hn. injection Hn as ->.
  unfold line_to_matches in E. apply mbind_ok in E. destruct E as (o & s4 & E & H). mstep. destruct o as [[|b o]|]; try discriminate. some. cbn [line_loop] in E. apply mbind_ok in E. destruct E as (ob & s5 & Eb & E). destruct ob as [b'|]; [|mstep; discriminate].
  destruct (b_valid b') eqn:Vb; cbn [negb] in E; [|mstep; some; cbn in V; rewrite Vb in V; discriminate]. destruct (has_prefix _ _) eqn:Hpre; [|mstep; discriminate]. apply has_prefix_is_prefix in Hpre. mstep. some. cbn [app] in *.
  destruct (proj2 Hf _ _ _ _ _ _ _ _ G Eb Vb Hpre) as (l & El & Fl). exists l. split; [cbn [collect]; rewrite El; cbn [bind]; rewrite app_nil_r; reflexivity|]. eapply Forall_impl; [|exact Fl]. intros y (w & Nw & ->). exists (rl_name r), w. auto.
Qed.
Lemma step_conf n : cf (cbm_step channels f n).
Proof.
  split.
  - intros s0 p0 al e c ext s ch nx st o st' U Hok H. unfold cbm_step in H. destruct s as [|b0 s].
    + mstep. assert (U' := declared_unfolds _ _ _ _ _ _ U). destruct (cont_card c) as [k| | |] eqn:Ek; cbn [bind] in *; try discriminate. destruct (is_valid k 0) eqn:Vk.
      * oks. left. exists k. split; [|exact Vk]. destruct c; cbn in Ek; try discriminate; injection Ek as <-; [destruct U' as (? & ? & ? & ? & ? & ? & ?); assumption|apply U'|destruct U' as (? & ? & ? & ?); assumption].
      * destruct (build_next n c d); cbn [bind] in *; try discriminate. oks. intros X. discriminate.
    + apply mbind_ok in H. destruct H as (o1 & s1 & E & H). destruct o1 as [bl|].
      * mstep. subst o. destruct ch; [|mstep; discriminate]. unfold find_channel_block in E. apply mbind_ok in E. destruct E as (m & s2 & Em & E). destruct m as [m|]; [|mstep; discriminate]. unfold range_channels in Em. apply channel_conf in Em; [|intros q Hq; eexists; exact Hq]. destruct Em as (l0 & E0 & F0).
        destruct (has_prefix _ _) eqn:Hpre; [|mstep; discriminate]. apply mbind_ok in E. destruct E as (x & s3 & Ex & E). mstep. destruct x as [x|]; [|discriminate]. some. intros V P.
        cbn [b_disc b_valid] in V, P. apply prefix_cut_app in P. destruct P as [P1 P2]. assert (Ex' := proj1 Hf _ _ _ _ _ _ _ _ _ _ _ _ U Hok Ex V P2). destruct Ex' as (l & El & (bk & g & Eg & Fb & Fg) & Cn). destruct m as [i bm]. cbn [lm_blocks] in *.
        exists (l0 ++ l). cbn [ast_block]. rewrite E0. cbn [bind]. rewrite El. cbn [bind]. split; [reflexivity|]. split.
        -- exists (entries l0 ++ bk), g. split; [rewrite entries_app, Eg, app_assoc; reflexivity|]. split; [apply Forall_app; auto|exact Fg].
        -- intros m Hm. cbn [block_amount]. rewrite cnt_app, (Cn m Hm), (cnt_texts m l0); [reflexivity|]. eapply Forall_impl; [|exact F0]. intros y (a & w & -> & _). eauto.
      * apply mbind_ok in H. destruct H as (m & s2 & Em & H). mstep. subst o. assert (K := container_conf _ _ _ _ _ _ _ _ _ _ _ _ U Hok Em). destruct m as [m|]; [|right; exact K]. intros V P. cbn [b_disc b_valid app] in V, P. destruct (K V P) as (y & Ey & Fy & Cy).
        exists (match y with Some y => [y] | None => [] end). cbn [ast_block]. rewrite Ey. split; [reflexivity|]. split; [exists [], (entries (match y with Some y => [y] | None => [] end)); split; [reflexivity|]; split; [constructor|exact Fy]|exact Cy].
  - intros r k d' s nx st b st' G H V P. unfold cbm_step in H. destruct s as [|b0 s].
    + mstep. cbn [cont_card bind] in *. destruct (is_valid k 0); [discriminate|]. destruct (build_next n (PRule r k) d'); cbn [bind] in *; try discriminate. oks. discriminate.
    + apply mbind_ok in H. destruct H as (o1 & s1 & E & H). mstep. subst o1. apply mbind_ok in H. destruct H as (m & s2 & Em & H). mstep. destruct m as [m|]; [|discriminate]. some. cbn [container_to_match] in Em. apply mbind_ok in Em. destruct Em as (x & s3 & Ex & Em). mstep. some. cbn [b_valid b_disc app] in V, P.
      unfold rule_or_skip in *. destruct (is_valid (rm_card x) 0 && negb _).
      * exists []. split; [reflexivity|constructor].
      * cbn [m_valid m_disc] in V, P. destruct (rule_entries _ _ _ _ _ _ _ G Ex P V) as (l & _ & (y & Ey & ->) & Q). exists (match y with Some y => [y] | None => [] end). split; [cbn [ast_block ast_match]; rewrite Ey; reflexivity|]. destruct Q as [[-> _]|(w & Nw & ->)]; repeat constructor. eauto.
Qed.
End Step.
Lemma cbm_conf n : cf (cbm channels n).
Proof. induction n as [|n IH]; [split; [intros; discriminate|intros; discriminate]|]. exact (step_conf (cbm channels n) IH n). Qed.
Lemma to_token_conf u e ext fuel script st t : In u ts -> unfolds ts none none [] u e ext -> fst (to_token channels fuel {| pa_element := e; pa_deps := d |} script st) = Ok t -> tok_valid t = true -> exists a, ast_tok t = Ok a /\ conforms ts blanks True (t_name u) a.
Proof.
  intros Hu U H V. unfold to_token in H. cbn [pa_element pa_deps] in H. destruct (element_to_token _ _ _ _ _ _) as [q st'] eqn:E. cbn in H. subst q. destruct (element_conf (cbm channels fuel) (cbm_conf fuel) _ _ _ _ _ _ _ _ _ Hu U E V) as (a & Ea & C & _). exists a. auto.
Qed.
End Conf.
