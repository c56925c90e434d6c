(* RecProofs.v - proofs for RecProps.v: the lexer reads what the relations with notes say. *)
From Coq Require Import Strings.String Strings.Byte Lia.
From Verif Require Import Go GoLemmas DomainModel DomainSpec DomainProofs CardModel CardSpec CardProofs PatModel PatSpec PatProofs RuleModel RuleSpec RuleProofs PathModel PathSpec PathProofs LexModel LexSpec LexProofs LexProofs2 LexProofs3 AstModel AstSpec AstProofs AstProofs2 AstProofs3 OrdSpec OrdProofs PickSpec PickProofs PickProofs2 PickProofs3 PickProofs4 RecSpec.
From Verif Require EndProofs.
Open Scope list_scope.

Scheme finds_mut := Minimality for finds Sort Prop
with before_mut := Minimality for before Sort Prop
with left_mut := Minimality for left Sort Prop
with lacks_mut := Minimality for lacks Sort Prop
with lfinds_mut := Minimality for line_finds Sort Prop
with llacks_mut := Minimality for line_lacks Sort Prop
with outdone_mut := Minimality for outdone Sort Prop
with chooses_mut := Minimality for chooses Sort Prop
with repeats_mut := Minimality for repeats Sort Prop.
Combined Scheme rec_ind from finds_mut, before_mut, left_mut, lacks_mut, lfinds_mut, llacks_mut, outdone_mut, chooses_mut, repeats_mut.

(* the state of the lexer agrees with the notes *)
Definition agrees (st : lst) (N : notes) : Prop := ls_pre st = false /\ forall y, mlookup (ls_rec st) y = N y.
Lemma agrees_tick st N t : agrees st N -> agrees {| ls_rec := ls_rec st; ls_pre := ls_pre st; ls_tick := t |} N.
Proof. intros H. exact H. Qed.
Lemma agrees_note st N x s : agrees st N -> agrees {| ls_rec := minsert (ls_rec st) x s; ls_pre := ls_pre st; ls_tick := ls_tick st |} (note N x s).
Proof. intros [P H]. split; [exact P|]. intros y. cbn [ls_rec]. unfold note. destruct (bytes_eqb y x) eqn:E; [apply bytes_eqb_eq in E; subst y; apply EndProofs.mlookup_same|]. rewrite EndProofs.mlookup_other; [apply H|]. intros ->. rewrite bytes_eqb_refl in E. discriminate. Qed.
Lemma mdelete_lookup {V} (m : gmap V) x y : mlookup (mdelete m x) y = if bytes_eqb y x then None else mlookup m y.
Proof.
  induction m as [|[k v] m IH]; cbn [mdelete filter mlookup]; [destruct (bytes_eqb y x); reflexivity|]. unfold mdelete in *. cbn [filter fst]. destruct (bytes_eqb k x) eqn:E; cbn [negb].
  - rewrite IH. apply bytes_eqb_eq in E. subst k. destruct (bytes_eqb x y) eqn:E2; [|reflexivity]. apply bytes_eqb_eq in E2. subst y. rewrite bytes_eqb_refl. reflexivity.
  - cbn [mlookup]. destruct (bytes_eqb k y) eqn:E2; [|exact IH]. apply bytes_eqb_eq in E2. subst k. rewrite E. reflexivity.
Qed.
Lemma agrees_forget st N x : agrees st N -> agrees {| ls_rec := mdelete (ls_rec st) x; ls_pre := ls_pre st; ls_tick := ls_tick st |} (forget N x).
Proof. intros [P H]. split; [exact P|]. intros y. cbn [ls_rec]. rewrite mdelete_lookup, H. reflexivity. Qed.

Section Main.
Variable channels : nat -> list path.
Hypothesis Hc : plain_channels channels.
Variable d : gmap element.
Notation run := (cbm channels).
Definition F (c : pcontainer) (ch nx : bool) (s : bytes) (N : notes) (out : list tree) (s1 : bytes) (N1 : notes) : Prop := s <> [] /\
  forall n st o st', agrees st N -> run n c d s ch nx st = (Ok o, st') -> agrees st' N1 /\ exists b, o = Some b /\ b_valid b = true /\ s = b_disc b ++ s1 /\ draws b out.
Definition BE (c : pcontainer) (ch nx : bool) (s : bytes) (N N1 : notes) : Prop := s <> [] ->
  forall n st o st', agrees st N -> (if ch then find_channel_block channels (run n) c d s nx else ret None) st = (Ok o, st') -> o = None /\ agrees st' N1.
Definition LE (c : pcontainer) (ch nx : bool) (s : bytes) (N N1 : notes) : Prop :=
  forall n st o st', agrees st N -> run n c d s ch nx st = (Ok o, st') -> o = None /\ agrees st' N1.
Definition LA (c : pcontainer) (ch nx : bool) (s : bytes) (N N1 : notes) : Prop :=
  forall n st o st', agrees st N -> run n c d s ch nx st = (Ok o, st') -> agrees st' N1 /\ exists b, o = Some b /\ b_valid b = false.
Definition LF (l : line) (ch nx : bool) (s : bytes) (N : notes) (out : list tree) (rest : bytes) (N1 : notes) : Prop :=
  forall n acc st o st', agrees st N -> line_loop (run n) l d s ch nx acc st = (Ok o, st') ->
  agrees st' N1 /\ exists bl, o = Some (acc ++ bl) /\ forallb b_valid bl = true /\ s = text bl ++ rest /\ draw_all bl out.
Definition LL (l : line) (ch nx : bool) (s : bytes) (N N1 : notes) : Prop :=
  forall n acc st o st', agrees st N -> line_loop (run n) l d s ch nx acc st = (Ok o, st') -> agrees st' N1 /\ exists b, o = Some [b] /\ b_valid b = false.
Definition OD (m : nat) (nx : bool) (s : bytes) (ls : list line) (N N1 : notes) : Prop :=
  forall n st outs st', agrees st N -> lines_run (fun l => line_to_matches (run n) l d s nx) ls st outs st' -> agrees st' N1 /\ forall j bl, candidate outs j bl -> m + length (text bl) <= length s.
Definition CH (e : element) (nx : bool) (s : bytes) (N : notes) (t : tree) (rest : bytes) (N1 : notes) : Prop :=
  forall n st x st', agrees st N -> element_to_token (run n) e d s nx st = (Ok x, st') ->
  agrees st' N1 /\ exists m a, tok_content x = Some (m, None) /\ tok_valid x = true /\ lm_disc m = tok_disc x /\ s = tok_disc x ++ rest /\ tok_disc x <> [] /\ ast_tok x = Ok a /\ drawn a = t /\ option_map lm_index (Some m) = Some (at_line a).
Definition RE (e : element) (nx : bool) (k : cardinality) (done : nat) (s : bytes) (N : notes) (ts : list tree) (s1 : bytes) (N1 : notes) : Prop :=
  forall n fuel acc st l st', agrees st N -> length acc = done -> token_loop (run n) fuel e d (snd (delimiter k)) nx acc s st = (Ok l, st') ->
  agrees st' N1 /\ exists l' al, l = acc ++ l' /\ length l' = length ts /\ Forall (fun x => tok_valid x = true) l' /\ s = concat (map tok_disc l') ++ s1 /\ collect (fun x => let* a := ast_tok x in Ok [a]) l' = Ok al /\ map drawn al = ts.

Lemma run_case c ch nx s N N1 n st o st' : s <> [] -> BE c ch nx s N N1 -> agrees st N -> run n c d s ch nx st = (Ok o, st') ->
  exists n' m sa, n = S n' /\ agrees sa N1 /\ container_to_match (run n') n' c d s nx sa = (Ok m, st') /\ o = match m with Some x => Some (BCont x None) | None => None end.
Proof.
  intros Ns Be A H. destruct n as [|n]; [discriminate|]. cbn [cbm] in H. unfold cbm_step in H. destruct s as [|b s]; [contradiction|]. apply mbind_ok in H. destruct H as (f & sa & E & H). destruct (Be Ns n st f sa A E) as [-> Aa].
  apply mbind_ok in H. destruct H as (m & sb & E' & H). apply ret_ok in H. destruct H as [<- <-]. exists n, m, sa. auto.
Qed.
Lemma rule_at r k ch nx s N N1 n st o st' : s <> [] -> BE (PRule r k) ch nx s N N1 -> agrees st N -> run n (PRule r k) d s ch nx st = (Ok o, st') ->
  exists x sa, agrees sa N1 /\ rule_to_match r k s nx sa = (Ok x, st') /\ o = Some (BCont (rule_or_skip x) None).
Proof. intros Ns Be A H. destruct (run_case _ _ _ _ _ _ _ _ _ _ Ns Be A H) as (n' & m & sa & _ & Aa & E & ->). cbn [container_to_match] in E. apply mbind_ok in E. destruct E as (x & sb & E & H'). apply ret_ok in H'. destruct H' as [<- <-]. exists x, sa. auto. Qed.
Lemma token_part e k nx s n m st st' : s <> [] -> (do t <- token_to_match (run n) n e [] k d s nx ;; ret (Some (token_or_skip t))) st = (Ok m, st') ->
  exists l, token_loop (run n) n e d (snd (delimiter k)) nx [] s st = (Ok l, st') /\ m = Some (token_or_skip (TM e [] s k l)).
Proof.
  intros Ns E. apply mbind_ok in E. destruct E as (t & sb & E & H'). apply ret_ok in H'. destruct H' as [<- <-].
  unfold token_to_match in E. destruct (delimiter k) as [mn mx] eqn:Ed. apply mbind_ok in E. destruct E as (l & sc & E & H'). apply lift_ok in H'. destruct H' as [H' <-]. destruct s as [|b s]; [contradiction|]. cbn [forallb] in H'. injection H' as <-. cbn [snd]. exists l. auto.
Qed.
Lemma token_at e k ch nx s N N1 n st o st' : s <> [] -> BE (PToken e [] k) ch nx s N N1 -> agrees st N -> run n (PToken e [] k) d s ch nx st = (Ok o, st') ->
  exists n' sa l, agrees sa N1 /\ token_loop (run n') n' e d (snd (delimiter k)) nx [] s sa = (Ok l, st') /\ o = Some (BCont (token_or_skip (TM e [] s k l)) None).
Proof.
  intros Ns Be A H. destruct (run_case _ _ _ _ _ _ _ _ _ _ Ns Be A H) as (n' & m & sa & _ & Aa & E & ->). cbn [container_to_match] in E. destruct (token_part _ _ _ _ _ _ _ _ Ns E) as (l & El & ->). exists n', sa, l. auto.
Qed.
Lemma rec_at x k e ch nx s N N1 n st o st' : s <> [] -> BE (PRec x [] k) ch nx s N N1 -> N1 x <> Some s -> mlookup d x = Some e -> agrees st N -> run n (PRec x [] k) d s ch nx st = (Ok o, st') ->
  exists n' sa l, agrees sa (note N1 x s) /\ token_loop (run n') n' e d (snd (delimiter k)) nx [] s sa = (Ok l, st') /\ o = Some (BCont (token_or_skip (TM e [] s k l)) None).
Proof.
  intros Ns Be Nx De A H. destruct (run_case _ _ _ _ _ _ _ _ _ _ Ns Be A H) as (n' & m & sa & _ & Aa & E & ->). cbn [container_to_match] in E. rewrite (proj2 Aa x) in E.
  replace (match N1 x with Some previous => bytes_eqb previous s | None => false end) with false in E by (symmetry; destruct (N1 x) as [p|]; [|reflexivity]; apply bytes_eqb_neq; intros ->; apply Nx; reflexivity).
  apply mbind_ok in E. destruct E as (e' & sb & E & H'). apply lift_ok in E. destruct E as [E <-]. unfold dep_fetch in E. rewrite De in E. injection E as <-. destruct (token_part _ _ _ _ _ _ _ _ Ns H') as (l & El & ->). exists n', {| ls_rec := minsert (ls_rec sa) x s; ls_pre := ls_pre sa; ls_tick := ls_tick sa |}, l. split; [apply agrees_note; exact Aa|]. auto.
Qed.
(* repetitions drawn *)
Lemma drawn_block e nx k s ts s1 n fuel st l st' : s <> [] ->
  token_loop (run n) fuel e d (snd (delimiter k)) nx [] s st = (Ok l, st') -> (exists l' al, l = [] ++ l' /\ length l' = length ts /\ Forall (fun x => tok_valid x = true) l' /\ s = concat (map tok_disc l') ++ s1 /\ collect (fun x => let* a := ast_tok x in Ok [a]) l' = Ok al /\ map drawn al = ts) ->
  (is_valid k (N.of_nat (length ts)) = true -> exists b, Some (BCont (token_or_skip (TM e [] s k l)) None) = Some b /\ b_valid b = true /\ s = b_disc b ++ s1 /\ draws b ts) /\
  (is_valid k 0 = false -> is_valid k (N.of_nat (length ts)) = false -> exists b, Some (BCont (token_or_skip (TM e [] s k l)) None) = Some b /\ b_valid b = false).
Proof.
  intros Ns E (l' & al & El & Ln & Fo & Es & Ca & Da). cbn [app] in El. subst l'. split.
  - intros K. eexists. split; [reflexivity|]. unfold token_or_skip. cbn [tm_card]. rewrite (tm_plain e s k l Fo), Ln, K. cbn [negb]. rewrite andb_false_r. split; [cbn [b_valid m_valid]; rewrite (tm_plain e s k l Fo), Ln; exact K|]. cbn [b_disc m_disc app tm_disc]. rewrite join_concat. split; [exact Es|].
    destruct l as [|x l].
    + exists []. cbn [ast_block ast_match ast_tm bind app map concat]. split; [reflexivity|]. destruct ts; [reflexivity|discriminate].
    + assert (Nn : el_name e <> []). { destruct fuel as [|fuel]; [discriminate|]. cbn [token_loop] in E. apply mbind_ok in E. destruct E as (t & sc & E & _). unfold element_to_token in E. apply mbind_ok in E. destruct E as (c & sd & _ & E). apply lift_ok in E. destruct E as [E _]. destruct (el_name e); [discriminate|discriminate]. }
      exists [AMToken (el_name e) al]. cbn [ast_block ast_match ast_tm bind]. rewrite Ca. cbn [bind]. destruct (el_name e); [contradiction|]. cbn [bind app map concat parts_of]. rewrite app_nil_r. split; [reflexivity|exact Da].
  - intros K0 K. eexists. split; [reflexivity|]. unfold token_or_skip. cbn [tm_card]. rewrite K0. cbn [andb b_valid m_valid]. rewrite (tm_plain e s k l Fo), Ln. exact K.
Qed.
Lemma skip_case n c s ch nx name w s1 st o st' N : ch = true -> passes channels s name w s1 -> agrees st N -> run (S n) c d s ch nx st = (Ok o, st') ->
  (exists b sa, run n c d s1 nx nx sa = (Ok (Some b), st') /\ agrees sa N /\ exists m, o = Some (BBlock b (Some m)) /\ lm_disc m = w /\ (forall i bl, m = LM i bl -> draw_all bl [Text name w])) \/
  (exists sa sb, run n c d s1 nx nx sa = (Ok None, sb) /\ agrees sa N).
Proof.
  intros -> Sk A H. destruct (passes_split channels _ _ _ _ Sk) as (Es & Ns & Nw). destruct s as [|b0 s]; [contradiction|]. cbn [cbm] in H. unfold cbm_step in H. apply mbind_ok in H. destruct H as (f & sa & E & H). unfold find_channel_block in E. apply mbind_ok in E. destruct E as (g & sb & Eg & E).
  unfold range_channels in Eg. apply (find_skip channels Hc _ _ _ _ _ _ _ _ _ Sk) in Eg; [|exact (proj1 A)]. destruct Eg as (-> & m & -> & Dm & Am). rewrite Dm in E. rewrite (proj2 (has_prefix_is_prefix w (b0 :: s))) in E by (rewrite Es; exists s1; reflexivity).
  apply mbind_ok in E. destruct E as (ob & sc & Eb & E). apply ret_ok in E. destruct E as [<- <-]. assert (Cs : cut w (b0 :: s) = s1) by (unfold cut; rewrite Es, skipn_app, skipn_all, Nat.sub_diag; reflexivity). rewrite Cs in Eb. destruct ob as [b|].
  - left. exists b, {| ls_rec := ls_rec st; ls_pre := ls_pre st; ls_tick := S (ls_tick st) |}. apply ret_ok in H. destruct H as [<- <-]. split; [exact Eb|]. split; [exact A|]. exists m. auto.
  - right. exists {| ls_rec := ls_rec st; ls_pre := ls_pre st; ls_tick := S (ls_tick st) |}, sc. split; [exact Eb|exact A].
Qed.
Theorem rec_main :
  (forall c ch nx s N out s1 N1, finds channels (mlookup d) c ch nx s N out s1 N1 -> F c ch nx s N out s1 N1) /\
  (forall c ch nx s N N1, before channels (mlookup d) c ch nx s N N1 -> BE c ch nx s N N1) /\
  (forall c ch nx s N N1, left channels (mlookup d) c ch nx s N N1 -> LE c ch nx s N N1) /\
  (forall c ch nx s N N1, lacks channels (mlookup d) c ch nx s N N1 -> LA c ch nx s N N1) /\
  (forall l ch nx s N out rest N1, line_finds channels (mlookup d) l ch nx s N out rest N1 -> LF l ch nx s N out rest N1) /\
  (forall l ch nx s N N1, line_lacks channels (mlookup d) l ch nx s N N1 -> LL l ch nx s N N1) /\
  (forall m nx s ls N N1, outdone channels (mlookup d) m nx s ls N N1 -> OD m nx s ls N N1) /\
  (forall e nx s N t rest N1, chooses channels (mlookup d) e nx s N t rest N1 -> CH e nx s N t rest N1) /\
  (forall e nx k done s N ts s1 N1, repeats channels (mlookup d) e nx k done s N ts s1 N1 -> RE e nx k done s N ts s1 N1).
Proof.
  apply rec_ind.
  - (* fi_rule *) intros r k ch nx s N N1 w s1 L _ Be T. destruct (takes_starts r k s w s1 L T) as (_ & Ns). split; [exact Ns|]. intros n st o st' A H.
    destruct (rule_at _ _ _ _ _ _ _ _ _ _ _ Ns Be A H) as (x & sa & Aa & E & ->). destruct (takes_match r k s w s1 L T sa nx (proj1 Aa)) as (x' & E' & Ek & Er & Ev & Ed & Nr & Nw). rewrite E in E'. injection E' as <- ->. split; [exact Aa|].
    exists (BCont (MRule x) None). unfold rule_or_skip. rewrite Ev, andb_false_r. split; [reflexivity|]. split; [exact Ev|]. cbn [b_disc m_disc app]. rewrite Ed. split; [apply T|].
    destruct (rule_draws r k s w s1 nx _ x _ L E Er Ed (proj1 T) Nw) as (y & Ey & Dy). exists [y]. cbn [ast_block ast_match bind]. rewrite Ey. cbn [bind app map concat]. rewrite Dy. split; reflexivity.
  - (* fi_no_rule *) intros r k ch nx s N N1 L Ns _ Be Nb K0. split; [exact Ns|]. intros n st o st' A H.
    destruct (rule_at _ _ _ _ _ _ _ _ _ _ _ Ns Be A H) as (x & sa & Aa & E & ->). destruct (missing_match r k s L Nb sa nx (proj1 Aa)) as (x' & E' & Ek & Ev & _). rewrite E in E'. injection E' as <- ->. split; [exact Aa|].
    eexists. split; [reflexivity|]. unfold rule_or_skip. rewrite Ek, K0. cbn [andb]. destruct (rm_valid x) eqn:V; cbn [negb].
    + destruct (Ev eq_refl) as (Er & _). split; [exact V|]. cbn [b_disc m_disc app]. unfold rm_disc. rewrite Er. split; [reflexivity|]. exists []. cbn [ast_block ast_match bind]. unfold rule_result. rewrite Er. split; reflexivity.
    + split; [reflexivity|]. split; [reflexivity|]. exists []. split; reflexivity.
  - (* fi_tokens *) intros e k ch nx s N N1 ts s1 N2 Ns _ Be _ T K. split; [exact Ns|]. intros n st o st' A H.
    destruct (token_at _ _ _ _ _ _ _ _ _ _ _ Ns Be A H) as (n' & sa & l & Aa & E & ->). destruct (T n' n' [] sa l st' Aa eq_refl E) as (A2 & X). split; [exact A2|]. apply (drawn_block e nx k s ts s1 n' n' sa l st' Ns E X). exact K.
  - (* fi_again *) intros x k e ch nx s N N1 ts s1 N2 Ns _ Be Nx De _ T K. split; [exact Ns|]. intros n st o st' A H.
    destruct (rec_at _ _ _ _ _ _ _ _ _ _ _ _ Ns Be Nx De A H) as (n' & sa & l & Aa & E & ->). destruct (T n' n' [] sa l st' Aa eq_refl E) as (A2 & X). split; [exact A2|]. apply (drawn_block e nx k s ts s1 n' n' sa l st' Ns E X). exact K.
  - (* fi_skip *) intros c ch nx s N nm w s1 out s2 N1 Ch Sk _ [Ns1 IH]. destruct (passes_split channels _ _ _ _ Sk) as (Es & Ns & _). split; [exact Ns|]. intros n st o st' A H. destruct n as [|n]; [discriminate|].
    destruct (skip_case n c s ch nx nm w s1 st o st' N Ch Sk A H) as [(b & sa & E & Aa & m & -> & Dm & Am)|(sa & sb & E & Aa)].
    + destruct (IH n sa _ st' Aa E) as (A1 & b' & Eb & V & Es1 & Db). injection Eb as <-. split; [exact A1|]. exists (BBlock b (Some m)). split; [reflexivity|]. split; [exact V|]. cbn [b_disc]. rewrite Dm, <- app_assoc, <- Es1. split; [exact Es|].
      destruct m as [i bl]. destruct (Am i bl eq_refl) as (ms & Em & Em'). destruct Db as (ns & En & En'). exists (ms ++ ns). cbn [ast_block]. rewrite Em. cbn [bind]. rewrite En. cbn [bind]. rewrite map_app, concat_app, Em', En'. split; reflexivity.
    + destruct (IH n sa _ sb Aa E) as (_ & b' & Eb & _). discriminate.
  - (* be_off *) intros c nx s N Ns n st o st' A H. apply ret_ok in H. destruct H as [<- <-]. auto.
  - (* be_quiet *) intros c ch nx s N Qs Ns n st o st' A H. destruct ch; [|apply ret_ok in H; destruct H as [<- <-]; auto]. unfold find_channel_block in H. apply mbind_ok in H. destruct H as (f & s1 & E & H). unfold range_channels in E. apply (find_quiet channels Hc _ _ _ _ _ _ Ns Qs) in E; [|exact (proj1 A)]. destruct E as [-> ->]. apply ret_ok in H. destruct H as [<- <-]. split; [reflexivity|exact A].
  - (* be_left *) intros c nx s N nm w s1 N1 Sk _ IH Ns n st o st' A H. unfold find_channel_block in H. apply mbind_ok in H. destruct H as (f & sa & E & H). unfold range_channels in E. apply (find_skip channels Hc _ _ _ _ _ _ _ _ _ Sk) in E; [|exact (proj1 A)]. destruct E as (-> & m & -> & Dm & _). rewrite Dm in H. destruct (passes_split channels _ _ _ _ Sk) as (Es & _ & _). rewrite Es, has_prefix_app, cut_app in H.
    apply mbind_ok in H. destruct H as (b & s2 & E & H). apply ret_ok in H. destruct H as [<- <-]. destruct (IH n _ b s2 (agrees_tick _ _ _ A) E) as [-> A1]. auto.
  - (* le_over *) intros c ch nx k N Ck K0 n st o st' A H. destruct n as [|n]; [discriminate|]. cbn [cbm] in H. unfold cbm_step in H. apply lift_ok in H. destruct H as [H <-]. rewrite Ck in H. cbn [bind] in H. rewrite K0 in H. injection H as <-. auto.
  - (* le_noted *) intros x sp k ch nx s N N1 Ns _ Be Nx n st o st' A H. destruct (run_case _ _ _ _ _ _ _ _ _ _ Ns Be A H) as (n' & m & sa & _ & Aa & E & ->). cbn [container_to_match] in E. rewrite (proj2 Aa x), Nx, bytes_eqb_refl in E. injection E as <- <-. split; [reflexivity|]. apply agrees_forget. exact Aa.
  - (* la_end *) intros c ch nx k N Ck K0 n st o st' A H. destruct n as [|n]; [discriminate|]. cbn [cbm] in H. unfold cbm_step in H. apply lift_ok in H. destruct H as [H <-]. rewrite Ck in H. cbn [bind] in H. rewrite K0 in H. destruct (build_next n c d); try discriminate. injection H as <-. split; [exact A|]. eexists. split; reflexivity.
  - (* la_rule *) intros r k ch nx s N N1 L Ns _ Be Nb K0 n st o st' A H.
    destruct (rule_at _ _ _ _ _ _ _ _ _ _ _ Ns Be A H) as (x & sa & Aa & E & ->). destruct (missing_match r k s L Nb sa nx (proj1 Aa)) as (x' & E' & Ek & _ & Ev). rewrite E in E'. injection E' as <- ->. split; [exact Aa|].
    eexists. split; [reflexivity|]. unfold rule_or_skip. rewrite Ek, K0. exact (Ev K0).
  - (* la_tokens *) intros e k ch nx s N N1 ts s1 N2 Ns _ Be _ T K0 K n st o st' A H.
    destruct (token_at _ _ _ _ _ _ _ _ _ _ _ Ns Be A H) as (n' & sa & l & Aa & E & ->). destruct (T n' n' [] sa l st' Aa eq_refl E) as (A2 & X). split; [exact A2|]. apply (drawn_block e nx k s ts s1 n' n' sa l st' Ns E X); assumption.
  - (* la_again *) intros x k e ch nx s N N1 ts s1 N2 Ns _ Be Nx De _ T K0 K n st o st' A H.
    destruct (rec_at _ _ _ _ _ _ _ _ _ _ _ _ Ns Be Nx De A H) as (n' & sa & l & Aa & E & ->). destruct (T n' n' [] sa l st' Aa eq_refl E) as (A2 & X). split; [exact A2|]. apply (drawn_block e nx k s ts s1 n' n' sa l st' Ns E X); assumption.
  - (* la_skip *) intros c ch nx s N nm w s1 N1 Ch Sk _ IH n st o st' A H. destruct n as [|n]; [discriminate|].
    destruct (skip_case n c s ch nx nm w s1 st o st' N Ch Sk A H) as [(b & sa & E & Aa & m & -> & _)|(sa & sb & E & Aa)].
    + destruct (IH n sa _ st' Aa E) as (A1 & b' & Eb & V). injection Eb as <-. split; [exact A1|]. eexists. split; [reflexivity|exact V].
    + destruct (IH n sa _ sb Aa E) as (_ & b' & Eb & _). discriminate.
  - (* lf_end *) intros ch nx s N n acc st o st' A H. cbn [line_loop] in H. apply ret_ok in H. destruct H as [<- <-]. split; [exact A|]. exists []. rewrite app_nil_r. split; [reflexivity|]. split; [reflexivity|]. split; [reflexivity|]. exists []. split; reflexivity.
  - (* lf_switch *) intros l ch nx s N out rest N1 _ IH n acc st o st' A H. cbn [line_loop] in H. exact (IH _ _ _ _ _ A H).
  - (* lf_more *) intros c l ch nx s N og s1 N1 out rest N2 _ [Ns Ig] _ IH n acc st o st' A H. cbn [line_loop] in H. apply mbind_ok in H. destruct H as (ob & sa & E & H).
    destruct (Ig n st ob sa A E) as (Aa & b & -> & V & Es & Db). rewrite V in H. cbn [negb] in H. rewrite Es, has_prefix_app, cut_app in H. destruct (IH _ _ _ _ _ Aa H) as (A2 & bl & -> & Vl & El & Dl). split; [exact A2|]. exists (b :: bl). split; [rewrite <- app_assoc; reflexivity|]. split; [cbn [forallb]; rewrite V; exact Vl|].
    split; [unfold text in *; cbn [map concat]; rewrite <- app_assoc, <- El; exact Es|exact (draw_cons _ _ _ _ Db Dl)].
  - (* lf_left *) intros c l ch nx s N N1 _ IH n acc st o st' A H. cbn [line_loop] in H. apply mbind_ok in H. destruct H as (ob & sa & E & H). destruct (IH _ _ _ _ A E) as [-> A1]. apply ret_ok in H. destruct H as [<- <-]. split; [exact A1|]. exists []. rewrite app_nil_r. split; [reflexivity|]. split; [reflexivity|]. split; [reflexivity|]. exists []. split; reflexivity.
  - (* ll_switch *) intros l ch nx s N N1 _ IH n acc st o st' A H. cbn [line_loop] in H. exact (IH _ _ _ _ _ A H).
  - (* ll_here *) intros c l ch nx s N N1 _ IH n acc st o st' A H. cbn [line_loop] in H. apply mbind_ok in H. destruct H as (ob & sa & E & H). destruct (IH _ _ _ _ A E) as (A1 & b & -> & V). rewrite V in H. cbn [negb] in H. apply ret_ok in H. destruct H as [<- <-]. split; [exact A1|]. exists b. auto.
  - (* ll_later *) intros c l ch nx s N og s1 N1 N2 _ [Ns Ig] _ IH n acc st o st' A H. cbn [line_loop] in H. apply mbind_ok in H. destruct H as (ob & sa & E & H).
    destruct (Ig n st ob sa A E) as (Aa & b & -> & V & Es & Db). rewrite V in H. cbn [negb] in H. rewrite Es, has_prefix_app, cut_app in H. exact (IH _ _ _ _ _ Aa H).
  - (* od_nil *) intros m nx s N n st outs st' A H. inversion H; subst. split; [exact A|]. intros [|j] bl (Hn & _); discriminate.
  - (* od_lacks *) intros m nx s l ls N N1 N2 _ IB _ IH n st outs st' A H. inversion H as [|? ? o os ? s1 ? E R]; subst. unfold line_to_matches in E. apply mbind_ok in E. destruct E as (ol & sb & E & E'). apply ret_ok in E'. destruct E' as [<- <-].
    destruct (IB _ _ _ _ _ A E) as (A1 & b & -> & V). destruct (IH _ _ _ _ A1 R) as (Pe & IHc). split; [exact Pe|].
    intros [|j] bl (Hn & Vb & Tb); [|apply (IHc j); split; [exact Hn|auto]]. cbn in Hn. injection Hn as <-. cbn [forallb] in Vb. rewrite V in Vb. discriminate.
  - (* od_less *) intros m nx s l ls N out rest N1 N2 _ IG Lm _ IH n st outs st' A H. inversion H as [|? ? o os ? s1 ? E R]; subst. unfold line_to_matches in E. apply mbind_ok in E. destruct E as (ol & sb & E & E'). apply ret_ok in E'. destruct E' as [<- <-].
    destruct (IG _ _ _ _ _ A E) as (A1 & bl' & -> & V & Es & _). destruct (IH _ _ _ _ A1 R) as (Pe & IHc). split; [exact Pe|].
    intros [|j] bl (Hn & Vb & Tb); [|apply (IHc j); split; [exact Hn|auto]]. cbn in Hn. destruct bl'; [discriminate|]. injection Hn as <-. rewrite Es, app_length. lia.
  - (* ch_line *) intros e nx s N N1 N2 N3 first l later out rest Nn Em _ IB _ IG Ls _ IA n st x st' A H. unfold element_to_token, element_to_content in H. apply mbind_ok in H. destruct H as (c & sa & E & H). apply lift_ok in H. destruct H as [H <-].
    apply mbind_ok in E. destruct E as (om & sb & E & E'). rewrite Nn in E'. apply best_line_chosen in E. destruct E as (outs & R & C). rewrite Em in R.
    assert (Sp : exists o1 o2 bl, outs = o1 ++ Some bl :: o2 /\ length o1 = length first /\ (forall j b, candidate o1 j b -> S (length rest) + length (text b) <= length s) /\ (forall j b, candidate o2 j b -> length rest + length (text b) <= length s) /\ agrees sb N3 /\ forallb b_valid bl = true /\ s = text bl ++ rest /\ draw_all bl out).
    { clear - IB IG IA Ls R A Hc. specialize (IB n).
      assert (SP : exists o1 o2 s1, outs = o1 ++ o2 /\ length o1 = length first /\ lines_run (fun l => line_to_matches (run n) l d s nx) first st o1 s1 /\ lines_run (fun l => line_to_matches (run n) l d s nx) (l :: later) s1 o2 sb).
      { clear IB A. revert st outs R. induction first as [|l0 first IH]; intros st outs R; [exists [], outs, st; cbn [app length] in *; split; [reflexivity|]; split; [reflexivity|]; split; [constructor|exact R]|]. cbn [app] in R. inversion R as [|? ? o os ? s1 ? E R']; subst. destruct (IH s1 os R') as (o1 & o2 & s2 & -> & Ln & R1 & R2). exists (o :: o1), o2, s2. split; [reflexivity|]. split; [cbn; lia|]. split; [econstructor; eassumption|exact R2]. }
      destruct SP as (o1 & o2 & s1 & -> & Ln & R1 & R2). destruct (IB _ _ _ A R1) as (P1 & CB). inversion R2 as [|? ? o os ? s2 ? E R']; subst. unfold line_to_matches in E. apply mbind_ok in E. destruct E as (ol & sc & E & E'). apply ret_ok in E'. destruct E' as [<- <-].
      destruct (IG _ _ _ _ _ P1 E) as (A2 & bl & -> & V & Es & D). cbn [app] in *. destruct (IA _ _ _ _ A2 R') as (A3 & CA). assert (Nb : bl <> []) by (intros ->; cbn in Es; subst rest; lia). destruct bl as [|b bl]; [contradiction|]. exists o1, os, (b :: bl). auto 12. }
    destruct Sp as (o1 & o2 & bl & -> & Ln & CB & CA & A3 & V & Es & D). assert (Ls' : length s = length (text bl) + length rest) by (rewrite Es at 1; apply app_length).
    assert (Cand : candidate (o1 ++ Some bl :: o2) (length first) bl) by (split; [rewrite <- Ln, nth_error_app2, Nat.sub_diag by lia; reflexivity|split; [exact V|intros Z; rewrite Z in Ls'; cbn in Ls'; lia]]).
    assert (Om : om = Some (LM (length first) bl)).
    { destruct om as [[i b']|].
      - destruct C as [[Ci Cm]|[Cn _]]; [|exfalso; exact (Cn _ _ Cand)]. destruct (Cm _ _ Cand) as [M1 M2]. destruct (Nat.lt_trichotomy i (length first)) as [Hi|[->|Hi]].
        + exfalso. assert (Ci' : candidate o1 i b') by (destruct Ci as (Hn & Ci); split; [rewrite nth_error_app1 in Hn by lia; exact Hn|exact Ci]). specialize (CB _ _ Ci'). lia.
        + destruct Ci as (Hn & _). destruct Cand as (Hn' & _). rewrite Hn in Hn'. injection Hn' as ->. reflexivity.
        + exfalso. assert (Ci' : candidate o2 (i - S (length first)) b'). { destruct Ci as (Hn & Ci). split; [|exact Ci]. rewrite nth_error_app2 in Hn by lia. rewrite Ln in Hn. destruct (i - length first) as [|q] eqn:Q; [lia|]. cbn in Hn. replace (i - S (length first)) with q by lia. exact Hn. }
          specialize (CA _ _ Ci'). specialize (M2 Hi). lia.
      - destruct C as [Cn _]. exfalso. exact (Cn _ _ Cand). }
    subst om. apply ret_ok in E'. destruct E' as [<- <-]. destruct (el_name e) as [|n0 nm] eqn:En; [discriminate|]. injection H as <-. destruct D as (ms & Ec & Ed). split; [exact A3|].
    exists (LM (length first) bl), (AToken (el_name e) (length first) ms). cbn [tok_content tok_valid tok_disc lm_valid ast_tok]. rewrite Ec, En. cbn [bind]. rewrite lm_disc_valid by exact V. split; [reflexivity|]. split; [exact V|]. split; [reflexivity|]. split; [exact Es|]. split; [apply Cand|]. split; [reflexivity|]. split; [rewrite drawn_token, Ed; reflexivity|reflexivity].
  - (* re_none *) intros e nx k done s N N1 Nn _ IB n fuel acc st l st' A La H. destruct fuel as [|fuel]; [discriminate|]. cbn [token_loop] in H. apply mbind_ok in H. destruct H as (t & sa & E & H).
    assert (V : tok_valid t = false /\ agrees sa N1).
    { unfold element_to_token, element_to_content in E. apply mbind_ok in E. destruct E as (c & sb & E & E'). apply lift_ok in E'. destruct E' as [E' <-]. apply mbind_ok in E. destruct E as (om & sc & E & E2). rewrite Nn in E2. apply best_line_chosen in E. destruct E as (outs & R & C). destruct (IB _ _ _ _ A R) as (A1 & CB).
      destruct om as [[i b']|]; apply ret_ok in E2; destruct E2 as [<- <-]; destruct (el_name e); try discriminate; injection E' as <-; (split; [|exact A1]); [|reflexivity]. cbn [tok_valid lm_valid]. destruct C as [[Ci _]|[_ [[_ Fa] _]]]; [|exact Fa]. exfalso. specialize (CB _ _ Ci). destruct Ci as (_ & _ & Nt). destruct (text b'); [contradiction|cbn in CB; lia]. }
    destruct V as [V A1]. rewrite V in H. cbn [negb] in H. apply ret_ok in H. destruct H as [<- <-]. split; [exact A1|]. exists [], []. rewrite app_nil_r. repeat split; constructor.
  - (* re_last *) intros e nx k done s N t s1 N1 _ IP (m & Em & Lm) n fuel acc st l st' A La H. destruct fuel as [|fuel]; [discriminate|]. cbn [token_loop] in H. apply mbind_ok in H. destruct H as (x & sa & E & H). destruct (IP _ _ _ _ A E) as (A1 & lm & a & Ec & V & Ed & Es & Nd & Ea & Da & _).
    rewrite V, Ec in H. cbn [negb] in H. rewrite Ed in H. rewrite Es in H. rewrite has_prefix_app in H. rewrite Em in H. replace (m <=? N.of_nat (length (acc ++ [x])))%N with true in H by (symmetry; apply N.leb_le; rewrite app_length; cbn; lia). apply ret_ok in H. destruct H as [<- <-]. split; [exact A1|].
    exists [x], [a]. split; [reflexivity|]. split; [reflexivity|]. split; [constructor; [exact V|constructor]|]. cbn [map concat]. rewrite app_nil_r. split; [exact Es|]. cbn [collect]. rewrite Ea. cbn [bind app map]. rewrite Da. split; reflexivity.
  - (* re_more *) intros e nx k done s N t s1 N1 ts s2 N2 _ IP Lm _ IH n fuel acc st l st' A La H. destruct fuel as [|fuel]; [discriminate|]. cbn [token_loop] in H. apply mbind_ok in H. destruct H as (x & sa & E & H).
    destruct (IP _ _ _ _ A E) as (Aa & lm & a & Ec & V & Ed & Es & Nd & Ea & Da & _).
    rewrite V, Ec in H. cbn [negb] in H. rewrite Ed in H. rewrite Es in H. rewrite has_prefix_app, cut_app in H. replace (match snd (delimiter k) with Some m => (m <=? N.of_nat (length (acc ++ [x])))%N | None => false end) with false in H.
    + apply IH in H; [|exact Aa|rewrite app_length; cbn; lia]. destruct H as (A2 & l' & al & -> & Ln & Fo & Es' & Ca & Dl). split; [exact A2|]. exists (x :: l'), (a :: al). rewrite <- app_assoc. split; [reflexivity|]. split; [cbn; lia|]. split; [constructor; assumption|]. cbn [map concat]. rewrite <- app_assoc, <- Es'. split; [exact Es|]. cbn [collect]. rewrite Ea, Ca. cbn [bind app map]. rewrite Da, Dl. split; reflexivity.
    + destruct (snd (delimiter k)) as [m|]; [|reflexivity]. specialize (Lm m eq_refl). symmetry. apply N.leb_gt. rewrite app_length. cbn. lia.
Qed.
End Main.
