(* TextTokProofs3.v - ToTokens: specifiers. *)
From Coq Require Import Strings.String Strings.Byte Lia.
From Verif Require Import Go GoLemmas DomainModel CardModel PatModel RuleModel RuleProofs PathModel SigProofs2 Regex RegexProofs TextModel TextBytes TextSpec TextTokSpec TextProofs TextProofs2 TextProofs3 TextProofs4 TextProofs5 TextTokProofs TextTokProofs2.
Open Scope list_scope.
Local Arguments in_class : simpl never.

Definition spec_re : re := RSeq (ROpt (RCap 1 n_token)) (RSeq (ROpt (RCap 2 n_rule)) (RSeq (RStar true c_ws) (RSeq (RCap 3 (brace_re 4)) REps))).
Lemma c_spec : compile specifier_text = spec_re. Proof. vm_compute. reflexivity. Qed.
#[local] Opaque brace_re.

Section Spec.
Context {A : Type} (k : bytes -> caps -> option A) (T : total k).
Definition r2 : re := RSeq (RStar true c_ws) (RSeq (RCap 3 (brace_re 4)) REps).
Definition r1 : re := RSeq (ROpt (RCap 2 n_rule)) r2.
Lemma brace_ws b t : blank b -> sc_braces (b :: t) = None.
Proof. intros H. destruct (sc_braces (b :: t)) as [[w u]|] eqn:E; [|reflexivity]. apply sc_braces_iff in E. destruct E as (E & _). injection E as -> _. destruct H as [H|[H|[H|H]]]; discriminate. Qed.
Lemma k2_at s cs : exec r2 s cs k = match sc_braces (dropc c_ws s) with Some (w, u) => k u ((3, firstn (length (dropc c_ws s) - length u) (dropc c_ws s)) :: (4, w) :: cs) | None => None end.
Proof.
  unfold r2.
  assert (E : forall t, exec (RSeq (RCap 3 (brace_re 4)) REps) t cs k = match sc_braces t with Some (w, u) => k u ((3, firstn (length t - length u) t) :: (4, w) :: cs) | None => None end).
  { intros t. change (exec (RSeq (RCap 3 (brace_re 4)) REps) t cs k) with (exec (brace_re 4) t cs (fun u cs' => k u ((3, firstn (length t - length u) t) :: cs'))). rewrite brace_at. reflexivity. }
  change (exec (RSeq (RStar true c_ws) (RSeq (RCap 3 (brace_re 4)) REps)) s cs k) with (star_greedy c_ws (fun t => exec (RSeq (RCap 3 (brace_re 4)) REps) t cs k) s).
  rewrite star_greedy_det; [apply E|]. intros b t H. rewrite E. rewrite brace_ws; [reflexivity|apply in_ws; exact H].
Qed.
Definition letter (b : byte) : Prop := lower b \/ upper b \/ underscore b.
Lemma letter_not_ws b t : letter b -> dropc c_ws (b :: t) = b :: t.
Proof. intros H. cbn [dropc]. destruct (in_class c_ws b) eqn:E; [|reflexivity]. apply in_ws in E. exfalso. unfold letter, lower, upper, underscore in H. destruct E as [->|[->|[->| ->]]]; cbn in H; destruct H as [H|[H|H]]; try discriminate; lia. Qed.
Lemma letter_not_brace b t : letter b -> sc_braces (b :: t) = None.
Proof. intros H. destruct (sc_braces (b :: t)) as [[w u]|] eqn:E; [|reflexivity]. apply sc_braces_iff in E. destruct E as (E & _). injection E as -> _. unfold letter, lower, upper, underscore in H. cbn in H. destruct H as [H|[H|H]]; try discriminate; lia. Qed.
Lemma k2_letter b t cs : letter b -> exec r2 (b :: t) cs k = None.
Proof. intros H. rewrite k2_at, (letter_not_ws b t H), (letter_not_brace b t H). reflexivity. Qed.
Lemma upper_letter b : in_class c_upper_ b = true -> letter b.
Proof. intros H. apply in_upper_ in H. unfold letter. tauto. Qed.
Definition sc_rname (s : bytes) := heads [c_upper_] c_upper_ s.
Definition sc_tname (s : bytes) := heads [c_lower] c_alpha s.
Lemma rname_drop s : snd (perh sc_rname s) = dropc c_upper_ s.
Proof. unfold perh, sc_rname. rewrite sc_run_heads. unfold sc_run. assert (H := take_drop c_upper_ s). destruct (takec c_upper_ s); [exact H|reflexivity]. Qed.
Lemma k1_at s cs : exec r1 s cs k = exec r2 (snd (perh sc_rname s)) (cap_if 2 (fst (perh sc_rname s)) ++ cs) k.
Proof.
  change (exec r1 s cs k) with (match exec n_rule s cs (fun t cs' => exec r2 t ((2, firstn (length s - length t) s) :: cs') k) with Some x => Some x | None => exec r2 s cs k end).
  unfold n_rule. rewrite (plus_re c_upper_); [|intros b t cs' H; apply k2_letter; apply upper_letter; exact H]. unfold perh, sc_rname. destruct (heads [c_upper_] c_upper_ s) as [[n u]|] eqn:E; [|reflexivity].
  apply heads_some in E. destruct E as (E & Hn & _). rewrite (firstn_name n u s E). cbn [fst snd cap_if app]. match goal with |- match ?e with _ => _ end = _ => transitivity e; [|reflexivity]; destruct e; [reflexivity|] end.
  destruct Hn as (a & w & -> & F & _). inversion F as [|? b ? a' Hb F' E1 E2]; subst. cbn [app]. apply k2_letter. apply upper_letter. exact Hb.
Qed.
Lemma k1_none s cs : exec r1 s cs k = None <-> sc_braces (dropc c_ws (dropc c_upper_ s)) = None.
Proof.
  rewrite k1_at, k2_at, rname_drop. destruct (sc_braces _) as [[w u]|]; [|tauto]. split; [intros H; exfalso; exact (T _ _ H)|discriminate].
Qed.
Lemma lower_first s : (exists b t, s = b :: t /\ lower b) -> sc_braces (dropc c_ws (dropc c_upper_ s)) = None.
Proof.
  intros (b & t & -> & H). assert (U : dropc c_upper_ (b :: t) = b :: t).
  { cbn [dropc]. destruct (in_class c_upper_ b) eqn:E; [|reflexivity]. apply in_upper_ in E. exfalso. unfold upper, lower, underscore in *. destruct E as [E| ->]; [lia|cbn in H; lia]. }
  rewrite U, letter_not_ws, letter_not_brace by (left; exact H). reflexivity.
Qed.
Lemma inside_none w v : all_in c_alpha w -> sc_braces (dropc c_ws (dropc c_upper_ v)) = None -> sc_braces (dropc c_ws (dropc c_upper_ (w ++ v))) = None.
Proof.
  intros Hw Hv. induction w as [|b w IH]; [exact Hv|]. inversion Hw as [|? ? Hb Hw']; subst. specialize (IH Hw'). apply in_alpha in Hb. destruct Hb as [Hb|Hb].
  - apply lower_first. exists b, (w ++ v). auto.
  - cbn [app dropc]. rewrite (proj2 (in_upper_ b)) by (left; exact Hb). exact IH.
Qed.
Lemma star_none (c : cls) (f : bytes -> option A) s : (forall u v, s = u ++ v -> all_in c u -> f v = None) -> star_greedy c f s = None.
Proof.
  intros H. destruct (star_greedy c f s) as [x|] eqn:E; [|reflexivity]. apply star_greedy_some in E. destruct E as (u & v & E & Hu & Hf & _). rewrite (H u v E Hu) in Hf. discriminate.
Qed.
Lemma k0_at s : exec spec_re s [] k = exec r2 (snd (perh sc_rname (snd (perh sc_tname s)))) (cap_if 2 (fst (perh sc_rname (snd (perh sc_tname s)))) ++ cap_if 1 (fst (perh sc_tname s))) k.
Proof.
  set (k1 := fun t cs' => exec r1 t ((1, firstn (length s - length t) s) :: cs') k).
  change (exec spec_re s [] k) with (match exec n_token s [] k1 with Some x => Some x | None => exec r1 s [] k end).
  assert (En : exec n_token s [] k1 = match s with b :: t => if in_class c_lower b then star_greedy c_alpha (fun t => k1 t []) t else None | [] => None end) by reflexivity.
  rewrite En. unfold perh at 2 4 5, sc_tname, heads. destruct s as [|b t]; cbn [fst snd]; [rewrite k1_at; reflexivity|]. destruct (in_class c_lower b) eqn:Eb; cbn [fst snd]; [|rewrite k1_at; reflexivity].
  assert (L : lower b) by (apply in_lower; exact Eb).
  assert (Ek : k1 (dropc c_alpha t) [] = exec r2 (snd (perh sc_rname (dropc c_alpha t))) (cap_if 2 (fst (perh sc_rname (dropc c_alpha t))) ++ cap_if 1 (Some (b :: takec c_alpha t))) k).
  { unfold k1. rewrite k1_at. rewrite (firstn_name (b :: takec c_alpha t) (dropc c_alpha t)); [reflexivity|]. cbn [app]. rewrite <- take_drop. reflexivity. }
  etransitivity; [|exact Ek]. destruct (k1 (dropc c_alpha t) []) as [x|] eqn:K.
  - rewrite star_greedy_all; rewrite K; [reflexivity|discriminate].
  - unfold k1 in K. apply k1_none in K. rewrite star_none.
    + rewrite (proj2 (k1_none (b :: t) [])); [reflexivity|]. apply lower_first. eauto.
    + intros u v E Hu. unfold k1. apply k1_none. destruct (le_lt_dec (length (takec c_alpha t)) (length u)) as [Le|Lt].
      * assert (Eu : v = dropc c_alpha t). { assert (H := take_drop c_alpha t). rewrite E in H at 1.
          assert (Lu : length u <= length (takec c_alpha t)).
          { rewrite E. clear - Hu. induction Hu as [|x u Hx Hu IH]; [cbn; lia|]. cbn [app takec]. rewrite Hx. cbn. lia. }
          apply (f_equal (skipn (length u))) in H. rewrite skipn_app, skipn_all, Nat.sub_diag in H. cbn in H. rewrite H. rewrite skipn_app, skipn_all2 by lia. replace (length u - length (takec c_alpha t)) with 0 by lia. reflexivity. }
        rewrite Eu. exact K.
      * assert (exists w, v = w ++ dropc c_alpha t /\ all_in c_alpha w) as (w & Ev & Hw).
        { assert (H := take_drop c_alpha t). rewrite E in H at 1. exists (skipn (length u) (takec c_alpha t)). split.
          - apply (f_equal (skipn (length u))) in H. rewrite skipn_app, skipn_all, Nat.sub_diag in H. cbn in H. rewrite H. rewrite skipn_app. replace (length u - length (takec c_alpha t)) with 0 by lia. reflexivity.
          - assert (X := takec_all c_alpha t). unfold all_in in *. rewrite <- (firstn_skipn (length u) (takec c_alpha t)) in X. apply Forall_app in X. apply X. }
        rewrite Ev. apply inside_none; [exact Hw|exact K].
Qed.
End Spec.

Definition sc_spec (s : bytes) : option (spec * bytes) :=
  let '(t, s1) := perh sc_tname s in
  let '(r, s2) := perh sc_rname s1 in
  match sc_braces (dropc c_ws s2) with Some (w, u) => Some ({| sf_token := t; sf_rule := r; sf_range := w |}, u) | None => None end.
Lemma sc_name_iff hs c (is_name : bytes -> Prop) goes_on : (forall n, is_nm hs c n <-> is_name n) -> (forall b, in_class c b = true <-> goes_on b) ->
  forall s n u, heads hs c s = Some (n, u) <-> a_name is_name goes_on s n u.
Proof.
  intros Hn Hg s n u. rewrite heads_some. unfold a_name. rewrite Hn.
  assert (St : stops c u <-> forall b r, u = b :: r -> ~ goes_on b).
  { destruct u as [|b v]; [split; [intros _ b r E; discriminate|intros; exact I]|]. cbn. split.
    - intros H b' r [= <- <-] K. apply Hg in K. congruence.
    - intros H. destruct (in_class c b) eqn:E; [|reflexivity]. apply Hg in E. exfalso. exact (H _ _ eq_refl E). }
  rewrite St. reflexivity.
Qed.
Lemma sc_tname_iff s n u : sc_tname s = Some (n, u) <-> a_name token_name (fun b => lower b \/ upper b) s n u.
Proof. apply sc_name_iff; [apply is_token_name|apply in_alpha]. Qed.
Lemma sc_rname_iff s n u : sc_rname s = Some (n, u) <-> a_name rule_name in_serie_name s n u.
Proof. apply sc_name_iff; [apply is_rule_name|apply in_upper_]. Qed.
Lemma sc_spec_iff s x u : sc_spec s = Some (x, u) <-> reads_spec s x u.
Proof.
  unfold sc_spec, reads_spec. split.
  - destruct (perh sc_tname s) as [t s1] eqn:H1. destruct (perh sc_rname s1) as [r s2] eqn:H2. destruct (sc_braces _) as [[w v]|] eqn:H3; [|discriminate]. intros [= <- <-]. cbn [sf_token sf_rule sf_range].
    exists s1, (takec c_ws s2), (dropc c_ws s2). rewrite (perhaps_iff _ _ sc_tname_iff), (perhaps_iff _ _ sc_rname_iff). split; [exact H1|]. split; [rewrite <- take_drop; exact H2|]. split; [apply (all_iff c_ws _ _ in_ws); apply takec_all|]. apply sc_braces_iff. exact H3.
  - intros (s1 & w & s2 & H1 & H2 & H3 & H4). apply (perhaps_iff _ _ sc_tname_iff) in H1. apply (perhaps_iff _ _ sc_rname_iff) in H2. rewrite H1, H2.
    assert (Ed : dropc c_ws (w ++ s2) = s2). { apply (span_unique c_ws w s2); [apply (all_iff c_ws _ _ in_ws); exact H3|]. destruct H4 as (-> & _). reflexivity. }
    rewrite Ed. apply sc_braces_iff in H4. rewrite H4. destruct x. reflexivity.
Qed.
Definition opt_text (x : option bytes) : bytes := match x with Some w => w | None => [] end.
Definition has_spec (m : rmatch) (x : spec) : Prop := m_cap m 1 = opt_text (sf_token x) /\ m_cap m 2 = opt_text (sf_rule x) /\ m_cap m 4 = sf_range x /\ (forall n, sf_token x = Some n -> n <> []) /\ forall n, sf_rule x = Some n -> n <> [].
Lemma name_split hs c s n u : heads hs c s = Some (n, u) -> s = n ++ u. Proof. intros H. apply heads_some in H. tauto. Qed.
Lemma spec_at s : match sc_spec s with Some (x, u) => exists m, match_at (compile specifier_text) s = Some m /\ s = m_text m ++ u /\ m_text m <> [] /\ has_spec m x | None => match_at (compile specifier_text) s = None end.
Proof.
  rewrite c_spec. unfold match_at, sc_spec. rewrite (k0_at _ (whole_total s)), k2_at.
  destruct (perh sc_tname s) as [t s1] eqn:H1. cbn [fst snd]. destruct (perh sc_rname s1) as [r s2] eqn:H2. cbn [fst snd]. destruct (sc_braces (dropc c_ws s2)) as [[w u]|] eqn:H3; [|reflexivity].
  eexists. split; [reflexivity|]. cbn [m_text].
  assert (E1 : s = opt_text t ++ s1) by (unfold perh, sc_tname in H1; destruct (heads _ _ s) as [[n v]|] eqn:X; injection H1 as <- <-; [apply name_split in X; exact X|reflexivity]).
  assert (E2 : s1 = opt_text r ++ s2) by (unfold perh, sc_rname in H2; destruct (heads _ _ s1) as [[n v]|] eqn:X; injection H2 as <- <-; [apply name_split in X; exact X|reflexivity]).
  apply sc_braces_iff in H3. destruct H3 as (H3 & _). assert (E3 := take_drop c_ws s2). rewrite H3 in E3.
  assert (E : s = (opt_text t ++ opt_text r ++ takec c_ws s2 ++ "{"%byte :: w ++ ["}"%byte]) ++ u).
  { rewrite E1 at 1. rewrite E2 at 1. rewrite E3 at 1. rewrite <- !app_assoc. cbn [app]. rewrite <- app_assoc. reflexivity. }
  rewrite (firstn_name _ _ _ E). split; [exact E|]. split.
  - intros X. apply (f_equal (@length _)) in X. rewrite !app_length in X. cbn in X. lia.
  - assert (Hn : forall (h c : cls) s (n : bytes) v, perh (heads [h] c) s = (Some n, v) -> n <> []).
    { intros h c s' n v X. unfold perh in X. destruct (heads [h] c s') as [[n' v']|] eqn:Y; [|discriminate]. injection X as -> ->. apply heads_some in Y. destruct Y as (_ & (a & w' & -> & F & _) & _). inversion F. subst. discriminate. }
    unfold has_spec, m_cap. cbn [m_caps sf_token sf_rule sf_range]. split; [destruct r, t; reflexivity|]. split; [destruct r, t; reflexivity|]. split; [reflexivity|]. split.
    + intros n ->. exact (Hn _ _ _ _ _ H1).
    + intros n ->. exact (Hn _ _ _ _ _ H2).
Qed.
Lemma specs_found : forall n s f, length s <= n -> exists xs, reads_specs s xs /\ Forall2 has_spec (find_from (compile specifier_text) 0 f s) xs.
Proof.
  induction n as [|n IH]; intros s f L.
  - destruct s; [|cbn in L; lia]. exists []. split; [constructor|]. cbn [find_from]. assert (H := spec_at []). change (sc_spec []) with (@None (spec * bytes)) in H. rewrite H. constructor.
  - assert (H := spec_at s). destruct (sc_spec s) as [[x u]|] eqn:E.
    + destruct H as (m & Hm & Es & Ne & Hx). apply sc_spec_iff in E. destruct (m_text m) as [|b w] eqn:Em; [contradiction|]. destruct (IH u true) as (xs & H1 & H2); [rewrite Es in L; cbn in L; rewrite app_length in L; lia|].
      exists (x :: xs). split; [econstructor; eassumption|]. destruct s as [|b' t]; [discriminate|]. cbn [find_from]. rewrite Hm, Em. constructor; [exact Hx|]. assert (Et : t = w ++ u) by (injection Es; auto). rewrite Et, (find_skip (compile specifier_text)). exact H2.
    + destruct s as [|b t]; [exists []; split; [constructor|cbn [find_from]; rewrite H; constructor]|]. destruct (IH t false) as (xs & H1 & H2); [cbn in L; lia|]. exists xs. split; [|cbn [find_from]; rewrite H; exact H2].
      apply specs_skip; [|exact H1]. intros x u K. apply sc_spec_iff in K. congruence.
Qed.
Lemma specs_fun s xs : reads_specs s xs -> forall ys, reads_specs s ys -> xs = ys.
Proof.
  assert (N : forall x u, ~ reads_spec [] x u) by (intros x u H; apply sc_spec_iff in H; discriminate).
  intros H. induction H as [|s x u l Hx H IH|b s l Hn H IH]; intros ys K; inversion K; subst; try reflexivity; try (exfalso; eapply N; eassumption).
  - apply sc_spec_iff in Hx, H0. assert (Some (x, u) = Some (x0, rest)) as [= <- <-] by congruence. f_equal. auto.
  - exfalso. eapply H0. exact Hx.
  - exfalso. eapply Hn. eassumption.
  - auto.
Qed.
(* the arrows around *)
Definition z : bytes := ["<"; "-"]%byte.
Lemma takec_z c s : in_class c "<"%byte = false -> takec c (s ++ z) = takec c s /\ dropc c (s ++ z) = dropc c s ++ z.
Proof. intros H. induction s as [|b s [IH1 IH2]]; cbn [app takec dropc]; [unfold z; cbn [takec dropc]; rewrite H; auto|]. destruct (in_class c b); [rewrite IH1, IH2; auto|auto]. Qed.
Lemma name_z h c s : in_class h "<"%byte = false -> in_class c "<"%byte = false -> perh (heads [h] c) (s ++ z) = (fst (perh (heads [h] c) s), snd (perh (heads [h] c) s) ++ z).
Proof.
  intros Hh Hc. unfold perh. destruct s as [|b s]; cbn [app heads]; [unfold z; cbn [heads]; rewrite Hh; reflexivity|]. destruct (in_class h b); [|reflexivity]. destruct (takec_z c s Hc) as [-> ->]. reflexivity.
Qed.
Lemma braces_z s : sc_braces (s ++ z) = match sc_braces s with Some (w, u) => Some (w, u ++ z) | None => None end.
Proof.
  destruct (sc_braces s) as [[w u]|] eqn:E.
  - apply sc_braces_iff in E. destruct E as (-> & Ne & Ni). apply sc_braces_iff. split; [cbn [app]; rewrite <- app_assoc; reflexivity|auto].
  - destruct (sc_braces (s ++ z)) as [[w u]|] eqn:E'; [|reflexivity]. apply sc_braces_iff in E'. destruct E' as (E' & Ne & Ni). exfalso.
    destruct s as [|b s]; [discriminate|]. cbn [app] in E'. injection E' as -> E'. assert (exists u', s = w ++ "}"%byte :: u' /\ u = u' ++ z) as (u' & -> & _).
    { clear - E' Ni. revert s E' Ni. induction w as [|x w IH]; intros s E Ni.
      - destruct s as [|y s]; [discriminate|]. injection E as -> E. exists s. auto.
      - destruct s as [|y s]; cbn in E; injection E as E1 E.
        + destruct w as [|x1 [|x2 w]]; cbn in E; try discriminate.
        + subst. destruct (IH s E ltac:(intros K; apply Ni; right; exact K)) as (u' & -> & Hu). exists u'. auto. }
    assert (X : sc_braces ("{"%byte :: w ++ "}"%byte :: u') = Some (w, u')) by (apply sc_braces_iff; split; [reflexivity|auto]). congruence.
Qed.
Lemma spec_z s : sc_spec (s ++ z) = match sc_spec s with Some (x, u) => Some (x, u ++ z) | None => None end.
Proof.
  unfold sc_spec. rewrite (name_z c_lower c_alpha s eq_refl eq_refl : perh sc_tname (s ++ z) = _). change (heads [c_lower] c_alpha) with sc_tname. destruct (perh sc_tname s) as [t s1]. cbn [fst snd].
  rewrite (name_z c_upper_ c_upper_ s1 eq_refl eq_refl : perh sc_rname (s1 ++ z) = _). change (heads [c_upper_] c_upper_) with sc_rname. destruct (perh sc_rname s1) as [r s2]. cbn [fst snd].
  rewrite (proj2 (takec_z c_ws s2 eq_refl)), braces_z. destruct (sc_braces (dropc c_ws s2)) as [[w u]|]; reflexivity.
Qed.
Lemma specs_z s xs : reads_specs s xs -> reads_specs (s ++ z) xs.
Proof.
  intros H. induction H as [|s x u l Hx H IH|b s l Hn H IH].
  - cbn [app]. unfold z. apply specs_skip; [intros x r K; apply sc_spec_iff in K; discriminate|]. apply specs_skip; [intros x r K; apply sc_spec_iff in K; discriminate|]. constructor.
  - econstructor; [|exact IH]. apply sc_spec_iff. apply sc_spec_iff in Hx. rewrite spec_z, Hx. reflexivity.
  - cbn [app]. apply specs_skip; [|exact IH]. intros x r K. apply sc_spec_iff in K. change (b :: s ++ z) with ((b :: s) ++ z) in K. rewrite spec_z in K. destruct (sc_spec (b :: s)) as [[y u]|] eqn:E; [|discriminate]. apply sc_spec_iff in E. exact (Hn _ _ E).
Qed.
Lemma specs_arrows s xs : reads_specs s xs -> reads_specs (bs "->" ++ s ++ bs "<-") xs.
Proof.
  intros H. change (bs "->" ++ s ++ bs "<-") with ("-"%byte :: ">"%byte :: s ++ z).
  apply specs_skip; [intros x r K; apply sc_spec_iff in K; discriminate|]. apply specs_skip; [intros x r K; apply sc_spec_iff in K; discriminate|]. apply specs_z. exact H.
Qed.
