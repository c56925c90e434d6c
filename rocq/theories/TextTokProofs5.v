(* TextTokProofs5.v - ToTokens: the declarations of a text of tokens. *)
From Coq Require Import Strings.String Strings.Byte Lia.
From Verif Require Import Go GoLemmas DomainModel CardModel PatModel RuleModel RuleProofs PathModel Regex RegexProofs TextModel TextBytes TextSpec TextTokSpec TextProofs TextProofs2 TextProofs3 TextProofs4 TextProofs5 TextTokProofs TextTokProofs2 TextTokProofs3 TextTokProofs4.
Open Scope list_scope.
Local Arguments in_class : simpl never.

Definition tail_re : re := RSeq (RStar true c_ws) (run_then 3 (but semi) end_re).
Definition tok_re : re :=
  RSeq (RCap 1 (RSeq (RStar true c_ws) (RSeq (RCap 2 n_token) (RSeq (RStar true c_ws) (RSeq (lit_re colon) tail_re))))) REps.
Lemma c_tok : compile token_text = tok_re. Proof. vm_compute. reflexivity. Qed.
Definition body_of (s : bytes) : option bytes :=
  match dropc c_ws s with
  | [] => match rev s with [] => None | b :: _ => Some [b] end
  | v => Some v
  end.
Lemma body_of_iff s v : body_of s = Some v <-> exists w, s = w ++ v /\ Forall blank w /\ ((exists b, v = [b] /\ blank b) \/ exists b r, v = b :: r /\ ~ blank b).
Proof.
  unfold body_of. assert (E := take_drop c_ws s). assert (Ta := takec_all c_ws s). assert (Ds := dropc_stops c_ws s). apply (all_iff c_ws _ _ in_ws) in Ta. split.
  - destruct (dropc c_ws s) as [|c d].
    + destruct (rev s) as [|b r] eqn:R; [discriminate|]. intros [= <-]. apply (f_equal (@rev byte)) in R. rewrite rev_involutive in R. cbn in R. rewrite app_nil_r in E. rewrite <- E, R in Ta. apply Forall_app in Ta. destruct Ta as [T1 T2]. inversion T2; subst.
      exists (rev r). split; [reflexivity|]. split; [exact T1|]. left. eauto.
    + intros [= <-]. exists (takec c_ws s). split; [exact E|]. split; [exact Ta|]. right. exists c, d. split; [reflexivity|]. intros K. apply in_ws in K. cbn in Ds. congruence.
  - intros (w & Es & Hw & [(b & -> & Hb)|(b & r & -> & Hb)]).
    + assert (Ha : all_in c_ws s) by (rewrite Es; apply (all_iff c_ws _ _ in_ws); apply Forall_app; auto). destruct (span_unique c_ws s [] Ha I) as [_ Ed]. rewrite app_nil_r in Ed. rewrite Ed, Es, rev_app_distr. reflexivity.
    + destruct (span_unique c_ws w (b :: r)) as [_ Ed]; [apply (all_iff c_ws _ _ in_ws); exact Hw|cbn; destruct (in_class c_ws b) eqn:X; [apply in_ws in X; contradiction|reflexivity]|]. rewrite Es, Ed. reflexivity.
Qed.
Section Tail.
Context {A : Type} (k : bytes -> caps -> option A) (T : total k).
Lemma body_refuses b t cs : in_class (but semi) b = true -> exec end_re (b :: t) cs k = None.
Proof. intros H. apply in_but in H. unfold end_re. cbn [exec]. destruct (in_class (of_ranges [(semi, semi)]) b) eqn:X; [apply in_lit in X; contradiction|reflexivity]. Qed.
Lemma f_none s cs : ~ In semi s -> exec (run_then 3 (but semi) end_re) s cs k = None.
Proof.
  intros N. rewrite run_then_at by (intros; apply body_refuses; assumption). destruct (sc_run (but semi) s) as [[w u]|] eqn:E; [|reflexivity]. apply sc_run_iff in E. destruct E as (E & _). apply end_not. intros K. apply N. rewrite E. apply in_or_app. right. exact K.
Qed.
Lemma f_at v r cs : ~ In semi v -> exec (run_then 3 (but semi) end_re) (v ++ semi :: r) cs k = match v with [] => None | _ => k r ((3, v) :: cs) end.
Proof.
  intros N. rewrite run_then_at by (intros; apply body_refuses; assumption). destruct (span_but semi v r N) as [E1 E2]. unfold sc_run. rewrite E1, E2. destruct v as [|b v]; [reflexivity|]. apply end_at.
Qed.
Lemma tail_none s cs : ~ In semi s -> exec tail_re s cs k = None.
Proof.
  intros N. change (exec tail_re s cs k) with (star_greedy c_ws (fun t => exec (run_then 3 (but semi) end_re) t cs k) s). apply star_none. intros u v E _. apply f_none. intros K. apply N. rewrite E. apply in_or_app. right. exact K.
Qed.
Lemma tail_at body r cs : ~ In semi body -> exec tail_re (body ++ semi :: r) cs k = match body_of body with Some v => k r ((3, v) :: cs) | None => None end.
Proof.
  intros N. set (f := fun t => exec (run_then 3 (but semi) end_re) t cs k). change (exec tail_re (body ++ semi :: r) cs k) with (star_greedy c_ws f (body ++ semi :: r)).
  assert (Ed : dropc c_ws (body ++ semi :: r) = dropc c_ws body ++ semi :: r).
  { clear. induction body as [|b body IH]; [reflexivity|]. cbn [app dropc]. destruct (in_class c_ws b); [exact IH|reflexivity]. }
  assert (Nd : ~ In semi (dropc c_ws body)) by (intros K; apply N; rewrite (take_drop c_ws body); apply in_or_app; right; exact K).
  unfold body_of. destruct (dropc c_ws body) as [|c d] eqn:D.
  - destruct (rev body) as [|b w] eqn:R.
    + apply (f_equal (@rev byte)) in R. rewrite rev_involutive in R. cbn in R. subst body. cbn [app] in *. cbn [star_greedy]. change (in_class c_ws semi) with false. cbv iota. apply (f_at [] r cs). intros [].
    + apply (f_equal (@rev byte)) in R. rewrite rev_involutive in R. cbn in R.
      assert (Hall : all_in c_ws body) by (assert (X := take_drop c_ws body); rewrite D, app_nil_r in X; rewrite X; apply takec_all).
      assert (Hk : f ([b] ++ semi :: r) = k r ((3, [b]) :: cs)) by (apply (f_at [b] r cs); intros K; apply N; rewrite R; apply in_or_app; right; exact K).
      destruct (k r ((3, [b]) :: cs)) as [x|] eqn:K; [|exfalso; exact (T _ _ K)]. etransitivity; [|symmetry; exact K]. apply star_greedy_some. exists (rev w), ([b] ++ semi :: r). split; [rewrite R, <- app_assoc; reflexivity|]. split; [rewrite R in Hall; apply Forall_app in Hall; apply Hall|]. split; [exact Hk|].
      intros u' v' E' Hu' L. assert (Nu : ~ In semi u') by (apply (no_semi_class c_ws u' Hu'); reflexivity).
      destruct (before_semi u' v' body r (eq_sym E') Nu) as (v0 & Eb & Ev). assert (v0 = []).
      { apply (f_equal (@length _)) in Eb. rewrite R, !app_length in Eb. cbn in Eb. destruct v0; [reflexivity|]. cbn in Eb. lia. }
      subst v0 v'. apply (f_at [] r cs). intros [].
  - rewrite star_greedy_all; rewrite Ed; unfold f; rewrite (f_at (c :: d) r cs Nd); [reflexivity|apply T].
Qed.
End Tail.
Definition head_re (r : re) : re := RSeq (RStar true c_ws) (RSeq (RCap 2 n_token) (RSeq (RStar true c_ws) (RSeq (lit_re colon) r))).
Lemma head_at {A} r (k : bytes -> caps -> option A) s cs :
  exec (head_re r) s cs k = match heads [c_lower] c_alpha (dropc c_ws s) with
    | Some (n, u) => match sc_byte colon (dropc c_ws u) with Some t => exec r t ((2, n) :: cs) k | None => None end
    | None => None end.
Proof.
  set (r3 := RSeq (RStar true c_ws) (RSeq (lit_re colon) r)).
  assert (E3 : forall t cs, exec r3 t cs k = match sc_byte colon (dropc c_ws t) with Some t => exec r t cs k | None => None end).
  { intros t cs'. change (exec r3 t cs' k) with (star_greedy c_ws (fun t => exec (RSeq (lit_re colon) r) t cs' k) t). rewrite star_greedy_det; [apply lit_at|]. intros b u H. rewrite lit_at. destruct (sc_byte colon (b :: u)) eqn:X; [|reflexivity]. apply sc_byte_iff in X. injection X as -> _. discriminate. }
  assert (E2 : forall t cs, exec (RSeq (RCap 2 n_token) r3) t cs k = match heads [c_lower] c_alpha t with Some (n, u) => exec r3 u ((2, n) :: cs) k | None => None end).
  { intros t cs'. change (exec (RSeq (RCap 2 n_token) r3) t cs' k) with (exec n_token t cs' (fun u c => exec r3 u ((2, firstn (length t - length u) t) :: c) k)). unfold n_token. rewrite run_re.
    - destruct (heads _ _ t) as [[n u]|] eqn:X; [|reflexivity]. apply heads_some in X. destruct X as (X & _). rewrite (firstn_name n u t X). reflexivity.
    - intros b u c H. rewrite E3. assert (Eb : dropc c_ws (b :: u) = b :: u) by (apply letter_not_ws; apply in_alpha in H; unfold letter; tauto). rewrite Eb. destruct (sc_byte colon (b :: u)) eqn:X; [|reflexivity]. apply sc_byte_iff in X. injection X as -> _. discriminate. }
  change (exec (head_re r) s cs k) with (star_greedy c_ws (fun t => exec (RSeq (RCap 2 n_token) r3) t cs k) s). rewrite star_greedy_det.
  - rewrite E2. destruct (heads _ _ _) as [[n u]|]; [apply E3|reflexivity].
  - intros b u H. rewrite E2. cbn [heads]. destruct (in_class c_lower b) eqn:X; [|reflexivity]. exfalso. apply in_ws in H. apply in_lower in X. unfold lower in X. destruct H as [->|[->|[->| ->]]]; cbn in X; lia.
Qed.
Definition tok_x : Type := bytes * (bytes * bytes).
Definition opens_tok (u : bytes) (x : tok_x) : Prop := fst x = u ++ [semi] /\ opens_token u (snd x).
Definition tok_mk (x : tok_x) : caps := [(1, fst x); (3, snd (snd x)); (2, fst (snd x))].
Lemma tok_match s : match_at (compile token_text) s = exec (head_re tail_re) s [] (fun t cs => Some {| m_text := firstn (length s - length t) s; m_caps := (1, firstn (length s - length t) s) :: cs |}).
Proof. rewrite c_tok. reflexivity. Qed.
Lemma blank_no_semi w : Forall blank w -> ~ In semi w.
Proof. intros H K. rewrite Forall_forall in H. apply H in K. destruct K as [K|[K|[K|K]]]; discriminate. Qed.
Lemma token_no_semi n : token_name n -> ~ In semi n.
Proof. intros (b & w & -> & L & F) [K|K]; [subst b; unfold lower in L; cbn in L; lia|]. rewrite Forall_forall in F. apply F in K. unfold lower, upper in K. cbn in K. lia. Qed.
Lemma drop_ws_app w s : Forall blank w -> stops c_ws s -> dropc c_ws (w ++ s) = s.
Proof. intros H S. apply (span_unique c_ws w s); [apply (all_iff c_ws _ _ in_ws); exact H|exact S]. Qed.
Lemma tok_decl_some sec rest m : ~ In semi sec ->
  (match_at (compile token_text) (sec ++ semi :: rest) = Some m <-> exists x, opens_tok sec x /\ m = {| m_text := sec ++ [semi]; m_caps := tok_mk x |}).
Proof.
  intros N. rewrite tok_match, head_at. set (s := sec ++ semi :: rest). set (k := fun (t : bytes) (cs : caps) => _). assert (T : total k) by (intros t cs; discriminate). split.
  - destruct (heads _ _ _) as [[n u]|] eqn:E; [|discriminate]. apply heads_some in E. destruct E as (E & Hn & _). apply is_token_name in Hn.
    destruct (sc_byte colon _) as [t|] eqn:Eb; [|discriminate]. apply sc_byte_iff in Eb.
    assert (Es : s = takec c_ws s ++ n ++ takec c_ws u ++ colon :: t) by (rewrite (take_drop c_ws s) at 1; rewrite E; rewrite (take_drop c_ws u) at 1; rewrite Eb; reflexivity).
    assert (W0 : Forall blank (takec c_ws s)) by (apply (all_iff c_ws _ _ in_ws); apply takec_all). assert (W1 : Forall blank (takec c_ws u)) by (apply (all_iff c_ws _ _ in_ws); apply takec_all).
    destruct (before_semi (takec c_ws s ++ n ++ takec c_ws u ++ [colon]) t sec rest) as (body & Ec & Et).
    + rewrite <- !app_assoc. symmetry. exact Es.
    + rewrite !in_app_iff. intros [K|[K|[K|[K|[]]]]]; [exact (blank_no_semi _ W0 K)|exact (token_no_semi _ Hn K)|exact (blank_no_semi _ W1 K)|discriminate].
    + assert (Nb : ~ In semi body) by (intros K; apply N; rewrite Ec; apply in_or_app; right; exact K). rewrite Et, (tail_at k T body rest _ Nb). destruct (body_of body) as [v|] eqn:B; [|discriminate]. unfold k. rewrite (firstn_name (sec ++ [semi]) rest s) by (unfold s; rewrite <- app_assoc; reflexivity). intros [= <-].
      exists (sec ++ [semi], (n, v)). split; [|reflexivity]. split; [reflexivity|]. apply body_of_iff in B. destruct B as (w2 & -> & Hw2 & Hv). exists (takec c_ws s), (takec c_ws u), w2. cbn [fst snd]. split; [rewrite Ec, <- !app_assoc; reflexivity|]. auto.
  - intros ([whole [n v]] & [Ew Ho] & ->). cbn [fst snd] in *. subst whole. destruct Ho as (w0 & w1 & w2 & Es & Hn & H0 & H1 & H2 & Hv). cbn [fst snd] in *.
    assert (B : body_of (w2 ++ v) = Some v) by (apply body_of_iff; exists w2; auto).
    assert (Nb : ~ In semi (w2 ++ v)) by (intros K; apply N; rewrite Es; apply in_or_app; right; apply in_or_app; right; apply in_or_app; right; right; exact K).
    assert (E : s = w0 ++ n ++ w1 ++ colon :: (w2 ++ v) ++ semi :: rest) by (unfold s; rewrite Es, <- !app_assoc; cbn [app]; rewrite <- !app_assoc; reflexivity).
    assert (D0 : dropc c_ws s = n ++ w1 ++ colon :: (w2 ++ v) ++ semi :: rest). { rewrite E. apply drop_ws_app; [exact H0|]. destruct Hn as (b & w & -> & L & _). cbn. destruct (in_class c_ws b) eqn:X; [|reflexivity]. exfalso. apply in_ws in X. unfold lower in L. destruct X as [->|[->|[->| ->]]]; cbn in L; lia. }
    rewrite D0. rewrite (proj2 (heads_some [c_lower] c_alpha _ n (w1 ++ colon :: (w2 ++ v) ++ semi :: rest))).
    + rewrite (drop_ws_app w1) by (exact H1 || reflexivity). rewrite (proj2 (sc_byte_iff colon _ _) eq_refl). rewrite (tail_at k T _ _ _ Nb), B. unfold k, tok_mk. cbn [fst snd]. rewrite (firstn_name (sec ++ [semi]) rest s) by (unfold s; rewrite <- app_assoc; reflexivity). reflexivity.
    + split; [reflexivity|]. split; [apply is_token_name; exact Hn|]. destruct w1 as [|b w1]; [reflexivity|]. inversion H1 as [|? ? Hb _]; subst. cbn. destruct (in_class c_alpha b) eqn:X; [|reflexivity]. exfalso. apply in_alpha in X. unfold lower, upper in X. destruct Hb as [->|[->|[->| ->]]]; cbn in X; lia.
Qed.
Lemma tok_decl_none s : ~ In semi s -> match_at (compile token_text) s = None.
Proof.
  intros N. rewrite tok_match, head_at. destruct (heads _ _ _) as [[n u]|] eqn:E; [|reflexivity]. apply heads_some in E. destruct E as (E & _). destruct (sc_byte colon _) as [t|] eqn:Eb; [|reflexivity]. apply sc_byte_iff in Eb. apply tail_none. intros K. apply N.
  rewrite (take_drop c_ws s), E, (take_drop c_ws u), Eb. rewrite !in_app_iff. right. right. right. right. exact K.
Qed.
Lemma tok_mk_inj x y : tok_mk x = tok_mk y -> x = y.
Proof. destruct x as [a [b c]], y as [a' [b' c']]. unfold tok_mk. cbn. intros [= -> -> ->]. reflexivity. Qed.
Lemma fun_tok u d d' : ~ In semi u -> opens_token u d -> opens_token u d' -> d = d'.
Proof.
  intros N H H'. assert (X := fun_of_match (compile token_text) tok_mk opens_tok tok_mk_inj tok_decl_some u (u ++ [semi], d) (u ++ [semi], d') N (conj eq_refl H) (conj eq_refl H')). injection X as X. exact X.
Qed.
Lemma toks_found text : exists ds, declares_all opens_token text ds /\ exists xs, map snd xs = ds /\ find_all (compile token_text) text = map (fun x => {| m_text := fst x; m_caps := tok_mk x |}) xs.
Proof.
  destruct (find_declared_text opens_tok (compile token_text) tok_mk fst text tok_decl_some tok_decl_none) as (xs & (secs & tail & C & D) & F); [intros u x [H _]; exact H|].
  exists (map snd xs). split; [|exists xs; split; [reflexivity|exact F]]. exists secs, tail. split; [exact C|]. clear C F. induction D as [|s l xs Hn D IH|s l x xs Hx D IH]; cbn [map].
  - constructor.
  - apply declared_skip; [|exact IH]. intros a u d E K. exact (Hn a u (u ++ [semi], d) E (conj eq_refl K)).
  - apply declared_take; [|exact IH]. destruct Hx as (a & u & E & [_ Hu] & L). exists a, u. split; [exact E|]. split; [exact Hu|]. intros a' u' d E' La K. exact (L a' u' (u' ++ [semi], d) E' La (conj eq_refl K)).
Qed.
Section Tokens.
Variable rules : table rule.
Lemma read_tok_iff d w : fst d <> [] -> (forall x, read_token rules {| m_text := w; m_caps := tok_mk (w, d) |} = Ok x <-> declares_token (find_rule rules) d x) /\ tame (read_token rules {| m_text := w; m_caps := tok_mk (w, d) |}).
Proof.
  destruct d as [[|b n] bd]; [intros K; exfalso; apply K; reflexivity|]. intros _. unfold read_token, m_cap. cbn [m_caps tok_mk cap fst snd Nat.eqb]. destruct (read_suite_iff bd) as [S1 S2]. split.
  - intros x. unfold declares_token. split.
    + intros H. apply bind_ok in H. destruct H as ([suite block] & Hs & H). apply bind_ok in H. destruct H as ([must not] & Hb & H). cbn in H. injection H as <-. cbn [fst snd t_name t_must t_not]. split; [reflexivity|]. exists block. split; [apply S1; exact Hs|apply read_block_iff; exact Hb].
    + intros (Hn & block & Hs & Hb). apply S1 in Hs. rewrite Hs. cbn [bind fst snd]. apply read_block_iff in Hb. rewrite Hb. cbn [bind fst snd]. destruct x as [[nm mu no] su]. cbn in *. rewrite Hn. reflexivity.
  - apply tame_bind; [exact S2|]. intros [suite block] _. apply tame_bind; [apply read_block_iff|]. intros. apply tame_ok.
Qed.
Lemma to_tokens_exact text l : (exists t, to_tokens rules text = Ok (t, map (fun x => (t_name (fst x), snd x)) l) /\ table_all t = map fst l /\ forall k y, table_find t k = Ok y <-> In y (map fst l) /\ t_name y = k) <-> means_tokens (find_rule rules) text l.
Proof.
  destruct (toks_found text) as (ds & D & xs & Ex & F).
  assert (Hn : Forall (fun d => fst d <> []) ds). { apply (declares_all_sound opens_token _ text ds); [|exact D]. intros u d (w0 & w1 & w2 & _ & (b & w & E & _) & _) K. assert (X := eq_trans (eq_sym E) K). discriminate. }
  assert (M : mapM (read_token rules) (find_all (compile token_text) text) = Ok l <-> Forall2 (declares_token (find_rule rules)) ds l).
  { rewrite F, mapM_iff, Forall2_map_l, <- Ex, Forall2_map_l. apply Forall2_iff. intros x y Hx. destruct x as [w d]. cbn [fst snd]. apply read_tok_iff. rewrite Forall_forall in Hn. apply Hn. rewrite <- Ex. apply (in_map snd _ _ Hx). }
  unfold to_tokens. rewrite all_token. split.
  - intros (t & H & Ht & _). apply bind_ok in H. destruct H as (l' & Hl & H). apply bind_ok in H. destruct H as (t' & Ht' & H). injection H as <- El. apply unique_now_iff in Ht'. destruct Ht' as (Ne & Nd & Ea & _).
    assert (l' = l). { assert (E1 : map fst l' = map fst l) by (rewrite <- Ea; exact Ht). clear - E1 El. revert l E1 El. induction l' as [|[a b] l' IH]; intros [|[a' b'] l] E1 E2; try discriminate; [reflexivity|]. cbn in *. injection E1 as -> E1. injection E2 as -> E2. f_equal. auto. }
    subst l'. exists ds. split; [exact D|]. split; [apply M; exact Hl|]. split; [destruct l; [contradiction|discriminate]|]. rewrite map_map in Nd. exact Nd.
  - intros (ds' & D' & Fl & Ne & Nd). rewrite (declares_all_fun _ fun_tok _ _ _ D' D) in Fl. apply M in Fl. rewrite Fl. cbn [bind]. destruct (unique_now_ok t_name (map fst l)) as [t Ht]; [destruct l; [contradiction|discriminate]|rewrite map_map; exact Nd|]. rewrite Ht. cbn [bind]. exists t. split; [reflexivity|].
    apply unique_now_iff in Ht. tauto.
Qed.
Lemma to_tokens_inv text r : to_tokens rules text = Ok r -> exists l, r = (fst r, map (fun x => (t_name (fst x), snd x)) l) /\ table_all (fst r) = map fst l /\ forall k y, table_find (fst r) k = Ok y <-> In y (map fst l) /\ t_name y = k.
Proof.
  unfold to_tokens. intros H. apply bind_ok in H. destruct H as (l & Hl & H). apply bind_ok in H. destruct H as (t & Ht & [= <-]). exists l. cbn [fst]. split; [reflexivity|]. apply unique_now_iff in Ht. tauto.
Qed.
Lemma to_tokens_tame text : tame (to_tokens rules text).
Proof.
  destruct (toks_found text) as (ds & D & xs & Ex & F).
  assert (Hn : Forall (fun d => fst d <> []) ds). { apply (declares_all_sound opens_token _ text ds); [|exact D]. intros u d (w0 & w1 & w2 & _ & (b & w & E & _) & _) K. assert (X := eq_trans (eq_sym E) K). discriminate. }
  unfold to_tokens. apply tame_bind.
  - rewrite all_token, F. apply tame_mapM. intros m Hm. apply in_map_iff in Hm. destruct Hm as ([w d] & <- & Hx). cbn [fst]. apply read_tok_iff. rewrite Forall_forall in Hn. apply Hn. rewrite <- Ex. apply (in_map snd _ _ Hx).
  - intros l _. apply tame_bind; [apply unique_now_tame|]. intros. apply tame_ok.
Qed.
End Tokens.
