(* TextTokProofs2.v - ToTokens: elements and lines. *)
From Coq Require Import Strings.String Strings.Byte Lia.
From Verif Require Import Go GoLemmas DomainModel CardModel PatModel RuleModel RuleProofs PathModel SigProofs2 Regex RegexProofs TextModel TextBytes TextSpec TextTokSpec TextProofs TextProofs2 TextProofs3 TextProofs4 TextProofs5 TextTokProofs.
Open Scope list_scope.
Local Arguments in_class : simpl never.
#[local] Opaque suffix_re sc_card sc_arrows.
Definition named_re (i : nat) (N : re) : re :=
  RSeq (RCap (i + 1) N) (RSeq (RStar true c_ws) (RSeq (RCap (i + 2) (suffix_re i)) REps)).
Definition sc_elem (hs : list cls) (c : cls) (s : bytes) : option (elem * bytes) :=
  match heads hs c s with
  | Some (n, u) =>
    let v := dropc c_ws u in
    Some ({| el_name := n; el_card := fst (sc_card v); el_specs := fst (perh sc_arrows (snd (sc_card v))) |}, snd (perh sc_arrows (snd (sc_card v))))
  | None => None
  end.
Lemma stops_blank u : stops c_ws u <-> forall b r, u = b :: r -> ~ blank b.
Proof.
  destruct u as [|b u]; [split; [intros _ b r E; discriminate|intros; exact I]|]. cbn. split.
  - intros H b' r [= <- <-] K. apply in_ws in K. congruence.
  - intros H. destruct (in_class c_ws b) eqn:E; [|reflexivity]. apply in_ws in E. exfalso. exact (H _ _ eq_refl E).
Qed.
Lemma sc_elem_iff hs c (is_name : bytes -> Prop) goes_on : (forall n, is_nm hs c n <-> is_name n) -> (forall b, in_class c b = true <-> goes_on b) ->
  forall s e u, sc_elem hs c s = Some (e, u) <-> element is_name goes_on s e u.
Proof.
  intros Hn Hg s e u.
  assert (St : forall u, stops c u <-> forall b r, u = b :: r -> ~ goes_on b).
  { intros v. destruct v as [|b v]; [split; [intros _ b r E; discriminate|intros; exact I]|]. cbn. split.
    - intros H b' r [= <- <-] K. apply Hg in K. congruence.
    - intros H. destruct (in_class c b) eqn:E; [|reflexivity]. apply Hg in E. exfalso. exact (H _ _ eq_refl E). }
  unfold sc_elem, element. split.
  - destruct (heads hs c s) as [[n v]|] eqn:E; [|discriminate]. apply heads_some in E. destruct E as (-> & Nn & Sv). cbn zeta. intros [= <- <-]. cbn [el_name el_card el_specs].
    exists (takec c_ws v), (dropc c_ws v), (snd (sc_card (dropc c_ws v))). split; [rewrite <- take_drop; reflexivity|]. split; [apply Hn; exact Nn|]. split; [rewrite <- take_drop; apply St; exact Sv|].
    split; [apply (all_iff c_ws); [apply in_ws|apply takec_all]|]. split; [apply stops_blank; apply dropc_stops|]. split; [apply sc_card_iff; apply surjective_pairing|]. apply (perhaps_iff _ _ sc_arrows_iff). apply surjective_pairing.
  - intros (w & s1 & s2 & -> & Nn & Sv & Hw & Hs1 & Hc & Hp). apply sc_card_iff in Hc. apply (perhaps_iff _ _ sc_arrows_iff) in Hp.
    rewrite (proj2 (heads_some hs c _ (el_name e) (w ++ s1))); [|split; [reflexivity|split; [apply Hn; exact Nn|apply St; exact Sv]]]. cbn zeta.
    destruct (span_unique c_ws w s1) as [_ ->]; [apply (all_iff c_ws _ _ in_ws); exact Hw|apply stops_blank; exact Hs1|]. rewrite Hc. cbn [fst snd]. rewrite Hp. destruct e. reflexivity.
Qed.
Lemma elem_split hs c s e u : sc_elem hs c s = Some (e, u) -> exists w, s = el_name e ++ w ++ u.
Proof.
  unfold sc_elem. destruct (heads hs c s) as [[n v]|] eqn:E; [|discriminate]. apply heads_some in E. destruct E as (-> & _). cbn zeta. intros [= <- <-]. cbn [el_name].
  destruct (sc_card (dropc c_ws v)) as [cd v1] eqn:Ec. apply card_split in Ec. cbn [snd]. destruct (perh sc_arrows v1) as [ar v2] eqn:Ea. apply (perh_split _ _ _ _ _ _ sc_arrows_iff arrows_split) in Ea. cbn [snd].
  exists (takec c_ws v ++ cd ++ match ar with Some y => bs "->" ++ y ++ bs "<-" | None => [] end). rewrite (take_drop c_ws v) at 1. rewrite Ec, Ea. rewrite <- !app_assoc. reflexivity.
Qed.
Lemma elem_at {A} i N hs c (k : bytes -> caps -> option A) s cs : total_re N hs c -> total k -> hs <> [] -> cap cs (i + 9) = [] ->
  match sc_elem hs c s with
  | Some (e, u) => exists cs', exec (ROpt (RCap i (named_re i N))) s cs k = k u cs' /\ cap cs' i <> [] /\ cap cs' (i + 1) = el_name e /\ cap cs' (i + 3) = el_card e /\
      cap cs' (i + 9) = arrow_text (el_specs e) /\ only i (i + 10) cs cs'
  | None => exec (ROpt (RCap i (named_re i N))) s cs k = k s cs
  end.
Proof.
  intros HN T Hne C.
  set (k0 := fun t cs' => k t ((i, firstn (length s - length t) s) :: cs')).
  change (exec (ROpt (RCap i (named_re i N))) s cs k) with (match exec (named_re i N) s cs k0 with Some x => Some x | None => k s cs end).
  assert (T0 : total k0) by (intros t c'; apply T).
  set (k1 := fun v => fun t cs' => k0 t ((i + 2, firstn (length v - length t) v) :: cs')).
  assert (T1 : forall v, total (k1 v)) by (intros v t c'; apply T0).
  assert (E1 : exec (named_re i N) s cs k0 = match heads hs c s with Some (n, u) => exec (suffix_re i) (dropc c_ws u) ((i + 1, n) :: cs) (k1 (dropc c_ws u)) | None => None end).
  { unfold named_re. set (r := RSeq (RStar true c_ws) (RSeq (RCap (i + 2) (suffix_re i)) REps)).
    change (exec (RSeq (RCap (i + 1) N) r) s cs k0) with (exec N s cs (fun t cs' => exec r t ((i + 1, firstn (length s - length t) s) :: cs') k0)).
    assert (Er : forall t cs', exec r t cs' k0 = exec (suffix_re i) (dropc c_ws t) cs' (k1 (dropc c_ws t))).
    { intros t cs'. change (exec r t cs' k0) with (star_greedy c_ws (fun v => exec (suffix_re i) v cs' (k1 v)) t). apply (star_greedy_all c_ws (fun v => exec (suffix_re i) v cs' (k1 v))). apply suffix_total. apply T1. }
    rewrite HN; [|intros t c'; rewrite Er; apply suffix_total; apply T1]. destruct (heads hs c s) as [[n u]|] eqn:E; [|reflexivity]. rewrite Er. apply heads_some in E. destruct E as (E & _). rewrite (firstn_name n u s E). reflexivity. }
  rewrite E1. assert (ES := elem_split hs c s). unfold sc_elem in *. destruct (heads hs c s) as [[n u]|] eqn:E; [|reflexivity].
  cbn zeta in *. cbn [el_name el_card el_specs]. set (v := dropc c_ws u) in *.
  destruct (suffix_at i (k1 v) v ((i + 1, n) :: cs) (T1 v)) as (cs' & E2 & C3 & C9 & O).
  - rewrite <- C. cbn. destruct (i + 1 =? i + 9) eqn:X; [apply Nat.eqb_eq in X; lia|reflexivity].
  - rewrite E2. set (z := snd (perh sc_arrows (snd (sc_card v)))) in *. unfold k1, k0. destruct (k z _) as [res|] eqn:K; [|exfalso; exact (T _ _ K)].
    eexists. split; [symmetry; exact K|]. destruct (ES _ _ eq_refl) as (w & Es). cbn [el_name] in Es.
    assert (Nn : n <> []). { apply heads_some in E. destruct E as (_ & (a & w' & -> & F & _) & _). intros X. apply app_eq_nil in X. destruct X as [-> _]. inversion F. subst. contradiction. }
    split; [rewrite cap_same; rewrite (firstn_name (n ++ w) z s); [intros X; apply app_eq_nil in X; destruct X; contradiction|rewrite <- app_assoc; exact Es]|].
    assert (H : forall j, j <> i -> j <> i + 2 -> forall x y, cap ((i, x) :: (i + 2, y) :: cs') j = cap cs' j).
    { intros j N1 N2 x y. cbn. destruct (i =? j) eqn:X; [apply Nat.eqb_eq in X; lia|]. destruct (i + 2 =? j) eqn:Y; [apply Nat.eqb_eq in Y; lia|]. reflexivity. }
    split; [rewrite H by lia; rewrite O by lia; apply cap_same|]. split; [rewrite H by lia; exact C3|]. split; [rewrite H by lia; exact C9|].
    intros j Hj. rewrite H by lia. rewrite O by lia. cbn. destruct (i + 1 =? j) eqn:X; [apply Nat.eqb_eq in X; lia|reflexivity].
Qed.
(* ---- a piece ---- *)
Definition n_token : re := n_run c_lower c_alpha.
Definition n_rule : re := n_plus c_upper_.
Definition instr_re : re := RSeq (ROpt (RCap 1 (named_re 1 n_token))) (RSeq (ROpt (RCap 12 (named_re 12 n_rule))) (RSeq (mark_re 23 "#"%byte) REps)).
#[local] Transparent suffix_re.
Lemma c_instr : compile instruction_text = instr_re. Proof. vm_compute. reflexivity. Qed.
#[local] Opaque suffix_re named_re.
Definition sc_token := sc_elem [c_lower] c_alpha.
Definition sc_rule := sc_elem [c_upper_] c_upper_.
Lemma sc_token_iff s e u : sc_token s = Some (e, u) <-> token_element s e u.
Proof. apply sc_elem_iff; [apply is_token_name|apply in_alpha]. Qed.
Lemma sc_rule_iff s e u : sc_rule s = Some (e, u) <-> rule_element s e u.
Proof. apply sc_elem_iff; [apply is_rule_name|apply in_upper_]. Qed.
Definition sc_piece (s : bytes) : piece * bytes :=
  let '(t, s1) := perh sc_token s in
  let '(r, s2) := perh sc_rule s1 in
  let '(h, s3) := perh (sc_unit "#"%byte) s2 in
  ({| pc_token := t; pc_rule := r; pc_hash := h |}, s3).
Lemma sc_piece_iff s p u : sc_piece s = (p, u) <-> reads_piece s p u.
Proof.
  unfold sc_piece, reads_piece. split.
  - destruct (perh sc_token s) as [t s1] eqn:H1. destruct (perh sc_rule s1) as [r s2] eqn:H2. destruct (perh _ s2) as [h s3] eqn:H3. intros [= <- <-]. exists s1, s2. cbn [pc_token pc_rule pc_hash].
    rewrite (perhaps_iff _ _ sc_token_iff), (perhaps_iff _ _ sc_rule_iff), (perhaps_iff _ _ (sc_unit_iff _)). auto.
  - intros (s1 & s2 & H1 & H2 & H3). apply (perhaps_iff _ _ sc_token_iff) in H1. apply (perhaps_iff _ _ sc_rule_iff) in H2. apply (perhaps_iff _ _ (sc_unit_iff _)) in H3. rewrite H1, H2, H3. destruct p. reflexivity.
Qed.
Definition has_elem (m : rmatch) (i : nat) (x : option elem) : Prop :=
  match x with
  | Some e => m_cap m i <> [] /\ m_cap m (i + 1) = el_name e /\ m_cap m (i + 3) = el_card e /\ m_cap m (i + 9) = arrow_text (el_specs e)
  | None => m_cap m i = []
  end.
Lemma perh_some {X} (f : bytes -> option (X * bytes)) s x u : f s = Some (x, u) -> perh f s = (Some x, u). Proof. unfold perh. intros ->. reflexivity. Qed.
Lemma perh_none {X} (f : bytes -> option (X * bytes)) s : f s = None -> perh f s = (None, s). Proof. unfold perh. intros ->. reflexivity. Qed.
Lemma perh_elem {A} i N hs c (k : bytes -> caps -> option A) s cs : total_re N hs c -> total k -> hs <> [] -> cap cs (i + 9) = [] -> cap cs i = [] ->
  exists cs', exec (ROpt (RCap i (named_re i N))) s cs k = k (snd (perh (sc_elem hs c) s)) cs' /\ only i (i + 10) cs cs' /\
    match fst (perh (sc_elem hs c) s) with
    | Some e => cap cs' i <> [] /\ cap cs' (i + 1) = el_name e /\ cap cs' (i + 3) = el_card e /\ cap cs' (i + 9) = arrow_text (el_specs e)
    | None => cap cs' i = []
    end.
Proof.
  intros HN T Hne C C'. assert (H := elem_at i N hs c k s cs HN T Hne C). destruct (sc_elem hs c s) as [[e u]|] eqn:E.
  - rewrite (perh_some _ _ _ _ E). destruct H as (cs' & H1 & H2 & H3 & H4 & H5 & H6). exists cs'. cbn [fst snd]. auto 10.
  - rewrite (perh_none _ _ E). exists cs. split; [exact H|]. split; [apply only_refl|exact C'].
Qed.
Lemma elem_opt_total {A} i N hs c (k : bytes -> caps -> option A) s cs : total_re N hs c -> total k -> exec (ROpt (RCap i (named_re i N))) s cs k <> None.
Proof.
  intros HN T. change (match exec (named_re i N) s cs (fun t cs' => k t ((i, firstn (length s - length t) s) :: cs')) with Some x => Some x | None => k s cs end <> None).
  destruct (exec (named_re i N) s cs _); [discriminate|apply T].
Qed.
Lemma piece_at s : exists m, match_at (compile instruction_text) s = Some m /\ m_text m = firstn (length s - length (snd (sc_piece s))) s /\
  has_elem m 1 (pc_token (fst (sc_piece s))) /\ has_elem m 12 (pc_rule (fst (sc_piece s))).
Proof.
  rewrite c_instr. unfold match_at. set (k := fun (t : bytes) (cs : caps) => Some {| m_text := firstn (length s - length t) s; m_caps := cs |}).
  assert (T : total k) by (apply whole_total).
  set (r2 := RSeq (mark_re 23 "#"%byte) REps).
  assert (T2 : forall t cs, exists cs', exec r2 t cs k = k (snd (perh (sc_unit "#"%byte) t)) cs' /\ only 23 23 cs cs') by (intros t cs; apply (unit_at k T)).
  assert (T2t : total (fun t cs => exec r2 t cs k)) by (intros t cs; destruct (T2 t cs) as (c' & E & _); rewrite E; apply T).
  set (r1 := RSeq (ROpt (RCap 12 (named_re 12 n_rule))) r2).
  assert (T1t : total (fun t cs => exec r1 t cs k)) by (intros t cs; exact (elem_opt_total 12 n_rule [c_upper_] c_upper_ (fun t cs => exec r2 t cs k) t cs (plus_total c_upper_) T2t)).
  change (exec instr_re s [] k) with (exec (ROpt (RCap 1 (named_re 1 n_token))) s [] (fun t cs => exec r1 t cs k)).
  destruct (perh_elem 1 n_token [c_lower] c_alpha (fun t cs => exec r1 t cs k) s [] (run_total c_lower c_alpha) T1t) as (cs1 & E1 & O1 & F1); try reflexivity; [discriminate|].
  rewrite E1. cbv beta. fold sc_token in *. destruct (perh sc_token s) as [t s1] eqn:P1. cbn [fst snd] in *.
  change (exec r1 s1 cs1 k) with (exec (ROpt (RCap 12 (named_re 12 n_rule))) s1 cs1 (fun t cs => exec r2 t cs k)).
  destruct (perh_elem 12 n_rule [c_upper_] c_upper_ (fun t cs => exec r2 t cs k) s1 cs1 (plus_total c_upper_) T2t) as (cs2 & E2 & O2 & F2); [discriminate|rewrite O1 by lia; reflexivity|rewrite O1 by lia; reflexivity|].
  rewrite E2. cbv beta. fold sc_rule in *. destruct (perh sc_rule s1) as [r s2] eqn:P2. cbn [fst snd] in *.
  destruct (T2 s2 cs2) as (cs3 & E3 & O3). rewrite E3. eexists. split; [reflexivity|]. unfold sc_piece. rewrite P1, P2. destruct (perh _ s2) as [h s3]. cbn [fst snd m_text pc_token pc_rule].
  split; [reflexivity|]. unfold has_elem, m_cap. cbn [m_caps]. split.
  - destruct t as [e|].
    + destruct F1 as (A1 & A2 & A3 & A4). rewrite !O3, !O2 by lia. auto.
    + rewrite O3, O2 by lia. exact F1.
  - destruct r as [e|].
    + destruct F2 as (A1 & A2 & A3 & A4). rewrite !O3 by lia. auto.
    + rewrite O3 by lia. exact F2.
Qed.
