(* TextTokProofs.v - ToTokens: what the expressions of a line read. *)
From Coq Require Import Strings.String Strings.Byte Lia.
From Verif Require Import Go GoLemmas DomainModel CardModel PatModel RuleModel RuleProofs PathModel SigProofs2 Regex RegexProofs TextModel TextBytes TextSpec TextTokSpec TextProofs TextProofs2 TextProofs3 TextProofs4 TextProofs5.
Open Scope list_scope.
Local Arguments in_class : simpl never.

Lemma byte_eq (a b : byte) : Byte.eqb a b = true <-> a = b.
Proof. split; [apply Byte.byte_dec_bl|intros ->; apply Byte.byte_dec_lb; reflexivity]. Qed.
Lemma byte_ne (a b : byte) : Byte.eqb a b = false <-> a <> b.
Proof. split; [intros H ->; rewrite (Byte.byte_dec_lb eq_refl) in H; discriminate|apply eqb_ne]. Qed.

(* ---- an optional part ---- *)
Definition cap_if (i : nat) (x : option bytes) : caps := match x with Some w => [(i, w)] | None => [] end.
Lemma cap_app c c' i : cap (c ++ c') i = if existsb (fun x => fst x =? i) c then cap c i else cap c' i.
Proof. induction c as [|[j w] c IH]; [reflexivity|]. cbn. destruct (j =? i); [reflexivity|exact IH]. Qed.

(* one byte *)
Definition sc_byte (b : byte) (s : bytes) : option bytes := match s with c :: t => if Byte.eqb c b then Some t else None | [] => None end.
Lemma sc_byte_iff b s t : sc_byte b s = Some t <-> s = b :: t.
Proof.
  destruct s as [|c u]; cbn; [split; discriminate|]. destruct (Byte.eqb c b) eqn:E.
  - apply byte_eq in E. subst. split; [intros [= ->]; reflexivity|intros [= ->]; reflexivity].
  - apply byte_ne in E. split; [discriminate|intros [= -> ->]; contradiction].
Qed.
Definition mark_re (i : nat) (b : byte) : re := ROpt (RCap i (RSeq (ROne (of_ranges [(b, b)])) REps)).
Lemma mark_at {A} i b (k : bytes -> caps -> option A) s cs : total k ->
  exec (mark_re i b) s cs k = match sc_byte b s with Some t => k t ((i, [b]) :: cs) | None => k s cs end.
Proof.
  intros T. unfold mark_re.
  change (exec (ROpt (RCap i (RSeq (ROne (of_ranges [(b, b)])) REps))) s cs k) with
    (match exec (ROne (of_ranges [(b, b)])) s cs (fun t cs' => k t ((i, firstn (length s - length t) s) :: cs')) with Some x => Some x | None => k s cs end).
  rewrite one_lit. destruct s as [|c t]; [reflexivity|]. cbn [sc_byte]. destruct (Byte.eqb c b) eqn:E; [|reflexivity]. apply byte_eq in E. subst c.
  rewrite (firstn_name [b] t) by reflexivity. destruct (k t _) eqn:K; [reflexivity|]. exfalso. exact (T _ _ K).
Qed.
(* a run of at least one, then a byte that is not in the run *)
Definition sc_run (c : cls) (s : bytes) : option (bytes * bytes) := match takec c s with [] => None | w => Some (w, dropc c s) end.
Lemma sc_run_heads c s : heads [c] c s = sc_run c s.
Proof. unfold sc_run. destruct s as [|b t]; [reflexivity|]. cbn. destruct (in_class c b); reflexivity. Qed.
Lemma sc_run_iff c s w u : sc_run c s = Some (w, u) <-> s = w ++ u /\ w <> [] /\ all_in c w /\ stops c u.
Proof.
  unfold sc_run. split.
  - destruct (takec c s) as [|b t] eqn:E; [discriminate|]. intros [= <- <-]. split; [rewrite <- E; apply take_drop|]. split; [discriminate|]. split; [rewrite <- E; apply takec_all|apply dropc_stops].
  - intros (-> & Ne & Ha & Hs). destruct (span_unique c w u Ha Hs) as [-> ->]. destruct w; [contradiction|reflexivity].
Qed.
Definition run_then (i : nat) (c : cls) (r : re) : re := RSeq (RCap i (n_plus c)) r.
Lemma run_then_at {A} i c r (k : bytes -> caps -> option A) s cs :
  (forall b t cs', in_class c b = true -> exec r (b :: t) cs' k = None) ->
  exec (run_then i c r) s cs k = match sc_run c s with Some (w, u) => exec r u ((i, w) :: cs) k | None => None end.
Proof.
  intros R. unfold run_then.
  change (exec (RSeq (RCap i (n_plus c)) r) s cs k) with (exec (n_plus c) s cs (fun t cs' => exec r t ((i, firstn (length s - length t) s) :: cs') k)).
  rewrite (plus_re c); [|intros b t cs' H; apply R; exact H]. rewrite sc_run_heads. destruct (sc_run c s) as [[w u]|] eqn:E; [|reflexivity].
  apply sc_run_iff in E. destruct E as (E & _). rewrite (firstn_name w u s E). reflexivity.
Qed.
(* {range} *)
Definition c_brace : cls := but "}"%byte.
Definition sc_braces (s : bytes) : option (bytes * bytes) :=
  match sc_byte "{"%byte s with
  | Some t => match sc_run c_brace t with Some (w, u) => match sc_byte "}"%byte u with Some v => Some (w, v) | None => None end | None => None end
  | None => None
  end.
Lemma in_but_all x w : all_in (but x) w <-> ~ In x w.
Proof.
  unfold all_in. rewrite Forall_forall. split.
  - intros H K. apply H in K. apply in_but in K. contradiction.
  - intros H b Hb. apply in_but. intros ->. contradiction.
Qed.
Lemma sc_braces_iff s w v : sc_braces s = Some (w, v) <-> braces s w v.
Proof.
  unfold sc_braces, braces. split.
  - destruct (sc_byte _ s) as [t|] eqn:E1; [|discriminate]. destruct (sc_run _ t) as [[w' u]|] eqn:E2; [|discriminate]. destruct (sc_byte _ u) as [v'|] eqn:E3; [|discriminate]. intros [= -> ->].
    apply sc_byte_iff in E1, E3. apply sc_run_iff in E2. destruct E2 as (-> & Ne & Ha & _). subst. split; [reflexivity|]. split; [exact Ne|]. apply in_but_all. exact Ha.
  - intros (-> & Ne & Ni). rewrite (proj2 (sc_byte_iff _ _ _) eq_refl). rewrite (proj2 (sc_run_iff c_brace (w ++ "}"%byte :: v) w ("}"%byte :: v))); [rewrite (proj2 (sc_byte_iff _ _ _) eq_refl); reflexivity|].
    split; [reflexivity|]. split; [exact Ne|]. split; [apply in_but_all; exact Ni|]. reflexivity.
Qed.
Definition lit_re (b : byte) : re := ROne (of_ranges [(b, b)]).
Definition brace_re (i : nat) : re := RSeq (lit_re "{"%byte) (run_then i c_brace (RSeq (lit_re "}"%byte) REps)).
Lemma lit_at {A} b (r : re) (k : bytes -> caps -> option A) s cs : exec (RSeq (lit_re b) r) s cs k = match sc_byte b s with Some t => exec r t cs k | None => None end.
Proof.
  change (exec (RSeq (lit_re b) r) s cs k) with (exec (ROne (of_ranges [(b, b)])) s cs (fun t cs' => exec r t cs' k)). rewrite one_lit. destruct s as [|c t]; [reflexivity|]. cbn [sc_byte]. destruct (Byte.eqb c b); reflexivity.
Qed.
Lemma brace_at {A} i (k : bytes -> caps -> option A) s cs : exec (brace_re i) s cs k = match sc_braces s with Some (w, u) => k u ((i, w) :: cs) | None => None end.
Proof.
  unfold brace_re, sc_braces. rewrite lit_at. destruct (sc_byte "{"%byte s) as [t|]; [|reflexivity]. rewrite run_then_at.
  - destruct (sc_run c_brace t) as [[w u]|]; [|reflexivity]. rewrite lit_at. destruct (sc_byte "}"%byte u) as [v|]; reflexivity.
  - intros b u cs' H. rewrite lit_at. destruct (sc_byte _ (b :: u)) eqn:E; [|reflexivity]. apply sc_byte_iff in E. injection E as -> ->. apply in_but in H. contradiction.
Qed.
(* ->text<- *)
Definition c_arrow : cls := {| cl_neg := true; cl_ranges := [("<"%byte, "<"%byte); ("-"%byte, "-"%byte)] |}.
Lemma in_arrow b : in_class c_arrow b = true <-> b <> "<"%byte /\ b <> "-"%byte.
Proof.
  unfold in_class, c_arrow. cbn [cl_neg cl_ranges existsb]. rewrite orb_false_r.
  destruct (in_range b ("<"%byte, "<"%byte)) eqn:E1, (in_range b ("-"%byte, "-"%byte)) eqn:E2; cbn;
    rewrite ?in_range_one in *; (split; [|]); intros; try discriminate; try tauto;
    split; intros ->; [rewrite (proj2 (in_range_one _ _) eq_refl) in E1|rewrite (proj2 (in_range_one _ _) eq_refl) in E2]; discriminate.
Qed.
Definition sc_arrows (s : bytes) : option (bytes * bytes) :=
  match sc_byte "-"%byte s with
  | Some t1 =>
    match sc_byte ">"%byte t1 with
    | Some t =>
      match sc_run c_arrow t with
      | Some (w, u) => match sc_byte "<"%byte u with Some v => match sc_byte "-"%byte v with Some z => Some (w, z) | None => None end | None => None end
      | None => None
      end
    | None => None
    end
  | None => None
  end.
Lemma sc_arrows_iff s w v : sc_arrows s = Some (w, v) <-> arrows s w v.
Proof.
  unfold sc_arrows, arrows. split.
  - destruct (sc_byte _ s) as [t1|] eqn:E0; [|discriminate]. destruct (sc_byte _ t1) as [t|] eqn:E1; [|discriminate]. destruct (sc_run _ t) as [[w' u]|] eqn:E2; [|discriminate].
    destruct (sc_byte _ u) as [u'|] eqn:E3; [|discriminate]. destruct (sc_byte _ u') as [v'|] eqn:E4; [|discriminate]. intros [= -> ->].
    apply sc_byte_iff in E0, E1, E3, E4. apply sc_run_iff in E2. destruct E2 as (-> & Ne & Ha & _). subst. split; [reflexivity|]. split; [exact Ne|]. apply (all_iff c_arrow); [apply in_arrow|exact Ha].
  - intros (-> & Ne & Ni). cbn [bs app list_byte_of_string]. change (bs "->") with ["-"; ">"]%byte. change (bs "<-") with ["<"; "-"]%byte. cbn [app].
    rewrite !(proj2 (sc_byte_iff _ _ _) eq_refl). rewrite (proj2 (sc_run_iff c_arrow _ w ("<"%byte :: "-"%byte :: v))); [rewrite !(proj2 (sc_byte_iff _ _ _) eq_refl); reflexivity|].
    split; [reflexivity|]. split; [exact Ne|]. split; [apply (all_iff c_arrow _ _ in_arrow); exact Ni|]. reflexivity.
Qed.
Definition arrow_re (i : nat) : re := RSeq (lit_re "-"%byte) (RSeq (lit_re ">"%byte) (run_then i c_arrow (RSeq (lit_re "<"%byte) (RSeq (lit_re "-"%byte) REps)))).
Lemma arrow_at {A} i (k : bytes -> caps -> option A) s cs : exec (arrow_re i) s cs k = match sc_arrows s with Some (w, u) => k u ((i, w) :: cs) | None => None end.
Proof.
  unfold arrow_re, sc_arrows. rewrite lit_at. destruct (sc_byte "-"%byte s) as [t1|]; [|reflexivity]. rewrite lit_at. destruct (sc_byte ">"%byte t1) as [t|]; [|reflexivity]. rewrite run_then_at.
  - destruct (sc_run c_arrow t) as [[w u]|]; [|reflexivity]. rewrite lit_at. destruct (sc_byte "<"%byte u) as [v|]; [|reflexivity]. rewrite lit_at. destruct (sc_byte "-"%byte v) as [z|]; reflexivity.
  - intros b u cs' H. rewrite lit_at. destruct (sc_byte _ (b :: u)) eqn:E; [|reflexivity]. apply sc_byte_iff in E. injection E as -> ->. apply in_arrow in H. destruct H. contradiction.
Qed.

(* ---- perhaps ---- *)
Definition perh {X} (f : bytes -> option (X * bytes)) (s : bytes) : option X * bytes := match f s with Some (x, u) => (Some x, u) | None => (None, s) end.
Lemma perhaps_iff {X} (f : bytes -> option (X * bytes)) P : (forall s x u, f s = Some (x, u) <-> P s x u) -> forall s x u, perhaps P s x u <-> perh f s = (x, u).
Proof.
  intros H s x u. unfold perhaps, perh. destruct x as [y|].
  - rewrite <- H. destruct (f s) as [[y' u']|]; split; intros E; try discriminate; injection E as -> ->; reflexivity.
  - destruct (f s) as [[y' u']|] eqn:E; split.
    + intros [_ N]. apply H in E. exfalso. exact (N _ _ E).
    + discriminate.
    + intros [-> _]. reflexivity.
    + intros [= <-]. split; [reflexivity|]. intros y r K. apply H in K. congruence.
Qed.
Definition sc_unit (b : byte) (s : bytes) : option (unit * bytes) := match sc_byte b s with Some t => Some (tt, t) | None => None end.
Lemma sc_unit_iff b s x u : sc_unit b s = Some (x, u) <-> the_byte b s x u.
Proof. unfold sc_unit, the_byte. rewrite <- sc_byte_iff. destruct x. destruct (sc_byte b s); split; congruence. Qed.
(* captures other than those between two numbers are left alone *)
Definition only (lo hi : nat) (cs cs' : caps) : Prop := forall j, j < lo \/ hi < j -> cap cs' j = cap cs j.
Lemma only_refl lo hi cs : only lo hi cs cs. Proof. intros j _. reflexivity. Qed.
Lemma only_cons i lo hi cs cs' w : only lo hi cs cs' -> lo <= i <= hi -> only lo hi cs ((i, w) :: cs').
Proof. intros H L j Hj. cbn. destruct (i =? j) eqn:E; [apply Nat.eqb_eq in E; lia|]. apply H. exact Hj. Qed.
Lemma only_trans lo hi a b c : only lo hi a b -> only lo hi b c -> only lo hi a c.
Proof. intros H K j Hj. rewrite (K j Hj). apply H. exact Hj. Qed.
Lemma only_wide lo hi lo' hi' a b : only lo hi a b -> lo' <= lo -> hi <= hi' -> only lo' hi' a b.
Proof. intros H L1 L2 j Hj. apply H. lia. Qed.

Section At.
Context {A : Type} (k : bytes -> caps -> option A) (T : total k).
Lemma unit_at i b s cs : exists cs', exec (mark_re i b) s cs k = k (snd (perh (sc_unit b) s)) cs' /\ only i i cs cs'.
Proof.
  rewrite mark_at by exact T. unfold perh, sc_unit. destruct (sc_byte b s) as [t|]; cbn [snd]; eexists; (split; [reflexivity|]); [apply only_cons; [apply only_refl|lia]|apply only_refl].
Qed.
Lemma opt_at i r (f : bytes -> option (bytes * bytes)) j s cs :
  (forall (k : bytes -> caps -> option A) s cs, exec r s cs k = match f s with Some (w, u) => k u ((j, w) :: cs) | None => None end) ->
  exec (ROpt (RCap i r)) s cs k = match f s with Some (w, u) => k u ((i, firstn (length s - length u) s) :: (j, w) :: cs) | None => k s cs end.
Proof.
  intros H. change (exec (ROpt (RCap i r)) s cs k) with (match exec r s cs (fun t cs' => k t ((i, firstn (length s - length t) s) :: cs')) with Some x => Some x | None => k s cs end).
  rewrite H. destruct (f s) as [[w u]|]; [|reflexivity]. destruct (k u _) eqn:E; [reflexivity|]. exfalso. exact (T _ _ E).
Qed.
End At.
(* the cardinality *)
Definition card_re (i : nat) : re :=
  RSeq (ROpt (RCap i (brace_re (i + 1)))) (RSeq (mark_re (i + 2) "+"%byte) (RSeq (mark_re (i + 3) "*"%byte) (RSeq (mark_re (i + 4) "?"%byte) REps))).
Definition sc_card (s : bytes) : bytes * bytes :=
  let '(r, s1) := perh sc_braces s in
  let '(p, s2) := perh (sc_unit "+"%byte) s1 in
  let '(t, s3) := perh (sc_unit "*"%byte) s2 in
  let '(m, s4) := perh (sc_unit "?"%byte) s3 in
  (match r with Some r => bs "{" ++ r ++ bs "}" | None => [] end ++ written_opt p "+"%byte ++ written_opt t "*"%byte ++ written_opt m "?"%byte, s4).
Lemma sc_card_iff s c u : card_text s c u <-> sc_card s = (c, u).
Proof.
  unfold card_text, sc_card. split.
  - intros (r & s1 & p & s2 & t & s3 & m & H1 & H2 & H3 & H4 & ->). apply (perhaps_iff _ _ sc_braces_iff) in H1. apply (perhaps_iff _ _ (sc_unit_iff _)) in H2, H3, H4. rewrite H1, H2, H3, H4. reflexivity.
  - destruct (perh sc_braces s) as [r s1] eqn:H1. destruct (perh _ s1) as [p s2] eqn:H2. destruct (perh _ s2) as [t s3] eqn:H3. destruct (perh _ s3) as [m s4] eqn:H4. intros [= <- <-].
    exists r, s1, p, s2, t, s3, m. rewrite (perhaps_iff _ _ sc_braces_iff), !(perhaps_iff _ _ (sc_unit_iff _)). auto.
Qed.
Lemma perh_split {X} (f : bytes -> option (X * bytes)) P (text : X -> bytes) s x u :
  (forall s x u, f s = Some (x, u) <-> P s x u) -> (forall s x u, P s x u -> s = text x ++ u) -> perh f s = (x, u) -> s = match x with Some y => text y | None => [] end ++ u.
Proof. intros H K E. apply (perhaps_iff _ _ H) in E. destruct x as [y|]; [apply K; exact E|]. destruct E as [-> _]. reflexivity. Qed.
Lemma braces_split s w u : braces s w u -> s = (bs "{" ++ w ++ bs "}") ++ u.
Proof. intros (-> & _). change (bs "{") with ["{"%byte]. change (bs "}") with ["}"%byte]. cbn [app]. rewrite <- app_assoc. reflexivity. Qed.
Lemma unit_split b s (x : unit) u : the_byte b s x u -> s = [b] ++ u. Proof. intros ->. reflexivity. Qed.
Lemma card_split s c u : sc_card s = (c, u) -> s = c ++ u.
Proof.
  unfold sc_card. destruct (perh sc_braces s) as [r s1] eqn:H1. destruct (perh _ s1) as [p s2] eqn:H2. destruct (perh _ s2) as [t s3] eqn:H3. destruct (perh _ s3) as [m s4] eqn:H4. intros [= <- <-].
  apply (perh_split _ _ _ _ _ _ sc_braces_iff braces_split) in H1. apply (perh_split _ _ (fun _ => ["+"%byte]) _ _ _ (sc_unit_iff _) (unit_split _)) in H2.
  apply (perh_split _ _ (fun _ => ["*"%byte]) _ _ _ (sc_unit_iff _) (unit_split _)) in H3. apply (perh_split _ _ (fun _ => ["?"%byte]) _ _ _ (sc_unit_iff _) (unit_split _)) in H4.
  rewrite H1, H2, H3, H4. unfold written_opt. rewrite <- !app_assoc. reflexivity.
Qed.
Lemma snd_card s : snd (sc_card s) = snd (perh (sc_unit "?"%byte) (snd (perh (sc_unit "*"%byte) (snd (perh (sc_unit "+"%byte) (snd (perh sc_braces s))))))).
Proof. unfold sc_card. destruct (perh sc_braces s) as [r s1]. cbn [snd]. destruct (perh _ s1) as [p s2]. cbn [snd]. destruct (perh _ s2) as [t s3]. cbn [snd]. destruct (perh _ s3). reflexivity. Qed.
Lemma card_at {A} i (k : bytes -> caps -> option A) s cs : total k -> exists cs', exec (card_re i) s cs k = k (snd (sc_card s)) cs' /\ only i (i + 4) cs cs'.
Proof.
  intros T. unfold card_re.
  assert (T3 : forall s3 cs3, exists cs4, exec (RSeq (mark_re (i + 4) "?"%byte) REps) s3 cs3 k = k (snd (perh (sc_unit "?"%byte) s3)) cs4 /\ only (i + 4) (i + 4) cs3 cs4) by (intros; apply (unit_at k T)).
  assert (T2 : forall s2 cs2, exists cs4, exec (RSeq (mark_re (i + 3) "*"%byte) (RSeq (mark_re (i + 4) "?"%byte) REps)) s2 cs2 k = k (snd (perh (sc_unit "?"%byte) (snd (perh (sc_unit "*"%byte) s2)))) cs4 /\ only i (i + 4) cs2 cs4).
  { intros s2 cs2. destruct (unit_at (fun t cs' => exec (RSeq (mark_re (i + 4) "?"%byte) REps) t cs' k)) with (i := i + 3) (b := "*"%byte) (s := s2) (cs := cs2) as (cs3 & E & O).
    - intros t c. destruct (T3 t c) as (c' & E & _). rewrite E. apply T.
    - destruct (T3 (snd (perh (sc_unit "*"%byte) s2)) cs3) as (cs4 & E' & O'). exists cs4. split; [rewrite <- E'; exact E|]. eapply only_trans; [exact (only_wide _ _ i (i + 4) _ _ O ltac:(lia) ltac:(lia))|]. exact (only_wide _ _ i (i + 4) _ _ O' ltac:(lia) ltac:(lia)). }
  set (r2 := RSeq (mark_re (i + 3) "*"%byte) (RSeq (mark_re (i + 4) "?"%byte) REps)) in *.
  assert (T1 : forall s1 cs1, exists cs4, exec (RSeq (mark_re (i + 2) "+"%byte) r2) s1 cs1 k = k (snd (perh (sc_unit "?"%byte) (snd (perh (sc_unit "*"%byte) (snd (perh (sc_unit "+"%byte) s1)))))) cs4 /\ only i (i + 4) cs1 cs4).
  { intros s1 cs1. destruct (unit_at (fun t cs' => exec r2 t cs' k)) with (i := i + 2) (b := "+"%byte) (s := s1) (cs := cs1) as (cs3 & E & O).
    - intros t c. destruct (T2 t c) as (c' & E & _). rewrite E. apply T.
    - destruct (T2 (snd (perh (sc_unit "+"%byte) s1)) cs3) as (cs4 & E' & O'). exists cs4. split; [rewrite <- E'; exact E|]. eapply only_trans; [exact (only_wide _ _ i (i + 4) _ _ O ltac:(lia) ltac:(lia))|exact O']. }
  set (r1 := RSeq (mark_re (i + 2) "+"%byte) r2) in *.
  change (exec (RSeq (ROpt (RCap i (brace_re (i + 1)))) r1) s cs k) with (exec (ROpt (RCap i (brace_re (i + 1)))) s cs (fun t cs' => exec r1 t cs' k)).
  rewrite (opt_at (fun t cs' => exec r1 t cs' k)) with (f := sc_braces) (j := i + 1); [|intros t c; destruct (T1 t c) as (c' & E & _); rewrite E; apply T|intros k' s' cs'; apply brace_at].
  rewrite snd_card. unfold perh at 4. destruct (sc_braces s) as [[w u]|]; cbn [snd].
  - destruct (T1 u ((i, firstn (length s - length u) s) :: (i + 1, w) :: cs)) as (cs4 & E & O). exists cs4. split; [exact E|]. eapply only_trans; [|exact O]. apply only_cons; [apply only_cons; [apply only_refl|lia]|lia].
  - destruct (T1 s cs) as (cs4 & E & O). exists cs4. split; [exact E|exact O].
Qed.
(* ---- an element ---- *)
Definition suffix_re (i : nat) : re :=
  RSeq (ROpt (RCap (i + 3) (card_re (i + 4)))) (RSeq (ROpt (RCap (i + 9) (arrow_re (i + 10)))) REps).
Definition arrow_text (x : option bytes) : bytes := match x with Some w => bs "->" ++ w ++ bs "<-" | None => [] end.
Lemma arrows_split s w u : arrows s w u -> s = (bs "->" ++ w ++ bs "<-") ++ u.
Proof. intros (-> & _). rewrite <- !app_assoc. reflexivity. Qed.
Lemma cap_same i w cs : cap ((i, w) :: cs) i = w. Proof. cbn. rewrite Nat.eqb_refl. reflexivity. Qed.
Lemma suffix_at {A} i (k : bytes -> caps -> option A) s cs : total k -> cap cs (i + 9) = [] ->
  exists cs', exec (suffix_re i) s cs k = k (snd (perh sc_arrows (snd (sc_card s)))) cs' /\
    cap cs' (i + 3) = fst (sc_card s) /\ cap cs' (i + 9) = arrow_text (fst (perh sc_arrows (snd (sc_card s)))) /\ only (i + 3) (i + 10) cs cs'.
Proof.
  intros T C. unfold suffix_re.
  set (r1 := RSeq (ROpt (RCap (i + 9) (arrow_re (i + 10)))) REps).
  assert (T1 : forall s1 cs1, cap cs1 (i + 9) = [] -> exists cs2, exec r1 s1 cs1 k = k (snd (perh sc_arrows s1)) cs2 /\ cap cs2 (i + 9) = arrow_text (fst (perh sc_arrows s1)) /\ only (i + 9) (i + 10) cs1 cs2).
  { intros s1 cs1 C1. unfold r1.
    change (exec (RSeq (ROpt (RCap (i + 9) (arrow_re (i + 10)))) REps) s1 cs1 k) with (exec (ROpt (RCap (i + 9) (arrow_re (i + 10)))) s1 cs1 k).
    rewrite (opt_at k T) with (f := sc_arrows) (j := i + 10); [|intros; apply arrow_at]. unfold perh. destruct (sc_arrows s1) as [[w u]|] eqn:E; cbn [fst snd].
    - eexists. split; [reflexivity|]. split; [rewrite cap_same; apply firstn_name; apply sc_arrows_iff in E; apply arrows_split; exact E|]. apply only_cons; [apply only_cons; [apply only_refl|lia]|lia].
    - eexists. split; [reflexivity|]. split; [exact C1|apply only_refl]. }
  assert (T1t : total (fun t cs' => exec r1 t cs' k)).
  { intros t c. unfold r1. change (exec (ROpt (RCap (i + 9) (arrow_re (i + 10)))) t c k <> None). rewrite (opt_at k T) with (f := sc_arrows) (j := i + 10); [|intros; apply arrow_at]. destruct (sc_arrows t) as [[w u]|]; apply T. }
  change (exec (RSeq (ROpt (RCap (i + 3) (card_re (i + 4)))) r1) s cs k) with
    (match exec (card_re (i + 4)) s cs (fun t cs' => exec r1 t ((i + 3, firstn (length s - length t) s) :: cs') k) with Some x => Some x | None => exec r1 s cs k end).
  destruct (card_at (i + 4) (fun t cs' => exec r1 t ((i + 3, firstn (length s - length t) s) :: cs') k) s cs) as (cs1 & E & O); [intros t c; apply T1t|].
  rewrite E. cbv beta. destruct (sc_card s) as [cd u] eqn:Ec. cbn [fst snd] in *. rewrite (firstn_name cd u s (card_split _ _ _ Ec)) in *.
  destruct (T1 u ((i + 3, cd) :: cs1)) as (cs2 & E2 & C2 & O2).
  - rewrite <- C. cbn. destruct (i + 3 =? i + 9) eqn:X; [apply Nat.eqb_eq in X; lia|]. apply O. lia.
  - exists cs2. split; [|split; [|split; [exact C2|]]].
    + etransitivity; [exact (f_equal (fun o => match o with Some x => Some x | None => exec r1 s cs k end) E2)|]. cbv beta. destruct (k _ cs2) eqn:K; [reflexivity|exfalso; exact (T _ _ K)].
    + rewrite O2 by lia. apply cap_same.
    + eapply only_trans; [|exact (only_wide _ _ (i + 3) (i + 10) _ _ O2 ltac:(lia) ltac:(lia))]. apply only_cons; [|lia]. exact (only_wide _ _ (i + 3) (i + 10) _ _ O ltac:(lia) ltac:(lia)).
Qed.
Lemma suffix_total {A} i (k : bytes -> caps -> option A) s cs : total k -> exec (suffix_re i) s cs k <> None.
Proof.
  intros T. unfold suffix_re.
  assert (T1 : total (fun t cs' => exec (ROpt (RCap (i + 9) (arrow_re (i + 10)))) t cs' k)).
  { intros t c. rewrite (opt_at k T) with (f := sc_arrows) (j := i + 10); [|intros; apply arrow_at]. destruct (sc_arrows t) as [[w u]|]; apply T. }
  set (r1 := ROpt (RCap (i + 9) (arrow_re (i + 10)))) in *.
  change (exec (RSeq (ROpt (RCap (i + 3) (card_re (i + 4)))) (RSeq r1 REps)) s cs k) with
    (match exec (card_re (i + 4)) s cs (fun t cs' => exec r1 t ((i + 3, firstn (length s - length t) s) :: cs') k) with Some x => Some x | None => exec r1 s cs k end).
  destruct (exec (card_re (i + 4)) s cs _) eqn:X; [discriminate|apply T1].
Qed.
