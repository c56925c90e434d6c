(* TextProofs.v - the declarations of a text: what the regular expressions of the
   grammar adapters find. *)
From Coq Require Import Strings.String Strings.Byte Lia.
From Verif Require Import Go GoLemmas DomainModel CardModel PatModel RuleModel PathModel Regex RegexProofs TextModel TextBytes TextSpec.
Open Scope list_scope.

(* ---- classes ---- *)
Lemma to_N_inj a b : Byte.to_N a = Byte.to_N b -> a = b.
Proof. intros H. assert (K := Byte.of_to_N a). rewrite H, Byte.of_to_N in K. congruence. Qed.
Definition of_ranges (l : list (byte * byte)) : cls := {| cl_neg := false; cl_ranges := l |}.
Definition but (b : byte) : cls := {| cl_neg := true; cl_ranges := [(b, b)] |}.
Lemma in_range_one b x : in_range b (x, x) = true <-> b = x.
Proof.
  unfold in_range. cbn [fst snd]. rewrite andb_true_iff, !N.leb_le. split; [intros [A B]; apply to_N_inj; lia|intros ->; lia].
Qed.
Lemma in_lit x b : in_class (of_ranges [(x, x)]) b = true <-> b = x.
Proof. unfold in_class. cbn. rewrite orb_false_r. destruct (in_range b (x, x)) eqn:E; cbn; rewrite <- (in_range_one b x), E; reflexivity. Qed.
Lemma in_but x b : in_class (but x) b = true <-> b <> x.
Proof. unfold in_class. cbn. rewrite orb_false_r. rewrite <- (in_range_one b x). destruct (in_range b (x, x)); cbn; split; congruence. Qed.
Definition c_ws : cls := of_ranges [(" "%byte, " "%byte); (x09, x09); (x0d, x0d); (x0a, x0a)].
Definition c_upper : cls := of_ranges [("A"%byte, "Z"%byte)].
Definition c_lower : cls := of_ranges [("a"%byte, "z"%byte)].
Definition c_upper_ : cls := of_ranges [("A"%byte, "Z"%byte); ("_"%byte, "_"%byte)].
Definition c_lower_ : cls := of_ranges [("a"%byte, "z"%byte); ("_"%byte, "_"%byte)].
Definition c_alpha : cls := of_ranges [("a"%byte, "z"%byte); ("A"%byte, "Z"%byte)].
Lemma in_ranges l b : in_class (of_ranges l) b = existsb (in_range b) l.
Proof. unfold in_class. cbn. destruct (existsb _ _); reflexivity. Qed.
Lemma range_upper b : in_range b ("A"%byte, "Z"%byte) = true <-> upper b.
Proof. unfold in_range, upper. cbn [fst snd]. rewrite andb_true_iff, !N.leb_le. reflexivity. Qed.
Lemma range_lower b : in_range b ("a"%byte, "z"%byte) = true <-> lower b.
Proof. unfold in_range, lower. cbn [fst snd]. rewrite andb_true_iff, !N.leb_le. reflexivity. Qed.
Lemma in_ws b : in_class c_ws b = true <-> blank b.
Proof. unfold c_ws. rewrite in_ranges. cbn [existsb]. rewrite !orb_true_iff, !in_range_one. unfold blank. split; intros H; repeat destruct H as [H|H]; auto; discriminate. Qed.
Lemma in_upper b : in_class c_upper b = true <-> upper b.
Proof. unfold c_upper. rewrite in_ranges. cbn [existsb]. rewrite orb_false_r. apply range_upper. Qed.
Lemma in_lower b : in_class c_lower b = true <-> lower b.
Proof. unfold c_lower. rewrite in_ranges. cbn [existsb]. rewrite orb_false_r. apply range_lower. Qed.
Lemma in_upper_ b : in_class c_upper_ b = true <-> upper b \/ underscore b.
Proof. unfold c_upper_. rewrite in_ranges. cbn [existsb]. rewrite orb_false_r, orb_true_iff, range_upper, in_range_one. reflexivity. Qed.
Lemma in_lower_ b : in_class c_lower_ b = true <-> lower b \/ underscore b.
Proof. unfold c_lower_. rewrite in_ranges. cbn [existsb]. rewrite orb_false_r, orb_true_iff, range_lower, in_range_one. reflexivity. Qed.
Lemma in_alpha b : in_class c_alpha b = true <-> lower b \/ upper b.
Proof. unfold c_alpha. rewrite in_ranges. cbn [existsb]. rewrite orb_false_r, orb_true_iff, range_lower, range_upper. reflexivity. Qed.
Local Arguments in_class : simpl never.
Lemma all_iff c (P : byte -> Prop) w : (forall b, in_class c b = true <-> P b) -> (all_in c w <-> Forall P w).
Proof. intros H. unfold all_in. rewrite !Forall_forall. split; intros K x Hx; apply H; auto. Qed.

(* ---- names ---- *)
(* as many characters as there are heads, then a run *)
Fixpoint heads (hs : list cls) (c : cls) (s : bytes) : option (bytes * bytes) :=
  match hs with
  | [] => Some (takec c s, dropc c s)
  | h :: hs =>
    match s with
    | b :: t => if in_class h b then match heads hs c t with Some (n, u) => Some (b :: n, u) | None => None end else None
    | [] => None
    end
  end.
Definition is_nm (hs : list cls) (c : cls) (n : bytes) : Prop := exists a w, n = a ++ w /\ Forall2 (fun h b => in_class h b = true) hs a /\ all_in c w.
Lemma heads_some hs c : forall s n u, heads hs c s = Some (n, u) <-> s = n ++ u /\ is_nm hs c n /\ stops c u.
Proof.
  induction hs as [|h hs IH]; intros s n u; cbn [heads].
  - split.
    + intros [= <- <-]. split; [apply take_drop|]. split; [exists [], (takec c s); split; [reflexivity|]; split; [constructor|apply takec_all]|apply dropc_stops].
    + intros (-> & (a & w & -> & Ha & Hw) & Hu). inversion Ha; subst. cbn [app]. destruct (span_unique c w u Hw Hu) as [-> ->]. reflexivity.
  - split.
    + destruct s as [|b t]; [discriminate|]. destruct (in_class h b) eqn:E; [|discriminate]. destruct (heads hs c t) as [[n' u']|] eqn:Eh; [|discriminate]. intros [= <- <-].
      destruct (proj1 (IH t n' u') Eh) as (-> & (a & w & -> & Ha & Hw) & Hu). split; [reflexivity|]. split; [|exact Hu]. exists (b :: a), w. split; [reflexivity|]. split; [constructor; assumption|exact Hw].
    + intros (-> & (a & w & -> & Ha & Hw) & Hu). inversion Ha as [|x b l a' Hb Ha']; subst. cbn [app]. rewrite Hb.
      rewrite (proj2 (IH ((a' ++ w) ++ u) (a' ++ w) u)); [reflexivity|]. split; [reflexivity|]. split; [exists a', w; auto|exact Hu].
Qed.
(* a regular expression for names behaves like heads *)
Definition names_re (N : re) (hs : list cls) (c : cls) : Prop :=
  forall (A : Type) (k : bytes -> caps -> option A) s cs, (forall b t cs', in_class c b = true -> k (b :: t) cs' = None) ->
  exec N s cs k = match heads hs c s with Some (_, u) => k u cs | None => None end.
Definition n_run (a c : cls) : re := RSeq (ROne a) (RSeq (RStar true c) REps).
Definition n_plus (c : cls) : re := RSeq (RSeq (ROne c) (RStar true c)) REps.
Definition n_group : re := RSeq (ROne (of_ranges [("$"%byte, "$"%byte)])) (n_plus c_upper_).
Lemma star_run {A} c (k : bytes -> caps -> option A) s cs : (forall b t cs', in_class c b = true -> k (b :: t) cs' = None) -> exec (RStar true c) s cs k = k (dropc c s) cs.
Proof. intros R. cbn [exec]. apply (star_greedy_det c (fun t => k t cs)). intros b t H. apply R. exact H. Qed.
Lemma run_re a c : names_re (n_run a c) [a] c.
Proof.
  intros A k s cs R. unfold n_run. cbn [exec]. destruct s as [|b t]; cbn [heads]; [reflexivity|]. destruct (in_class a b); [|reflexivity].
  apply (star_run c k t cs R).
Qed.
Lemma plus_re c : names_re (n_plus c) [c] c.
Proof.
  intros A k s cs R. unfold n_plus. cbn [exec]. destruct s as [|b t]; cbn [heads]; [reflexivity|]. destruct (in_class c b); [|reflexivity].
  apply (star_run c k t cs R).
Qed.
Lemma group_re : names_re n_group [of_ranges [("$"%byte, "$"%byte)]; c_upper_] c_upper_.
Proof.
  intros A k s cs R.
  change (exec n_group s cs k) with (match s with b :: t => if in_class (of_ranges [("$"%byte, "$"%byte)]) b then exec (n_plus c_upper_) t cs k else None | [] => None end).
  destruct s as [|b t]; [reflexivity|]. cbn [heads]. destruct (in_class _ b); [|reflexivity]. rewrite (plus_re c_upper_ A k t cs R). cbn [heads]. destruct t as [|b' t]; [reflexivity|]. destruct (in_class c_upper_ b'); reflexivity.
Qed.
Lemma is_group_name n : is_nm [of_ranges [("$"%byte, "$"%byte)]; c_upper_] c_upper_ n <-> group_name n.
Proof.
  split.
  - intros (a & w & -> & Ha & Hw). inversion Ha as [|? ? ? ? H1 Ha1]; subst. inversion Ha1 as [|? ? ? ? H2 Ha2]; subst. inversion Ha2; subst. apply in_lit in H1. subst. exists (y0 :: w). split; [reflexivity|]. split; [discriminate|].
    constructor; [apply in_upper_; exact H2|]. apply (all_iff c_upper_); [apply in_upper_|exact Hw].
  - intros (w & -> & N & F). destruct w as [|b w]; [contradiction|]. inversion F; subst. exists ["$"%byte; b], w. split; [reflexivity|]. split; [constructor; [apply in_lit; reflexivity|constructor; [apply in_upper_; assumption|constructor]]|].
    apply (all_iff c_upper_ _ _ in_upper_). assumption.
Qed.
Lemma is_run_name a c (P Q : byte -> Prop) n : (forall b, in_class a b = true <-> P b) -> (forall b, in_class c b = true <-> Q b) ->
  (is_nm [a] c n <-> exists b w, n = b :: w /\ P b /\ Forall Q w).
Proof.
  intros HP HQ. split.
  - intros (x & w & -> & Ha & Hw). inversion Ha as [|? ? ? ? H1 Ha1]; subst. inversion Ha1; subst. exists y, w. split; [reflexivity|]. split; [apply HP; exact H1|apply (all_iff c _ _ HQ); exact Hw].
  - intros (b & w & -> & Hb & Hw). exists [b], w. split; [reflexivity|]. split; [constructor; [apply HP; exact Hb|constructor]|apply (all_iff c _ _ HQ); exact Hw].
Qed.
Lemma is_serie_name n : is_nm [c_upper] c_upper_ n <-> serie_name n.
Proof. apply is_run_name; [apply in_upper|apply in_upper_]. Qed.
Lemma is_pattern_name n : is_nm [c_lower] c_lower_ n <-> pattern_name n.
Proof. apply is_run_name; [apply in_lower|apply in_lower_]. Qed.
Lemma is_token_name n : is_nm [c_lower] c_alpha n <-> token_name n.
Proof. apply is_run_name; [apply in_lower|apply in_alpha]. Qed.
Lemma is_rule_name n : is_nm [c_upper_] c_upper_ n <-> rule_name n.
Proof.
  rewrite (is_run_name _ _ _ _ n in_upper_ in_upper_). unfold rule_name. split.
  - intros (b & w & -> & H & F). split; [discriminate|constructor; assumption].
  - intros [N F]. destruct n as [|b w]; [contradiction|]. inversion F; subst. eauto.
Qed.

(* ---- cutting at the semicolon ---- *)
Lemma before_semi (a b sec rest : bytes) : a ++ b = sec ++ semi :: rest -> ~ In semi a -> exists b', sec = a ++ b' /\ b = b' ++ semi :: rest.
Proof.
  revert sec. induction a as [|x a IH]; intros sec E N; [exists sec; split; [reflexivity|exact E]|].
  destruct sec as [|y sec]; cbn in E; injection E as -> E; [exfalso; apply N; left; reflexivity|].
  destruct (IH sec E ltac:(intros H; apply N; right; exact H)) as (b' & -> & Hb). exists b'. split; [reflexivity|exact Hb].
Qed.
Lemma no_semi_class c w : all_in c w -> in_class c semi = false -> ~ In semi w.
Proof. intros H E K. unfold all_in in H. rewrite Forall_forall in H. specialize (H _ K). congruence. Qed.
Lemma span_but x body rest : ~ In x body -> takec (but x) (body ++ x :: rest) = body /\ dropc (but x) (body ++ x :: rest) = x :: rest.
Proof.
  intros N. apply span_unique.
  - unfold all_in. apply Forall_forall. intros b Hb. apply in_but. intros ->. contradiction.
  - cbn. destruct (in_class (but x) x) eqn:E; [|reflexivity]. apply in_but in E. contradiction.
Qed.
Lemma but_none x s : ~ In x s -> dropc (but x) s = [].
Proof.
  intros N. assert (H := span_unique (but x) s []). rewrite app_nil_r in H. apply H; [|exact I]. apply Forall_forall. intros b Hb. apply in_but. intros ->. contradiction.
Qed.
Lemma star_but {A} x (k : bytes -> option A) s : (forall b t, b <> x -> k (b :: t) = None) -> star_greedy (but x) k s = k (dropc (but x) s).
Proof. intros R. apply star_greedy_det. intros b t H. apply in_but in H. apply R. exact H. Qed.
Lemma drop_semi s : ~ In semi s -> dropc (but semi) s = []. Proof. apply but_none. Qed.

Definition total {A} (k : bytes -> caps -> option A) : Prop := forall t cs, k t cs <> None.
(* [^;]* ; *)
Definition body_re : re := RCap 2 (RSeq (RStar true (but semi)) REps).
Definition end_re : re := RSeq (ROne (of_ranges [(semi, semi)])) REps.
Lemma one_lit {A} x (k : bytes -> caps -> option A) s cs : exec (ROne (of_ranges [(x, x)])) s cs k = match s with b :: t => if Byte.eqb b x then k t cs else None | [] => None end.
Proof.
  cbn [exec]. destruct s as [|b t]; [reflexivity|]. destruct (in_class (of_ranges [(x, x)]) b) eqn:E.
  - apply in_lit in E. subst. rewrite (Byte.byte_dec_lb eq_refl). reflexivity.
  - destruct (Byte.eqb b x) eqn:E2; [|reflexivity]. apply Byte.byte_dec_bl in E2. subst. rewrite (proj2 (in_lit x x) eq_refl) in E. discriminate.
Qed.
Lemma eqb_refl x : Byte.eqb x x = true. Proof. apply Byte.byte_dec_lb. reflexivity. Qed.
Lemma eqb_ne b x : b <> x -> Byte.eqb b x = false.
Proof. intros N. destruct (Byte.eqb b x) eqn:E; [|reflexivity]. apply Byte.byte_dec_bl in E. contradiction. Qed.
(* body, blanks, semicolon *)
Definition rest_re : re := RSeq body_re (RSeq (RStar false c_ws) end_re).
Lemma end_at {A} (k : bytes -> caps -> option A) t cs : exec end_re (semi :: t) cs k = k t cs.
Proof. unfold end_re. cbn [exec]. rewrite (proj2 (in_lit semi semi) eq_refl). reflexivity. Qed.
Lemma end_not {A} (k : bytes -> caps -> option A) s cs : ~ In semi s -> exec end_re s cs k = None.
Proof. intros N. unfold end_re. cbn [exec]. destruct s as [|b t]; [reflexivity|]. destruct (in_class _ b) eqn:E; [|reflexivity]. apply in_lit in E. subst. exfalso. apply N. left. reflexivity. Qed.
Lemma lazy_fail {A} c (k : bytes -> option A) s (P : bytes -> Prop) : P s -> (forall b t, P (b :: t) -> P t) -> (forall t, P t -> k t = None) -> star_lazy c k s = None.
Proof.
  intros H Hs Hk. induction s as [|b s IH]; cbn [star_lazy]; rewrite (Hk _ H); [reflexivity|]. destruct (in_class c b); [|reflexivity]. apply IH. eapply Hs. exact H.
Qed.
Lemma greedy_fail {A} c (k : bytes -> option A) s (P : bytes -> Prop) : P s -> (forall b t, P (b :: t) -> P t) -> (forall t, P t -> k t = None) -> star_greedy c k s = None.
Proof.
  intros H Hs Hk. induction s as [|b s IH]; cbn [star_greedy]; [apply Hk; exact H|]. destruct (in_class c b); [|apply Hk; exact H]. rewrite (IH (Hs _ _ H)). apply Hk. exact H.
Qed.
Lemma no_semi_tail b t : ~ In semi (b :: t) -> ~ In semi t. Proof. intros N H. apply N. right. exact H. Qed.
Lemma rest_at {A} (k : bytes -> caps -> option A) body t cs : total k -> ~ In semi body -> exec rest_re (body ++ semi :: t) cs k = k t ((2, body) :: cs).
Proof.
  intros T N. unfold rest_re, body_re. cbn [exec]. destruct (span_but semi body t N) as [_ Hd].
  set (s0 := body ++ semi :: t). set (k' := fun t0 => _).
  assert (K : k' (semi :: t) = k t ((2, body) :: cs)).
  { unfold k'. replace (length s0 - length (semi :: t)) with (length body) by (unfold s0; rewrite app_length; lia). unfold s0. rewrite firstn_app, Nat.sub_diag, firstn_all. cbn [firstn]. rewrite app_nil_r.
    set (k2 := fun t0 => exec end_re t0 _ k). assert (K2 : k2 (semi :: t) = k t ((2, body) :: cs)) by (unfold k2; apply end_at). cbn [star_lazy]. rewrite K2. destruct (k t ((2, body) :: cs)) eqn:E; [reflexivity|]. exfalso. exact (T _ _ E). }
  rewrite star_greedy_all; unfold s0; rewrite Hd, K; [reflexivity|apply T].
Qed.
Lemma rest_not {A} (k : bytes -> caps -> option A) s cs : ~ In semi s -> exec rest_re s cs k = None.
Proof.
  intros N. unfold rest_re, body_re. cbn [exec]. apply (greedy_fail _ _ _ (fun t => ~ In semi t)); [exact N|apply no_semi_tail|]. intros t Ht. cbn beta.
  apply (lazy_fail _ _ _ (fun t => ~ In semi t)); [exact Ht|apply no_semi_tail|]. intros u Hu. apply end_not. exact Hu.
Qed.
Lemma lazy_rest_at {A} (k : bytes -> caps -> option A) body t cs : total k -> ~ In semi body -> exec (RSeq (RStar false c_ws) rest_re) (body ++ semi :: t) cs k = k t ((2, body) :: cs).
Proof.
  intros T N. cbn [exec]. rewrite star_lazy_none; rewrite (rest_at k body t cs T N); [reflexivity|apply T].
Qed.
Lemma lazy_rest_not {A} (k : bytes -> caps -> option A) s cs : ~ In semi s -> exec (RSeq (RStar false c_ws) rest_re) s cs k = None.
Proof. intros N. cbn [exec]. apply (lazy_fail _ _ _ (fun t => ~ In semi t)); [exact N|apply no_semi_tail|]. intros t Ht. apply rest_not. exact Ht. Qed.

(* ---- NAME blanks : body ; ---- *)
Definition colon_re (r : re) : re := RSeq (ROne (of_ranges [(colon, colon)])) r.
Definition decl_re (N : re) : re := RSeq (RCap 1 N) (RSeq (RStar false c_ws) (colon_re (RSeq (RStar false c_ws) rest_re))).
Section Declaration.
Variables (N : re) (hs : list cls) (c : cls).
Hypothesis HN : names_re N hs c.
(* names contain neither blanks, colons nor semicolons *)
Hypothesis Hws : forall b, in_class c b = true -> in_class c_ws b = false.
Hypothesis Hcolon : in_class c colon = false.
Hypothesis Hsemi : in_class c semi = false /\ Forall (fun h => in_class h semi = false) hs.
Lemma nm_no_semi n : is_nm hs c n -> ~ In semi n.
Proof.
  intros (a & w & -> & Ha & Hw) K. apply in_app_or in K. destruct K as [K|K]; [|exact (no_semi_class c w Hw (proj1 Hsemi) K)].
  destruct Hsemi as [_ F]. clear - Ha F K. induction Ha as [|h b hs a Hb Ha IH]; [exact K|]. inversion F; subst. destruct K as [->|K]; [congruence|apply IH; assumption].
Qed.
Lemma ws_no_semi w : all_in c_ws w -> ~ In semi w.
Proof. intros H. apply (no_semi_class c_ws); [exact H|]. reflexivity. Qed.
Lemma colon_part {A} (r : re) (k : bytes -> caps -> option A) s cs :
  exec (RSeq (RStar false c_ws) (colon_re r)) s cs k = match dropc c_ws s with b :: t => if Byte.eqb b colon then exec r t cs k else None | [] => None end.
Proof.
  unfold colon_re. cbn [exec]. rewrite (star_lazy_det c_ws).
  - change (exec (ROne (of_ranges [(colon, colon)])) (dropc c_ws s) cs (fun t cs' => exec r t cs' k) = match dropc c_ws s with b :: t => if Byte.eqb b colon then exec r t cs k else None | [] => None end). apply one_lit.
  - intros b t H. destruct (in_class (of_ranges [(colon, colon)]) b) eqn:E; [|reflexivity]. apply in_lit in E. subst. exfalso. apply in_ws in H. destruct H as [H|[H|[H|H]]]; discriminate.
Qed.
(* what comes after the name *)
Definition after_name (r : re) (s : bytes) : option (bytes * bytes * bytes) :=
  match heads hs c s with
  | Some (n, u) => match dropc c_ws u with b :: t => if Byte.eqb b colon then Some (n, takec c_ws u, t) else None | [] => None end
  | None => None
  end.
Lemma name_colon {A} (r : re) (k : bytes -> caps -> option A) s :
  exec (RSeq (RCap 1 N) (RSeq (RStar false c_ws) (colon_re r))) s [] k =
  match heads hs c s with
  | Some (n, u) => match dropc c_ws u with b :: t => if Byte.eqb b colon then exec r t [(1, n)] k else None | [] => None end
  | None => None
  end.
Proof.
  set (K := fun t cs' => exec (RSeq (RStar false c_ws) (colon_re r)) t ((1, firstn (length s - length t) s) :: cs') k).
  change (exec N s [] K = match heads hs c s with Some (n, u) => match dropc c_ws u with b :: t => if Byte.eqb b colon then exec r t [(1, n)] k else None | [] => None end | None => None end).
  rewrite (HN _ K s []).
  - destruct (heads hs c s) as [[n u]|] eqn:E; [|reflexivity]. unfold K. rewrite colon_part. destruct (proj1 (heads_some hs c s n u) E) as (-> & _ & _). rewrite firstn_diff. reflexivity.
  - intros b t cs' H. unfold K. rewrite colon_part. cbn [dropc]. rewrite (Hws b H). rewrite eqb_ne; [reflexivity|]. intros ->. congruence.
Qed.
Lemma heads_at n u s : s = n ++ u -> is_nm hs c n -> stops c u -> heads hs c s = Some (n, u).
Proof. intros E H1 H2. apply heads_some. auto. Qed.
Lemma stops_ws_colon w t : all_in c_ws w -> stops c (w ++ colon :: t).
Proof. intros H. destruct w as [|b w]; [exact Hcolon|]. inversion H; subst. cbn. destruct (in_class c b) eqn:E; [|reflexivity]. rewrite (Hws b E) in H2. discriminate. Qed.
Lemma drop_ws_colon w t : all_in c_ws w -> dropc c_ws (w ++ colon :: t) = colon :: t.
Proof. intros H. apply span_unique; [exact H|reflexivity]. Qed.

Lemma decl_some sec rest m : ~ In semi sec ->
  (match_at (decl_re N) (sec ++ semi :: rest) = Some m <-> exists x, opens (is_nm hs c) sec x /\ m = {| m_text := sec ++ [semi]; m_caps := [(2, snd x); (1, fst x)] |}).
Proof.
  intros Ns. unfold match_at, decl_re. rewrite name_colon.
  assert (G : forall n w body, sec = n ++ w ++ colon :: body -> is_nm hs c n -> all_in c_ws w ->
    match heads hs c (sec ++ semi :: rest) with
    | Some (n, u) => match dropc c_ws u with b :: t => if Byte.eqb b colon then exec (RSeq (RStar false c_ws) rest_re) t [(1, n)] (fun t cs => Some {| m_text := firstn (length (sec ++ semi :: rest) - length t) (sec ++ semi :: rest); m_caps := cs |}) else None | [] => None end
    | None => None end = Some {| m_text := sec ++ [semi]; m_caps := [(2, body); (1, n)] |}).
  { intros n w body E Hn Hw.
    assert (Nb : ~ In semi body) by (intros K; apply Ns; rewrite E; apply in_or_app; right; apply in_or_app; right; right; exact K).
    assert (E1 : sec ++ semi :: rest = n ++ w ++ colon :: body ++ semi :: rest) by (rewrite E, <- !app_assoc; reflexivity).
    rewrite (heads_at n (w ++ colon :: body ++ semi :: rest) _ E1 Hn (stops_ws_colon w _ Hw)).
    rewrite (drop_ws_colon w _ Hw), eqb_refl. rewrite lazy_rest_at; [|intros ? ?; discriminate|exact Nb]. f_equal. f_equal.
    replace (sec ++ semi :: rest) with ((sec ++ [semi]) ++ rest) by (rewrite <- app_assoc; reflexivity). apply firstn_diff. }
  split.
  - intros H. destruct (heads hs c (sec ++ semi :: rest)) as [[n u]|] eqn:Eh; [|discriminate]. assert (Hh := proj1 (heads_some hs c _ n u) Eh). destruct Hh as (E & Hn & _).
    destruct (before_semi n u sec rest (eq_sym E) (nm_no_semi n Hn)) as (u' & -> & ->).
    assert (Td := take_drop c_ws (u' ++ semi :: rest)). destruct (before_semi _ _ u' rest (eq_sym Td) (ws_no_semi _ (takec_all _ _))) as (v & Eu & Ev).
    rewrite Ev in H. destruct v as [|b v]; cbn [app] in H; [rewrite (eqb_ne semi colon) in H by discriminate; discriminate|]. destruct (Byte.eqb b colon) eqn:Eb; [|discriminate]. apply Byte.byte_dec_bl in Eb. subst b.
    exists (n, v). cbn [fst snd]. split; [exists (takec c_ws (u' ++ semi :: rest)); split; [exact (f_equal (app n) Eu)|]; split; [exact Hn|]; apply (all_iff c_ws _ _ in_ws); apply takec_all|].
    assert (Es : n ++ u' = n ++ takec c_ws (u' ++ semi :: rest) ++ colon :: v) by exact (f_equal (app n) Eu).
    specialize (G n (takec c_ws (u' ++ semi :: rest)) v Es Hn (takec_all _ _)).
    rewrite Ev in G. cbn [app] in G. rewrite eqb_refl in G. assert (K := eq_trans (eq_sym G) H). injection K as <-. reflexivity.
  - intros ([n body] & (w & E & Hn & Hw) & ->). cbn [fst snd] in *. apply (G n w body E Hn). apply (all_iff c_ws _ _ in_ws). exact Hw.
Qed.
Lemma decl_none s : ~ In semi s -> match_at (decl_re N) s = None.
Proof.
  intros Ns. unfold match_at, decl_re. rewrite name_colon. destruct (heads hs c s) as [[n u]|] eqn:E; [|reflexivity]. destruct (proj1 (heads_some hs c s n u) E) as (-> & _ & _).
  destruct (dropc c_ws u) as [|b t] eqn:Ed; [reflexivity|]. destruct (Byte.eqb b colon); [|reflexivity]. apply lazy_rest_not. intros K. apply Ns. apply in_or_app. right. rewrite (take_drop c_ws u), Ed. apply in_or_app. right. right. exact K.
Qed.
End Declaration.

(* ---- NAME blanks : blanks "body" blanks ; ---- *)
Definition c_dq : cls := of_ranges [(dq, dq)].
Definition close_re : re := RSeq (ROne c_dq) (RSeq (RStar false c_ws) end_re).
Definition quote_re : re := RSeq (RStar false c_ws) (RSeq (ROne c_dq) (RSeq body_re close_re)).
Definition quoted_re (N : re) : re := RSeq (RCap 1 N) (RSeq (RStar false c_ws) (colon_re quote_re)).
Lemma ws_end {A} (k : bytes -> caps -> option A) s cs : exec (RSeq (RStar false c_ws) end_re) s cs k = match dropc c_ws s with b :: t => if Byte.eqb b semi then k t cs else None | [] => None end.
Proof.
  unfold end_re. cbn [exec]. rewrite (star_lazy_det c_ws).
  - apply (one_lit semi k).
  - intros b t H. destruct (in_class (of_ranges [(semi, semi)]) b) eqn:E; [|reflexivity]. apply in_lit in E. subst. exfalso. apply in_ws in H. destruct H as [H|[H|[H|H]]]; discriminate.
Qed.
Lemma close_at {A} (k : bytes -> caps -> option A) s cs : exec close_re s cs k = match s with b :: u => if Byte.eqb b dq then match dropc c_ws u with b' :: t => if Byte.eqb b' semi then k t cs else None | [] => None end else None | [] => None end.
Proof.
  unfold close_re. change (exec (ROne c_dq) s cs (fun t cs' => exec (RSeq (RStar false c_ws) end_re) t cs' k) = match s with b :: u => if Byte.eqb b dq then match dropc c_ws u with b' :: t => if Byte.eqb b' semi then k t cs else None | [] => None end else None | [] => None end).
  unfold c_dq. rewrite one_lit. destruct s as [|b u]; [reflexivity|]. destruct (Byte.eqb b dq); [|reflexivity]. apply ws_end.
Qed.
Lemma close_not {A} (k : bytes -> caps -> option A) s cs : ~ In semi s -> exec close_re s cs k = None.
Proof.
  intros N. rewrite close_at. destruct s as [|b u]; [reflexivity|]. destruct (Byte.eqb b dq); [|reflexivity]. destruct (dropc c_ws u) as [|b' t] eqn:E; [reflexivity|]. destruct (Byte.eqb b' semi) eqn:Eb; [|reflexivity].
  apply Byte.byte_dec_bl in Eb. subst. exfalso. apply N. right. rewrite (take_drop c_ws u), E. apply in_or_app. right. left. reflexivity.
Qed.
Lemma drop_ws_semi w t : all_in c_ws w -> dropc c_ws (w ++ semi :: t) = semi :: t.
Proof. intros H. apply span_unique; [exact H|reflexivity]. Qed.
Lemma quoted_body {A} (k : bytes -> caps -> option A) body w t cs : total k -> ~ In semi body -> all_in c_ws w ->
  exec (RSeq body_re close_re) (body ++ dq :: w ++ semi :: t) cs k = k t ((2, body) :: cs).
Proof.
  intros T N Hw. unfold body_re. cbn [exec]. set (s0 := body ++ dq :: w ++ semi :: t). set (k' := fun t0 => _).
  assert (K : k' (dq :: w ++ semi :: t) = k t ((2, body) :: cs)).
  { unfold k'. replace (length s0 - length (dq :: w ++ semi :: t)) with (length body) by (unfold s0; rewrite app_length; lia). unfold s0. rewrite firstn_app, Nat.sub_diag, firstn_all. cbn [firstn]. rewrite app_nil_r.
    rewrite close_at, eqb_refl, (drop_ws_semi w t Hw), eqb_refl. reflexivity. }
  destruct (k t ((2, body) :: cs)) as [x|] eqn:Ek; [|exfalso; exact (T _ _ Ek)].
  apply (star_greedy_some (but semi) k' s0 x). exists body, (dq :: w ++ semi :: t). split; [reflexivity|]. split; [apply Forall_forall; intros b Hb; apply in_but; intros ->; contradiction|]. split; [exact K|].
  intros u' v' E Hu L. unfold k'. rewrite close_at. assert (Nu : ~ In semi u') by (apply (no_semi_class _ _ Hu); destruct (in_class (but semi) semi) eqn:X; [apply in_but in X; contradiction|reflexivity]).
  assert (E' : u' ++ v' = (body ++ dq :: w) ++ semi :: t) by (rewrite <- E; unfold s0; rewrite <- app_assoc; reflexivity).
  destruct (before_semi u' v' _ t E' Nu) as (x' & Ex & ->). destruct x' as [|b x']; cbn [app]; [reflexivity|].
  (* the rest of the section is a part of w *)
  assert (Hb : In b w).
  { clear - Ex L. revert u' L Ex. induction body as [|y body IH]; intros u' L Ex.
    - destruct u' as [|z u']; [cbn in L; lia|]. cbn in Ex. injection Ex as _ Ex. rewrite Ex. apply in_or_app. right. left. reflexivity.
    - destruct u' as [|z u']; [cbn in L; lia|]. cbn in Ex. injection Ex as -> Ex. apply (IH u'); [cbn in L; lia|exact Ex]. }
  unfold all_in in Hw. rewrite Forall_forall in Hw. specialize (Hw b Hb). apply in_ws in Hw. rewrite eqb_ne; [reflexivity|]. intros ->. destruct Hw as [H|[H|[H|H]]]; discriminate.
Qed.
Lemma quoted_body_inv {A} (k : bytes -> caps -> option A) sec rest cs x : ~ In semi sec -> exec (RSeq body_re close_re) (sec ++ semi :: rest) cs k = Some x ->
  exists body w, sec = body ++ dq :: w /\ all_in c_ws w.
Proof.
  intros N H. unfold body_re in H. cbn [exec] in H. apply star_greedy_some in H. destruct H as (u & v & E & Hu & K & _).
  assert (Nu : ~ In semi u) by (apply (no_semi_class _ _ Hu); destruct (in_class (but semi) semi) eqn:X; [apply in_but in X; contradiction|reflexivity]).
  destruct (before_semi u v sec rest (eq_sym E) Nu) as (v' & -> & ->). rewrite close_at in K. destruct v' as [|b v']; cbn [app] in K; [rewrite (eqb_ne semi dq) in K by discriminate; discriminate|].
  destruct (Byte.eqb b dq) eqn:Eb; [|discriminate]. apply Byte.byte_dec_bl in Eb. subst b. exists u, v'. split; [reflexivity|].
  destruct (dropc c_ws (v' ++ semi :: rest)) as [|b t] eqn:Ed; [discriminate|]. destruct (Byte.eqb b semi) eqn:Eb; [|discriminate]. apply Byte.byte_dec_bl in Eb. subst b.
  assert (Td := take_drop c_ws (v' ++ semi :: rest)). destruct (before_semi _ _ v' rest (eq_sym Td) (ws_no_semi _ (takec_all _ _))) as (y & Ey & Ez). rewrite Ed in Ez.
  destruct y as [|b y]; [rewrite app_nil_r in Ey; rewrite Ey; apply takec_all|]. exfalso. cbn in Ez. injection Ez as Eb _. apply N. apply in_or_app. right. right. rewrite Ey. apply in_or_app. right. left. symmetry. exact Eb.
Qed.
Lemma quote_part {A} (k : bytes -> caps -> option A) s cs : exec quote_re s cs k = match dropc c_ws s with b :: t => if Byte.eqb b dq then exec (RSeq body_re close_re) t cs k else None | [] => None end.
Proof.
  unfold quote_re. set (R := RSeq body_re close_re).
  change (star_lazy c_ws (fun t => exec (ROne c_dq) t cs (fun t' cs' => exec R t' cs' k)) s = match dropc c_ws s with b :: t => if Byte.eqb b dq then exec R t cs k else None | [] => None end).
  rewrite (star_lazy_det c_ws).
  - apply (one_lit dq).
  - intros b t H. unfold c_dq. rewrite one_lit. rewrite eqb_ne; [reflexivity|]. intros ->. apply in_ws in H. destruct H as [H|[H|[H|H]]]; discriminate.
Qed.
Section Quoted.
Variables (N : re) (hs : list cls) (c : cls).
Hypothesis HN : names_re N hs c.
Hypothesis Hws : forall b, in_class c b = true -> in_class c_ws b = false.
Hypothesis Hcolon : in_class c colon = false.
Hypothesis Hsemi : in_class c semi = false /\ Forall (fun h => in_class h semi = false) hs.
Lemma quoted_some sec rest m : ~ In semi sec ->
  (match_at (quoted_re N) (sec ++ semi :: rest) = Some m <-> exists x, opens_quoted (is_nm hs c) sec x /\ m = {| m_text := sec ++ [semi]; m_caps := [(2, snd x); (1, fst x)] |}).
Proof.
  intros Ns. unfold match_at, quoted_re. rewrite (name_colon N hs c HN Hws Hcolon).
  set (k := fun (t : bytes) (cs : caps) => Some {| m_text := firstn (length (sec ++ semi :: rest) - length t) (sec ++ semi :: rest); m_caps := cs |}).
  assert (G : forall n w w2 body w3, sec = n ++ w ++ colon :: w2 ++ dq :: body ++ dq :: w3 -> is_nm hs c n -> all_in c_ws w -> all_in c_ws w2 -> all_in c_ws w3 ->
    match heads hs c (sec ++ semi :: rest) with
    | Some (n, u) => match dropc c_ws u with b :: t => if Byte.eqb b colon then exec quote_re t [(1, n)] k else None | [] => None end
    | None => None end = Some {| m_text := sec ++ [semi]; m_caps := [(2, body); (1, n)] |}).
  { intros n w w2 body w3 E Hn Hw Hw2 Hw3.
    assert (Nb : ~ In semi body) by (intros K; apply Ns; rewrite E; do 2 (apply in_or_app; right); right; apply in_or_app; right; right; apply in_or_app; left; exact K).
    assert (E1 : sec ++ semi :: rest = n ++ w ++ colon :: w2 ++ dq :: body ++ dq :: w3 ++ semi :: rest) by (rewrite E; repeat (rewrite <- !app_assoc; cbn [app]); reflexivity).
    rewrite (heads_at hs c n (w ++ colon :: w2 ++ dq :: body ++ dq :: w3 ++ semi :: rest) _ E1 Hn (stops_ws_colon c Hws Hcolon w _ Hw)).
    rewrite (drop_ws_colon w _ Hw), eqb_refl, quote_part. rewrite (proj2 (span_unique c_ws w2 (dq :: body ++ dq :: w3 ++ semi :: rest) Hw2 eq_refl)), eqb_refl.
    rewrite quoted_body; [|intros ? ?; discriminate|exact Nb|exact Hw3]. unfold k. f_equal. f_equal.
    replace (sec ++ semi :: rest) with ((sec ++ [semi]) ++ rest) by (rewrite <- app_assoc; reflexivity). apply firstn_diff. }
  split.
  - intros H. destruct (heads hs c (sec ++ semi :: rest)) as [[n u]|] eqn:Eh; [|discriminate]. assert (Hh := proj1 (heads_some hs c _ n u) Eh). destruct Hh as (E & Hn & _).
    destruct (before_semi n u sec rest (eq_sym E) (nm_no_semi hs c Hsemi n Hn)) as (u' & Es & ->).
    assert (Td := take_drop c_ws (u' ++ semi :: rest)). destruct (before_semi _ _ u' rest (eq_sym Td) (ws_no_semi _ (takec_all _ _))) as (v & Eu & Ev).
    assert (H0 := H). rewrite Ev in H. destruct v as [|b v]; cbn [app] in H; [rewrite (eqb_ne semi colon) in H by discriminate; discriminate|]. destruct (Byte.eqb b colon) eqn:Eb; [|discriminate]. apply Byte.byte_dec_bl in Eb. subst b.
    rewrite quote_part in H. assert (Td2 := take_drop c_ws (v ++ semi :: rest)). destruct (before_semi _ _ v rest (eq_sym Td2) (ws_no_semi _ (takec_all _ _))) as (y & Ey & Ez). rewrite Ez in H.
    destruct y as [|b y]; cbn [app] in H; [rewrite (eqb_ne semi dq) in H by discriminate; discriminate|]. destruct (Byte.eqb b dq) eqn:Eb; [|discriminate]. apply Byte.byte_dec_bl in Eb. subst b.
    assert (Ny : ~ In semi y). { intros K. apply Ns. rewrite Es, Eu. do 2 (apply in_or_app; right). right. rewrite Ey. apply in_or_app. right. right. exact K. }
    destruct (quoted_body_inv _ _ _ _ _ Ny H) as (body & w3 & E3 & Hw3).
    assert (Efull : sec = n ++ takec c_ws (u' ++ semi :: rest) ++ colon :: takec c_ws (v ++ semi :: rest) ++ dq :: body ++ dq :: w3).
    { transitivity (n ++ u'); [exact Es|]. f_equal. transitivity (takec c_ws (u' ++ semi :: rest) ++ colon :: v); [exact Eu|]. f_equal. f_equal. transitivity (takec c_ws (v ++ semi :: rest) ++ dq :: y); [exact Ey|]. f_equal. f_equal. exact E3. }
    exists (n, body). cbn [fst snd]. split.
    + exists (takec c_ws (u' ++ semi :: rest)), (takec c_ws (v ++ semi :: rest)), w3. split; [exact Efull|]. split; [exact Hn|]. split; [|split]; apply (all_iff c_ws _ _ in_ws); try apply takec_all; exact Hw3.
    + specialize (G n _ _ body w3 Efull Hn (takec_all _ _) (takec_all _ _) Hw3). assert (K := eq_trans (eq_sym G) H0). injection K as <-. reflexivity.
  - intros ([n body] & (w & w2 & w3 & E & Hn & Hw & Hw2 & Hw3) & ->). cbn [fst snd] in *. apply (G n w w2 body w3 E Hn); apply (all_iff c_ws _ _ in_ws); assumption.
Qed.
Lemma quoted_none s : ~ In semi s -> match_at (quoted_re N) s = None.
Proof.
  intros Ns. unfold match_at, quoted_re. rewrite (name_colon N hs c HN Hws Hcolon). destruct (heads hs c s) as [[n u]|] eqn:E; [|reflexivity]. destruct (proj1 (heads_some hs c s n u) E) as (-> & _ & _).
  destruct (dropc c_ws u) as [|b t] eqn:Ed; [reflexivity|]. destruct (Byte.eqb b colon); [|reflexivity]. assert (Nt : ~ In semi t). { intros K. apply Ns. apply in_or_app. right. rewrite (take_drop c_ws u), Ed. apply in_or_app. right. right. exact K. }
  rewrite quote_part. destruct (dropc c_ws t) as [|b' t'] eqn:Ed'; [reflexivity|]. destruct (Byte.eqb b' dq); [|reflexivity].
  assert (Nt' : ~ In semi t'). { intros K. apply Nt. rewrite (take_drop c_ws t), Ed'. apply in_or_app. right. right. exact K. }
  unfold body_re. cbn [exec]. apply (greedy_fail _ _ _ (fun t => ~ In semi t)); [exact Nt'|apply no_semi_tail|]. intros v Hv. apply close_not. exact Hv.
Qed.
End Quoted.
