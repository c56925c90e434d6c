(* CardProofs.v - proofs for the cardinality properties. *)
From Coq Require Import Strings.String Strings.Byte Lia.
From Verif Require Import GoLemmas DomainModel DomainSpec CardModel Utf8Spec TrimProofs CardSpec.

(* ---- meaning ---- *)
Lemma is_valid_denotes c n : is_valid c n = true <-> denotes c n.
Proof.
  unfold is_valid, denotes. destruct c as [| | | |[k|a [b|]]]; cbn [delimiter specific_delimiter];
    rewrite ?andb_true_iff, ?N.leb_le; try lia.
Qed.
Lemma delimiter_interval c n : interval (delimiter c) n <-> denotes c n.
Proof.
  unfold interval, denotes. destruct c as [| | | |[k|a [b|]]]; cbn [delimiter specific_delimiter fst snd]; try lia.
Qed.
Lemma specific_is_valid_denotes s n : specific_is_valid s n = true <-> denotes (CSpecific s) n.
Proof. apply (is_valid_denotes (CSpecific s)). Qed.

(* ---- builders ---- *)
Lemma cb_run ops :
  (cb_opt (run cb_step cb_init ops) = true <-> cb_called op_optional ops) /\
  (cb_man (run cb_step cb_init ops) = true <-> cb_called op_mandatory ops) /\
  (cb_non (run cb_step cb_init ops) = true <-> cb_called op_nonzero ops) /\
  (cb_zero (run cb_step cb_init ops) = true <-> cb_called op_zero ops) /\
  cb_spec (run cb_step cb_init ops) = last_cb_specific ops.
Proof.
  unfold run, cb_called, last_cb_specific, last_call. induction ops as [|o ops IH] using rev_ind.
  - cbn. repeat split; discriminate.
  - rewrite !fold_left_app. cbn [fold_left]. destruct IH as (H1 & H2 & H3 & H4 & H5).
    destruct o; cbn; (split; [|split; [|split; [|split]]]); try assumption; try reflexivity; split; auto; discriminate.
Qed.
Lemma cb_exact ops c :
  cb_now (run cb_step cb_init ops) = Ok c <->
  match c with
  | COptional => cb_called op_optional ops
  | CMandatory => cb_called op_mandatory ops /\ ~ cb_called op_optional ops
  | CNonZero => cb_called op_nonzero ops /\ ~ cb_called op_optional ops /\ ~ cb_called op_mandatory ops
  | CZero => cb_called op_zero ops /\ ~ cb_called op_optional ops /\ ~ cb_called op_mandatory ops /\ ~ cb_called op_nonzero ops
  | CSpecific s => last_cb_specific ops = Some s /\ ~ cb_called op_optional ops /\ ~ cb_called op_mandatory ops
                   /\ ~ cb_called op_nonzero ops /\ ~ cb_called op_zero ops
  end.
Proof.
  destruct (cb_run ops) as (H1 & H2 & H3 & H4 & H5). unfold cb_now.
  destruct (cb_opt _), (cb_man _), (cb_non _), (cb_zero _), (cb_spec _), c; rewrite <- ?H5; intuition congruence.
Qed.
Lemma sp_run ops : run sp_step sp_init ops = {| spb_amount := last_sp_amount ops; spb_range := last_sp_range ops |}.
Proof.
  unfold run, last_sp_amount, last_sp_range, last_call. induction ops as [|o ops IH] using rev_ind; [reflexivity|].
  rewrite !fold_left_app. cbn [fold_left]. rewrite IH. destruct o; reflexivity.
Qed.
Lemma sp_exact ops s :
  sp_now (run sp_step sp_init ops) = Ok s <->
  match s with
  | SAmount n => last_sp_amount ops = Some n /\ (0 < n)%N
  | SRange min max => last_sp_amount ops = None /\ last_sp_range ops = Some (min, max)
  end.
Proof.
  rewrite sp_run. unfold sp_now. cbn [spb_amount spb_range].
  destruct (last_sp_amount ops) as [n|].
  - destruct (N.leb_spec n 0) as [L|L]; destruct s as [k|a b]; split; try discriminate.
    + intros [E ?]. injection E as <-. lia.
    + intros [E _]. discriminate E.
    + intros E. injection E as <-. split; [reflexivity|exact L].
    + intros [E _]. injection E as <-. reflexivity.
    + intros [E _]. discriminate E.
  - destruct (last_sp_range ops) as [[a b]|], s as [k|a' b']; split; try discriminate.
    + intros [E _]. discriminate E.
    + intros E. injection E as <- <-. auto.
    + intros [_ E]. injection E as <- <-. reflexivity.
    + intros [E _]. discriminate E.
    + intros [_ E]. discriminate E.
Qed.
Lemma rg_exact ops r :
  rg_now (run rg_step rg_init ops) = Ok r <->
  r = (match last_rg_min ops with Some n => n | None => 0%N end, last_rg_max ops).
Proof.
  assert (R : run rg_step rg_init ops = {| rgb_min := match last_rg_min ops with Some n => n | None => 0%N end; rgb_max := last_rg_max ops |}).
  { unfold run, last_rg_min, last_rg_max, last_call. induction ops as [|o ops IH] using rev_ind; [reflexivity|].
    rewrite !fold_left_app. cbn [fold_left]. rewrite IH. destruct o; reflexivity. }
  rewrite R. unfold rg_now. cbn [rgb_min rgb_max]. split; [intros E; injection E as <-; reflexivity | intros ->; reflexivity].
Qed.
Lemma empty_range_built : exists ops rops r s c,
  rg_now (run rg_step rg_init rops) = Ok r /\ sp_now (run sp_step sp_init [SPWithRange (Some r)]) = Ok s /\
  ops = [CBWithSpecific (Some s)] /\ cb_now (run cb_step cb_init ops) = Ok c /\ forall n, is_valid c n = false.
Proof.
  exists [CBWithSpecific (Some (SRange 5 (Some 3%N)))], [RGWithMinimum 5; RGWithMaximum 3]. do 3 eexists.
  do 4 (split; [reflexivity|]). intros n. apply not_true_iff_false. rewrite is_valid_denotes. cbn. lia.
Qed.

(* ---- text ---- *)

(* characters of an integer literal *)
Lemma bytes_uint_chars s d : bytes_uint s = Some d -> forallb is_digit s = true.
Proof.
  revert d. induction s as [|c s IH]; intros d; [reflexivity|]. cbn [bytes_uint forallb].
  destruct (bytes_uint s) as [e|]; [|discriminate]. rewrite (IH e eq_refl), andb_true_r.
  destruct c; intros H; try discriminate H; reflexivity.
Qed.
Lemma atoi_chars t z c : atoi t = Some z -> In c t -> is_digit c = true \/ c = "-"%byte \/ c = "+"%byte.
Proof.
  intros H Hc. destruct (forallb is_digit t) eqn:D.
  { left. rewrite forallb_forall in D. auto. }
  unfold atoi in H. destruct t as [|x t]; [destruct Hc|].
  assert (G : forall r, parse_digits r <> None -> forall y, In y r -> is_digit y = true).
  { intros r Hr y Hy. unfold parse_digits in Hr. destruct r as [|w r]; [destruct Hy|].
    destruct (bytes_uint (w :: r)) as [d|] eqn:E; [|contradiction Hr; reflexivity].
    apply bytes_uint_chars in E. rewrite forallb_forall in E. auto. }
  assert (K : ((x = "-"%byte \/ x = "+"%byte) /\ parse_digits t <> None) \/ parse_digits (x :: t) <> None).
  { revert H. destruct (parse_digits t) eqn:E1, (parse_digits (x :: t)) eqn:E2;
      try (intros; right; discriminate); destruct x; intros H; cbv beta iota in H; rewrite ?E1, ?E2 in H;
      (left; split; [auto; fail | discriminate]) || discriminate H. }
  destruct K as [[K P]|K].
  - destruct Hc as [<-|Hc]; [right; exact K | left; eapply G; eassumption].
  - left. eapply G; eassumption.
Qed.
Lemma atoi_no t z c : atoi t = Some z -> is_digit c = false -> c <> "-"%byte -> c <> "+"%byte -> ~ In c t.
Proof. intros H H1 H2 H3 Hi. destruct (atoi_chars _ _ _ H Hi) as [E|[E|E]]; congruence. Qed.
Lemma atoi_nonempty t z : atoi t = Some z -> t <> [].
Proof. intros H ->. discriminate H. Qed.

(* stripping the braces *)
Definition strip (t : bytes) : bytes :=
  let u := if has_prefix [lbrace] t then tl t else t in
  if has_suffix [rbrace] t then removelast u else u.

Lemma has_prefix1 c t : has_prefix [c] t = true <-> exists r, t = c :: r.
Proof. rewrite has_prefix_spec. reflexivity. Qed.
Lemma has_suffix1 c t : has_suffix [c] t = true <-> exists r, t = r ++ [c].
Proof.
  unfold has_suffix. cbn [rev app]. rewrite has_prefix1. split; intros [r E].
  - exists (rev r). apply (f_equal (@rev byte)) in E. rewrite rev_involutive in E. exact E.
  - exists (rev r). rewrite E, rev_app_distr. reflexivity.
Qed.
Lemma strip_decomp t : exists l r, (l = bs "{" \/ l = []) /\ (r = bs "}" \/ r = []) /\ t = l ++ strip t ++ r.
Proof.
  unfold strip. destruct (has_prefix [lbrace] t) eqn:P; destruct (has_suffix [rbrace] t) eqn:S.
  - apply has_prefix1 in P. apply has_suffix1 in S. destruct P as (u & Eu), S as (v & Ev).
    exists (bs "{"), (bs "}"). split; [auto|]. split; [auto|].
    subst t. cbn [tl]. destruct v as [|y v]; [discriminate Ev|]. cbn [app] in Ev. injection Ev as <- Ev.
    rewrite Ev, removelast_last. reflexivity.
  - apply has_prefix1 in P. destruct P as (u & ->). exists (bs "{"), []. cbn [tl]. rewrite app_nil_r. auto.
  - apply has_suffix1 in S. destruct S as (v & ->). exists [], (bs "}"). rewrite removelast_last. auto.
  - exists [], []. rewrite app_nil_r. auto.
Qed.
Lemma strip_body l body r : (l = bs "{" \/ l = []) -> (r = bs "}" \/ r = []) -> body <> [] ->
  ~ In lbrace body -> ~ In rbrace body -> strip (l ++ body ++ r) = body.
Proof.
  intros Hl Hr Hb N1 N2. unfold strip.
  assert (P : has_prefix [lbrace] (l ++ body ++ r) = match l with [] => false | _ => true end).
  { destruct Hl as [-> | ->]; [reflexivity|]. apply not_true_iff_false. rewrite has_prefix1. intros (u & E).
    destruct body as [|y body]; [contradiction|]. cbn in E. injection E as -> _. apply N1. left; reflexivity. }
  assert (S : has_suffix [rbrace] (l ++ body ++ r) = match r with [] => false | _ => true end).
  { destruct Hr as [-> | ->].
    - apply has_suffix1. exists (l ++ body). rewrite <- app_assoc. reflexivity.
    - apply not_true_iff_false. rewrite has_suffix1. intros (u & E). rewrite app_nil_r in E.
      destruct (exists_last Hb) as (b0 & y & ->). rewrite app_assoc in E. apply app_inj_tail in E.
      destruct E as [_ ->]. apply N2. apply in_or_app. right; left; reflexivity. }
  rewrite P, S. destruct Hl as [-> | ->], Hr as [-> | ->]; cbn [app tl bs]; rewrite ?app_nil_r; try reflexivity.
  - apply removelast_last.
  - apply removelast_last.
Qed.

Lemma card_body_chars body s c : card_body body s -> In c body ->
  is_digit c = true \/ white_byte c \/ c = "-"%byte \/ c = "+"%byte \/ c = ","%byte.
Proof.
  intros H. destruct H as [t n (z & A & _) _|a min sp (z & A & _) Hs|a min b t max (z & A & _) Ht (z' & B & _)]; intros Hc.
  - destruct (atoi_chars _ _ _ A Hc) as [?|[?|?]]; auto.
  - apply in_app_or in Hc. destruct Hc as [Hc|Hc]; [destruct (atoi_chars _ _ _ A Hc) as [?|[?|?]]; auto|].
    apply in_app_or in Hc. destruct Hc as [[<-|[]]|Hc]; [auto 10|].
    right. left. apply white_text_bytes in Hs. rewrite Forall_forall in Hs. auto.
  - apply in_app_or in Hc. destruct Hc as [Hc|Hc]; [destruct (atoi_chars _ _ _ A Hc) as [?|[?|?]]; auto|].
    apply in_app_or in Hc. destruct Hc as [[<-|[]]|Hc]; [auto 10|].
    destruct (trim_space_in _ _ Hc) as [?|X]; [auto|]. apply trim_space_iff in Ht. rewrite Ht in X. destruct (atoi_chars _ _ _ B X) as [?|[?|?]]; auto.
Qed.
Lemma card_body_nonempty body s : card_body body s -> body <> [].
Proof.
  intros H. destruct H as [t n (z & A & _) _|a min sp _ _|a min b t max _ _ _]; intros E.
  - subst. discriminate A.
  - apply app_eq_nil in E. destruct E as [_ E]. discriminate E.
  - apply app_eq_nil in E. destruct E as [_ E]. discriminate E.
Qed.

(* parsing what is inside the braces *)
Definition parse_body (body : bytes) : res specific :=
  match strsplit [comma] body with
  | [a] =>
    match atoi a with
    | None => Err
    | Some z => sp_now (run sp_step sp_init [SPWithAmount (to_uint64 z)])
    end
  | [a; b] =>
    match atoi a with
    | None => Err
    | Some min =>
      let t := trim_space b in
      match t with
      | [] =>
        let* r := rg_now (run rg_step rg_init [RGWithMinimum (to_uint64 min)]) in
        sp_now (run sp_step sp_init [SPWithRange (Some r)])
      | _ =>
        match atoi t with
        | None => Err
        | Some max =>
          let* r := rg_now (run rg_step rg_init [RGWithMinimum (to_uint64 min); RGWithMaximum (to_uint64 max)]) in
          sp_now (run sp_step sp_init [SPWithRange (Some r)])
        end
      end
    end
  | _ => sp_now (run sp_step sp_init [])
  end.
Lemma to_specific_trimmed t : trim_space t = t -> to_specific t = parse_body (strip t).
Proof. intros H. unfold to_specific. rewrite H. reflexivity. Qed.

Lemma parse_body_total body : parse_body body = Err \/ exists s, parse_body body = Ok s.
Proof.
  unfold parse_body. destruct (strsplit [comma] body) as [|a [|b [|c l]]]; auto.
  - destruct (atoi a); auto. cbn. destruct (_ <=? _)%N; eauto.
  - destruct (atoi a); auto. cbv zeta. destruct (trim_space b) eqn:T; [cbn; eauto|]. destruct (atoi _); auto. cbn. eauto.
Qed.
Lemma parse_body_exact body s : parse_body body = Ok s <-> card_body body s.
Proof.
  split.
  - unfold parse_body. destruct (strsplit [comma] body) as [|a [|b [|c l]]] eqn:E; try discriminate.
    + assert (J : join [comma] (strsplit [comma] body) = body) by (apply join_split; discriminate).
      rewrite E in J. cbn in J. subst a.
      destruct (atoi body) as [z|] eqn:A; [|discriminate]. cbn. destruct (N.leb_spec (to_uint64 z) 0); [discriminate|].
      intros X; injection X as <-. constructor; [exists z; auto | lia].
    + assert (J : join [comma] (strsplit [comma] body) = body) by (apply join_split; discriminate).
      rewrite E in J. cbn [join] in J. subst body.
      destruct (atoi a) as [z|] eqn:A; [|discriminate]. cbv zeta.
      destruct (trim_space b) as [|x t] eqn:T.
      * cbn. intros X; injection X as <-. apply body_from; [exists z; auto | apply trim_blank; exact T].
      * destruct (atoi (x :: t)) as [z'|] eqn:B; [|discriminate]. cbn. intros X; injection X as <-.
        apply (body_range a _ b (x :: t)); [exists z; auto | apply trim_space_iff; exact T | exists z'; auto].
  - intros H. assert (NC : forall t z, atoi t = Some z -> ~ In comma t).
    { intros t z A. eapply atoi_no; [exact A|..]; try reflexivity; discriminate. }
    destruct H as [t n (z & A & ->) Hn|a min sp (z & A & ->) Hs|a min b t max (z & A & ->) Ht (z' & B & ->)]; unfold parse_body.
    + rewrite split1_none by eauto. rewrite A. cbn. destruct (N.leb_spec (to_uint64 z) 0); [lia|reflexivity].
    + change (bs ",") with [comma]. rewrite split1_cons by eauto. rewrite split1_none.
      * rewrite A. cbv zeta. rewrite (proj2 (trim_blank sp) Hs). reflexivity.
      * intros X. apply white_text_bytes in Hs. rewrite Forall_forall in Hs. destruct (Hs _ X) as [Y|Y]; [discriminate Y|cbn in Y; lia].
    + change (bs ",") with [comma]. rewrite split1_cons by eauto. rewrite split1_none.
      * rewrite A. cbv zeta. apply trim_space_iff in Ht. rewrite Ht. destruct t as [|x t]; [discriminate B|]. rewrite B. reflexivity.
      * intros X. apply trim_space_iff in Ht. destruct (trim_space_in _ _ X) as [[Y|Y]|Y]; [discriminate Y|cbn in Y; lia|rewrite Ht in Y; eapply NC; eassumption].
Qed.

Lemma strip_exact t s : parse_body (strip t) = Ok s <-> specific_text t s.
Proof.
  split.
  - intros H. apply parse_body_exact in H. destruct (strip_decomp t) as (l & r & Hl & Hr & E). exists l, (strip t), r. auto.
  - intros (l & body & r & Hl & Hr & -> & Hb). rewrite strip_body; try assumption.
    + apply parse_body_exact. exact Hb.
    + eapply card_body_nonempty; eassumption.
    + intros X. destruct (card_body_chars _ _ _ Hb X) as [E|[[E|E]|[E|[E|E]]]]; try discriminate E; cbn in E; lia.
    + intros X. destruct (card_body_chars _ _ _ Hb X) as [E|[[E|E]|[E|[E|E]]]]; try discriminate E; cbn in E; lia.
Qed.

Lemma to_cardinality_exact' s c : to_cardinality s = Ok c <-> card_text (trim_space s) c.
Proof.
  unfold to_cardinality. cbv zeta. set (t := trim_space s).
  assert (Ht : trim_space t = t) by apply trim_space_idem. clearbody t.
  assert (SP : forall x, bytes_eqb t x = false -> t <> x) by (intros x; apply bytes_eqb_neq).
  split.
  - destruct (bytes_eqb t (bs "+")) eqn:E1; [apply bytes_eqb_eq in E1; subst; cbn; intros X; injection X as <-; constructor|].
    destruct (bytes_eqb t (bs "*")) eqn:E2; [apply bytes_eqb_eq in E2; subst; cbn; intros X; injection X as <-; constructor|].
    destruct (bytes_eqb t (bs "?")) eqn:E3; [apply bytes_eqb_eq in E3; subst; cbn; intros X; injection X as <-; constructor|].
    rewrite to_specific_trimmed by exact Ht.
    destruct (parse_body (strip t)) as [x| | |] eqn:P; try discriminate. cbn. intros X; injection X as <-.
    apply strip_exact in P. constructor. exact P.
  - intros H. inversion H as [E|E|E|t' x Hb E Ec]; subst c; try (rewrite <- E in *; reflexivity).
    assert (P : parse_body (strip t) = Ok x) by (apply strip_exact; exact Hb).
    assert (NE : forall y, In y [bs "+"; bs "*"; bs "?"] -> t <> y).
    { intros y Hy ->. destruct Hy as [<-|[<-|[<-|[]]]]; discriminate P. }
    rewrite (proj2 (bytes_eqb_neq t (bs "+"))) by (apply NE; cbn; auto).
    rewrite (proj2 (bytes_eqb_neq t (bs "*"))) by (apply NE; cbn; auto).
    rewrite (proj2 (bytes_eqb_neq t (bs "?"))) by (apply NE; cbn; auto).
    rewrite to_specific_trimmed, P by exact Ht. reflexivity.
Qed.
Lemma to_cardinality_exact s c : to_cardinality s = Ok c <-> cardinality_text s c.
Proof.
  rewrite to_cardinality_exact'. split; [intros H; exists (trim_space s); split; [apply trim_space_trimmed|exact H]|]. intros (t & T & H). apply trim_space_iff in T. rewrite T. exact H.
Qed.
Lemma to_specific_exact t s : trimmed t t -> (to_specific t = Ok s <-> specific_text t s).
Proof. intros H. apply trim_space_iff in H. rewrite to_specific_trimmed by exact H. apply strip_exact. Qed.
Lemma to_cardinality_total s : to_cardinality s = Err \/ exists c, to_cardinality s = Ok c.
Proof.
  unfold to_cardinality. cbv zeta.
  destruct (bytes_eqb _ _); [cbn; eauto|]. destruct (bytes_eqb _ _); [cbn; eauto|]. destruct (bytes_eqb _ _); [cbn; eauto|].
  rewrite to_specific_trimmed by apply trim_space_idem.
  destruct (parse_body_total (strip (trim_space s))) as [-> |(x & ->)]; cbn; eauto.
Qed.

(* round trip *)
Definition below (b : N) (c : cardinality) : Prop :=
  match c with
  | CSpecific (SAmount n) => (n < b)%N
  | CSpecific (SRange a m) => (a < b)%N /\ match m with Some m => (m < b)%N | None => True end
  | _ => True
  end.
Lemma integer_itoa n : (n < 2 ^ 63)%N -> integer (itoa n) n.
Proof. intros H. exists (Z.of_N n). split; [apply atoi_itoa; exact H | symmetry; apply to_uint64_of_N; lia]. Qed.
Lemma trim_itoa n : trim_space (itoa n) = itoa n.
Proof.
  apply trim_space_id. intros c Hc. apply digit_plain.
  pose proof (itoa_digits n) as D. rewrite forallb_forall in D. auto.
Qed.
Lemma braces_trim b : trim_space ([lbrace] ++ b ++ [rbrace]) = [lbrace] ++ b ++ [rbrace].
Proof.
  apply trim_space_id2.
  - intros c r E. injection E as <- _. split; reflexivity.
  - intros a c E. rewrite app_assoc in E. apply app_inj_tail in E. destruct E as [_ <-]. split; reflexivity.
Qed.
Lemma card_round_trip c : c <> CMandatory -> c <> CSpecific (SAmount 0) -> below (2 ^ 63) c ->
  exists t, to_pattern_string c = Ok t /\ to_cardinality t = Ok c.
Proof.
  intros Hm Hz Hb. destruct c as [| | | |s].
  - exists (bs "?"). split; reflexivity.
  - contradiction.
  - exists (bs "+"). split; reflexivity.
  - exists (bs "*"). split; reflexivity.
  - exists (specific_pattern s). split; [reflexivity|]. apply to_cardinality_exact'.
    destruct s as [n|a [m|]]; cbn [specific_pattern below] in *.
    + rewrite braces_trim. apply text_specific. exists [lbrace], (itoa n), [rbrace]. do 3 (split; [auto|]). constructor; [apply integer_itoa; exact Hb | congruence].
    + destruct Hb as [Ha Hm']. replace ([lbrace] ++ itoa a ++ [comma] ++ itoa m ++ [rbrace]) with ([lbrace] ++ (itoa a ++ [comma] ++ itoa m) ++ [rbrace])
        by (rewrite <- !app_assoc; reflexivity).
      rewrite braces_trim. apply text_specific. exists [lbrace], (itoa a ++ [comma] ++ itoa m), [rbrace]. do 3 (split; [auto|]). apply (body_range _ _ _ (itoa m)); [apply integer_itoa; exact Ha | apply trim_space_iff; apply trim_itoa | apply integer_itoa; exact Hm'].
    + destruct Hb as [Ha _]. replace ([lbrace] ++ itoa a ++ [comma] ++ [rbrace]) with ([lbrace] ++ (itoa a ++ [comma] ++ []) ++ [rbrace])
        by (rewrite <- !app_assoc; reflexivity).
      rewrite braces_trim. apply text_specific. exists [lbrace], (itoa a ++ [comma] ++ []), [rbrace]. do 3 (split; [auto|]). apply body_from; [apply integer_itoa; exact Ha | constructor].
Qed.
Lemma card_zero_amount : to_pattern_string (CSpecific (SAmount 0)) = Ok (bs "{0}") /\ to_cardinality (bs "{0}") = Err.
Proof. split; reflexivity. Qed.
Lemma to_specific_untrimmed : to_specific (bs "{3}") = Ok (SAmount 3) /\ to_specific (bs " {3}") = Err.
Proof. split; reflexivity. Qed.
Lemma card_negative : to_cardinality (bs "{-1}") = Ok (CSpecific (SAmount (2 ^ 64 - 1))).
Proof. reflexivity. Qed.
