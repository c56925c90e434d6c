(* GoLemmas.v - facts about Go.v *)
From Coq Require Import Init.Decimal Numbers.DecimalN Numbers.DecimalFacts Numbers.DecimalPos.
From Coq Require Import Strings.Byte Strings.String.
From Coq Require Import Lia ZifyBool ZifyNat ZifyN.
From Verif Require Export Go.
From Coq Require Import List.
Ltac Zify.zify_post_hook ::= Z.div_mod_to_equations.

Lemma byte_eqb_eq x y : Byte.eqb x y = true <-> x = y.
Proof.
  split; intros H.
  - apply Byte.byte_dec_bl; exact H.
  - subst; apply Byte.byte_dec_lb; reflexivity.
Qed.

Lemma byte_eqb_refl x : Byte.eqb x x = true.
Proof. apply byte_eqb_eq; reflexivity. Qed.

Lemma byte_eq_dec (x y : byte) : {x = y} + {x <> y}.
Proof. destruct (Byte.eqb x y) eqn:E; [left; apply byte_eqb_eq; exact E | right; intros ->; rewrite byte_eqb_refl in E; discriminate]. Qed.

Lemma bytes_eqb_eq a b : bytes_eqb a b = true <-> a = b.
Proof.
  revert b; induction a as [|x a IH]; intros [|y b]; cbn [bytes_eqb]; split; intros H;
    try reflexivity; try discriminate.
  - apply andb_true_iff in H; destruct H as [H1 H2].
    apply byte_eqb_eq in H1; apply IH in H2; subst; reflexivity.
  - injection H as -> ->. rewrite byte_eqb_refl. apply IH; reflexivity.
Qed.

Lemma bytes_eqb_refl a : bytes_eqb a a = true.
Proof. apply bytes_eqb_eq; reflexivity. Qed.

Lemma bytes_eqb_neq a b : bytes_eqb a b = false <-> a <> b.
Proof.
  split; intros H.
  - intros ->. rewrite bytes_eqb_refl in H; discriminate.
  - destruct (bytes_eqb a b) eqn:E; [apply bytes_eqb_eq in E; contradiction | reflexivity].
Qed.

Lemma bytes_eq_dec (a b : bytes) : {a = b} + {a <> b}.
Proof. apply list_eq_dec, byte_eq_dec. Qed.

Lemma has_prefix_spec p s : has_prefix p s = true <-> exists r, s = p ++ r.
Proof.
  revert s; induction p as [|x p IH]; intros s; cbn [has_prefix].
  - split; [intros _; exists s; reflexivity | reflexivity].
  - destruct s as [|y s].
    + split; [discriminate | intros [r H]; discriminate].
    + rewrite andb_true_iff, byte_eqb_eq, IH. split.
      * intros [-> [r ->]]. exists r; reflexivity.
      * intros [r H]. injection H as -> ->. split; [reflexivity | exists r; reflexivity].
Qed.

Lemma has_prefix_app p r : has_prefix p (p ++ r) = true.
Proof. apply has_prefix_spec; exists r; reflexivity. Qed.

Lemma has_prefix_firstn p s : has_prefix p s = true -> firstn (length p) s = p /\ s = p ++ skipn (length p) s.
Proof.
  intros H; apply has_prefix_spec in H; destruct H as [r ->].
  rewrite firstn_app, skipn_app, Nat.sub_diag, firstn_all, skipn_all. cbn.
  rewrite app_nil_r. split; reflexivity.
Qed.

Lemma has_prefix_length p s : has_prefix p s = true -> length p <= length s.
Proof. intros H; apply has_prefix_spec in H; destruct H as [r ->]. rewrite app_length; lia. Qed.

(* ---- bytes and numbers ---- *)
Lemma to_N_bound b : (Byte.to_N b < 256)%N.
Proof. pose proof (Byte.to_N_bounded b). lia. Qed.

Lemma byte_of_to_N b : byte_of_N (Byte.to_N b) = b.
Proof. unfold byte_of_N. rewrite Byte.of_to_N. reflexivity. Qed.

Lemma to_of_N n : (n < 256)%N -> Byte.to_N (byte_of_N n) = n.
Proof.
  intros H. unfold byte_of_N. destruct (Byte.of_N n) as [b|] eqn:E.
  - apply Byte.to_of_N in E. exact E.
  - apply Byte.of_N_None_iff in E. lia.
Qed.

(* ---- hex ---- *)
Lemma unhex_hex_digit n : (n < 16)%N -> unhex (hex_digit n) = Some n.
Proof.
  intros H.
  assert (n = 0 \/ n = 1 \/ n = 2 \/ n = 3 \/ n = 4 \/ n = 5 \/ n = 6 \/ n = 7 \/
          n = 8 \/ n = 9 \/ n = 10 \/ n = 11 \/ n = 12 \/ n = 13 \/ n = 14 \/ n = 15)%N as D by lia.
  repeat (destruct D as [-> | D]; [reflexivity|]). rewrite D; reflexivity.
Qed.

Lemma unhex_bound b n : unhex b = Some n -> (n < 16)%N.
Proof.
  unfold unhex. intros H.
  destruct ((48 <=? Byte.to_N b) && (Byte.to_N b <=? 57))%N eqn:E1.
  - apply andb_true_iff in E1; destruct E1 as [A B].
    apply N.leb_le in A; apply N.leb_le in B. injection H as <-. lia.
  - destruct ((97 <=? Byte.to_N b) && (Byte.to_N b <=? 102))%N eqn:E2.
    + apply andb_true_iff in E2; destruct E2 as [A B].
      apply N.leb_le in A; apply N.leb_le in B. injection H as <-. lia.
    + destruct ((65 <=? Byte.to_N b) && (Byte.to_N b <=? 70))%N eqn:E3; [|discriminate].
      apply andb_true_iff in E3; destruct E3 as [A B].
      apply N.leb_le in A; apply N.leb_le in B. injection H as <-. lia.
Qed.

Lemma hex_round_trip s : hex_decode (hex_encode s) = Some s.
Proof.
  induction s as [|b s IH]; [reflexivity|].
  cbn [hex_encode hex_decode]. pose proof (to_N_bound b) as Hb.
  rewrite !unhex_hex_digit, IH.
  - f_equal. f_equal. rewrite <- (byte_of_to_N b) at 3. f_equal.
    symmetry; apply N.div_mod; discriminate.
  - apply N.mod_upper_bound; discriminate.
  - apply N.div_lt_upper_bound; [discriminate | lia].
Qed.

Lemma hex_encode_inj a b : hex_encode a = hex_encode b -> a = b.
Proof. intros H. pose proof (hex_round_trip a) as Ha. rewrite H, hex_round_trip in Ha. injection Ha as ->. reflexivity. Qed.

Lemma hex_encode_length s : length (hex_encode s) = 2 * length s.
Proof. induction s as [|b s IH]; cbn [hex_encode length]; lia. Qed.

Definition is_hex (b : byte) : bool := match unhex b with Some _ => true | None => false end.

Lemma hex_decode_dec s :
  (exists t, hex_decode s = Some t) <-> (Nat.even (length s) = true /\ forallb is_hex s = true).
Proof.
  enough (H : forall n s, length s <= n ->
    ((exists t, hex_decode s = Some t) <-> (Nat.even (length s) = true /\ forallb is_hex s = true))).
  { apply (H (length s)); lia. }
  clear s; induction n as [|n IH]; intros s Hn.
  - destruct s; cbn in Hn; [|lia]. split; [intros _; split; reflexivity | intros _; exists []; reflexivity].
  - destruct s as [|a [|b r]].
    + split; [intros _; split; reflexivity | intros _; exists []; reflexivity].
    + cbn. split; [intros [t H]; discriminate | intros [H _]; discriminate].
    + cbn [hex_decode forallb length Nat.even]. specialize (IH r).
      cbn [length] in Hn. assert (length r <= n) as Hr by lia. specialize (IH Hr).
      unfold is_hex at 1 2.
      destruct (unhex a), (unhex b); cbn [andb].
      * destruct (hex_decode r) as [t|].
        -- split; [intros _; apply IH; exists t; reflexivity | intros _; eexists; reflexivity].
        -- split; [intros [t H]; discriminate |].
           intros H. apply IH in H. destruct H as [t H]; discriminate.
      * split; [intros [t H]; discriminate | intros [_ H]; discriminate].
      * split; [intros [t H]; discriminate | intros [_ H]; discriminate].
      * split; [intros [t H]; discriminate | intros [_ H]; discriminate].
Qed.

Lemma hex_digit_lower n : (n < 16)%N -> is_hex (hex_digit n) = true.
Proof. intros H. unfold is_hex. rewrite unhex_hex_digit by exact H. reflexivity. Qed.

(* ---- decimal ---- *)
Lemma bytes_uint_bytes d : bytes_uint (uint_bytes d) = Some d.
Proof. induction d as [|d IH|d IH|d IH|d IH|d IH|d IH|d IH|d IH|d IH|d IH]; cbn; try rewrite IH; reflexivity. Qed.

Lemma uint_bytes_nonempty n : itoa n <> [].
Proof.
  unfold itoa. destruct n as [|p]; cbn; [discriminate|].
  destruct (Pos.to_uint p) eqn:E; cbn; try discriminate.
  exfalso. exact (DecimalPos.Unsigned.to_uint_nonnil p E).
Qed.

Lemma parse_itoa n : parse_digits (itoa n) = Some n.
Proof.
  unfold parse_digits. destruct (itoa n) eqn:E; [exfalso; exact (uint_bytes_nonempty n E)|].
  rewrite <- E. unfold itoa. rewrite bytes_uint_bytes. cbn [option_map].
  rewrite DecimalN.Unsigned.of_to. reflexivity.
Qed.

Lemma itoa_inj a b : itoa a = itoa b -> a = b.
Proof. intros H. pose proof (parse_itoa a) as Ha. rewrite H, parse_itoa in Ha. injection Ha as ->. reflexivity. Qed.

Definition is_digit (b : byte) : bool := ((48 <=? Byte.to_N b) && (Byte.to_N b <=? 57))%N.

Lemma uint_bytes_digits d : forallb is_digit (uint_bytes d) = true.
Proof. induction d; cbn; auto. Qed.

Lemma itoa_digits n : forallb is_digit (itoa n) = true.
Proof. apply uint_bytes_digits. Qed.

Lemma itoa_head n : exists c r, itoa n = c :: r /\ is_digit c = true.
Proof.
  pose proof (itoa_digits n) as H. pose proof (uint_bytes_nonempty n) as H0.
  destruct (itoa n) as [|c r]; [contradiction|]. exists c, r. split; [reflexivity|].
  cbn in H. apply andb_true_iff in H. apply H.
Qed.

Lemma atoi_digits s : forallb is_digit s = true ->
  atoi s = match parse_digits s with
           | None => None
           | Some n => if (n <? 2 ^ 63)%N then Some (Z.of_N n) else None
           end.
Proof.
  intros H. unfold atoi. destruct s as [|c r]; [reflexivity|].
  cbn [forallb] in H. apply andb_true_iff in H; destruct H as [Hc _].
  destruct c; cbn in Hc; try discriminate Hc; reflexivity.
Qed.

Lemma atoi_itoa n : (n < 2 ^ 63)%N -> atoi (itoa n) = Some (Z.of_N n).
Proof.
  intros H. rewrite atoi_digits by apply itoa_digits. rewrite parse_itoa.
  apply N.ltb_lt in H. rewrite H. reflexivity.
Qed.

Lemma to_uint64_of_N n : (n < 2 ^ 64)%N -> to_uint64 (Z.of_N n) = n.
Proof.
  intros H. unfold to_uint64. rewrite Z.mod_small; [apply N2Z.id|].
  change (2^64)%N with 18446744073709551616%N in H.
  change (2^64)%Z with 18446744073709551616%Z. lia.
Qed.

(* itoa on int(n) *)
Lemma itoaZ_of_N n : itoaZ (Z.of_N n) = itoa n.
Proof. destruct n; reflexivity. Qed.

Lemma itoaZ_inj a b : itoaZ a = itoaZ b -> a = b.
Proof.
  assert (D : forall n r, itoa n <> "-"%byte :: r).
  { intros n r H. destruct (itoa_head n) as (c & t & E & Hd). rewrite H in E.
    injection E as <- _. discriminate Hd. }
  unfold itoaZ. destruct a as [|p|p], b as [|q|q]; intros H; try reflexivity;
    try (exfalso; eapply D; eauto; fail); try (exfalso; eapply D; symmetry; eauto; fail);
    cbn [Z.to_N] in H.
  - apply itoa_inj in H. discriminate.
  - apply itoa_inj in H. discriminate.
  - apply itoa_inj in H. congruence.
  - injection H as H. apply itoa_inj in H. congruence.
Qed.

(* ---- split / join ---- *)
Lemma split_go_skip sep k cur s : k <= length s ->
  split_go sep k cur s = split_go sep 0 cur (skipn k s).
Proof.
  revert s; induction k as [|k IH]; intros s Hk; [reflexivity|].
  destruct s as [|c r]; cbn in Hk; [lia|]. cbn [split_go skipn]. apply IH; lia.
Qed.

(* cutting at the first occurrence *)
Lemma split_go_first sep cur p r :
  sep <> [] ->
  (forall i, i < length p -> has_prefix sep (skipn i (p ++ sep ++ r)) = false) ->
  split_go sep 0 cur (p ++ sep ++ r) = rev (rev p ++ cur) :: split_go sep 0 [] r.
Proof.
  intros Hs. revert cur. induction p as [|c p IH]; intros cur Hno; cbn [app rev].
  - destruct sep as [|x sep]; [contradiction|]. cbn [app split_go].
    change (x :: sep ++ r) with ((x :: sep) ++ r). rewrite has_prefix_app. f_equal.
    rewrite split_go_skip by (cbn [length]; rewrite app_length; lia).
    cbn [length]. replace (S (length sep) - 1) with (length sep) by lia.
    rewrite skipn_app, skipn_all, Nat.sub_diag. reflexivity.
  - cbn [split_go].
    pose proof (Hno 0 ltac:(cbn; lia)) as H0. cbn [skipn app] in H0. rewrite H0.
    rewrite IH.
    + rewrite <- app_assoc. reflexivity.
    + intros i Hi. apply (Hno (S i)). cbn; lia.
Qed.

(* no occurrence: one piece *)
Lemma split_go_none sep cur s :
  (forall i, i < length s -> has_prefix sep (skipn i s) = false) ->
  split_go sep 0 cur s = [rev cur ++ s].
Proof.
  revert cur; induction s as [|c r IH]; intros cur Hno; cbn [split_go].
  - rewrite app_nil_r; reflexivity.
  - pose proof (Hno 0 ltac:(cbn; lia)) as H0. cbn [skipn] in H0. rewrite H0, IH.
    + cbn [rev]. rewrite <- app_assoc. reflexivity.
    + intros i Hi. apply (Hno (S i)). cbn; lia.
Qed.

Lemma skipn_in {A} (l : list A) i x r : skipn i l = x :: r -> In x l.
Proof.
  intros H. rewrite <- (firstn_skipn i l), H. apply in_or_app; right; left; reflexivity.
Qed.

(* single-byte separator *)
Lemma no_sep_byte d p r i : ~ In d p -> i < length p -> has_prefix [d] (skipn i (p ++ r)) = false.
Proof.
  intros Hd Hi. rewrite skipn_app. destruct (skipn i p) as [|x t] eqn:E.
  - exfalso. assert (length (skipn i p) = 0) as L by (rewrite E; reflexivity).
    rewrite skipn_length in L. lia.
  - cbn [has_prefix app]. rewrite andb_true_r. apply skipn_in in E.
    destruct (Byte.eqb d x) eqn:B; [|reflexivity].
    apply byte_eqb_eq in B; subst; contradiction.
Qed.

Lemma split1_cons d p r : ~ In d p -> strsplit [d] (p ++ [d] ++ r) = p :: strsplit [d] r.
Proof.
  intros H. unfold strsplit. rewrite split_go_first; [| discriminate |].
  - rewrite app_nil_r, rev_involutive. reflexivity.
  - intros i Hi. apply no_sep_byte; assumption.
Qed.

Lemma split1_none d p : ~ In d p -> strsplit [d] p = [p].
Proof.
  intros H. unfold strsplit. rewrite split_go_none; [reflexivity|].
  intros i Hi. rewrite <- (app_nil_r p). apply no_sep_byte; assumption.
Qed.

Lemma split1_join d l : l <> [] -> (forall p, In p l -> ~ In d p) -> strsplit [d] (join [d] l) = l.
Proof.
  induction l as [|p l IH]; intros Hl Hd; [contradiction|].
  destruct l as [|q l].
  - cbn [join]. apply split1_none, Hd; left; reflexivity.
  - change (join [d] (p :: q :: l)) with (p ++ [d] ++ join [d] (q :: l)).
    rewrite split1_cons by (apply Hd; left; reflexivity). f_equal.
    apply IH; [discriminate | intros x Hx; apply Hd; right; exact Hx].
Qed.

(* split is inverted by join, for every non-empty separator *)
Lemma join_split_go sep cur s : sep <> [] ->
  exists x l, split_go sep 0 cur s = x :: l /\ join sep (x :: l) = rev cur ++ s.
Proof.
  intros Hs.
  enough (H : forall n cur s, length s <= n ->
    exists x l, split_go sep 0 cur s = x :: l /\ join sep (x :: l) = rev cur ++ s).
  { apply (H (length s)); lia. }
  clear cur s; induction n as [|n IH]; intros cur s Hn.
  - destruct s; cbn in Hn; [|lia]. exists (rev cur), []. cbn. rewrite app_nil_r. split; reflexivity.
  - destruct s as [|c r].
    + exists (rev cur), []. cbn. rewrite app_nil_r. split; reflexivity.
    + cbn [split_go]. cbn [length] in Hn. destruct (has_prefix sep (c :: r)) eqn:E.
      * destruct (has_prefix_firstn _ _ E) as [_ E2].
        pose proof (has_prefix_length _ _ E) as L. cbn [length] in L.
        destruct sep as [|x sep]; [contradiction|]. cbn [length] in *.
        replace (S (length sep) - 1) with (length sep) by lia.
        rewrite split_go_skip by lia.
        destruct (IH [] (skipn (length sep) r)) as (y & l & E3 & E4).
        { rewrite skipn_length; lia. }
        exists (rev cur), (y :: l). rewrite E3. split; [reflexivity|].
        change (join (x :: sep) (rev cur :: y :: l)) with (rev cur ++ (x :: sep) ++ join (x :: sep) (y :: l)).
        rewrite E4. cbn [rev app skipn] in *. rewrite <- E2. reflexivity.
      * destruct (IH (c :: cur) r) as (y & l & E3 & E4); [lia|].
        exists y, l. split; [exact E3|]. rewrite E4. cbn [rev]. rewrite <- app_assoc. reflexivity.
Qed.

Lemma join_split sep s : sep <> [] -> join sep (strsplit sep s) = s.
Proof. intros H. destruct (join_split_go sep [] s H) as (x & l & E1 & E2). unfold strsplit. rewrite E1, E2. reflexivity. Qed.

Lemma digit_not_space c : is_digit c = true -> is_space c = false.
Proof. destruct c; intros H; try discriminate H; reflexivity. Qed.

(* ---- res ---- *)
Lemma mapM_ok {A B} (f : A -> res B) (g : A -> B) l :
  (forall x, In x l -> f x = Ok (g x)) -> mapM f l = Ok (map g l).
Proof.
  induction l as [|x l IH]; intros H; [reflexivity|]. cbn [mapM map].
  rewrite (H x) by (left; reflexivity). cbn [bind].
  rewrite IH by (intros y Hy; apply H; right; exact Hy). reflexivity.
Qed.

Lemma mapM_inv {A B} (f : A -> res B) l ys : mapM f l = Ok ys -> Forall2 (fun x y => f x = Ok y) l ys.
Proof.
  revert ys; induction l as [|x l IH]; intros ys H; cbn [mapM] in H.
  - injection H as <-. constructor.
  - destruct (f x) as [y| | |] eqn:E; try discriminate. cbn [bind] in H.
    destruct (mapM f l) as [zs| | |]; try discriminate. cbn [bind] in H.
    injection H as <-. constructor; [exact E | apply IH; reflexivity].
Qed.

Lemma app_inj_len {A} (a b c d : list A) : length a = length c -> a ++ b = c ++ d -> a = c /\ b = d.
Proof.
  revert c; induction a as [|x a IH]; intros [|y c] L E; cbn in L; try discriminate.
  - split; [reflexivity | exact E].
  - cbn in E. injection E as -> E. destruct (IH c ltac:(lia) E) as [-> ->]. split; reflexivity.
Qed.

Lemma app_inj_len_r {A} (a b c d : list A) : length b = length d -> a ++ b = c ++ d -> a = c /\ b = d.
Proof.
  intros L E. apply app_inj_len; [|exact E].
  apply (f_equal (@length A)) in E. rewrite !app_length in E. lia.
Qed.
