From Coq Require Import Strings.String Strings.Byte Sorting.Permutation Lia.
From Verif Require Import Go GoLemmas CardProofs RuleModel RootModel RootSpec RootProofs RootProofs2 ParseModel ParseSpec ParseProofs BaseModel BaseSpec EvtModel EvtSpec EvtProofs EvtProofs2.
Open Scope string_scope.
Open Scope list_scope.

(* ---- numerals ---- *)
Definition dval (b : byte) : N := (Byte.to_N b - 48)%N.
Definition dec (acc : N) (w : bytes) : N := fold_left (fun a b => 10 * a + dval b)%N w acc.
Lemma acc_dec d : forall acc, N.pos (Pos.of_uint_acc d acc) = dec (N.pos acc) (uint_bytes d).
Proof.
  induction d as [|d IH|d IH|d IH|d IH|d IH|d IH|d IH|d IH|d IH|d IH]; intros acc; cbn [Pos.of_uint_acc uint_bytes]; [reflexivity|..]; rewrite IH; unfold dec; cbn [fold_left]; f_equal; unfold dval; cbn [Byte.to_N]; try lia.
Qed.
Lemma of_uint_dec d : N.of_uint d = dec 0 (uint_bytes d).
Proof.
  unfold N.of_uint. induction d as [|d IH|d IH|d IH|d IH|d IH|d IH|d IH|d IH|d IH|d IH]; cbn [Pos.of_uint uint_bytes]; [reflexivity|exact IH|..]; rewrite acc_dec; reflexivity.
Qed.
Lemma bytes_uint_inv w : forall d, bytes_uint w = Some d -> uint_bytes d = w.
Proof.
  induction w as [|c w IH]; intros d; cbn [bytes_uint]; [intros E; injection E as <-; reflexivity|]. destruct (bytes_uint w) as [e|]; [|discriminate]. specialize (IH e eq_refl).
  destruct c; intros E; try discriminate; injection E as <-; cbn [uint_bytes]; rewrite IH; reflexivity.
Qed.
Lemma digits_uint w : forallb is_digit w = true -> exists d, bytes_uint w = Some d.
Proof.
  induction w as [|c w IH]; [exists Decimal.Nil; reflexivity|]. cbn [forallb bytes_uint]. intros H. apply andb_true_iff in H. destruct H as [Hc Hw]. destruct (IH Hw) as [d E]. rewrite E.
  destruct c; cbn in Hc; try discriminate; eexists; reflexivity.
Qed.
Lemma parse_dec w n : parse_digits w = Some n <-> w <> [] /\ forallb is_digit w = true /\ n = dec 0 w.
Proof.
  unfold parse_digits. split.
  - destruct w as [|c w]; [discriminate|]. destruct (bytes_uint (c :: w)) as [d|] eqn:E; [|discriminate]. cbn [option_map]. intros H. injection H as <-. split; [discriminate|]. split; [eapply bytes_uint_chars; exact E|]. rewrite of_uint_dec. rewrite (bytes_uint_inv _ _ E). reflexivity.
  - intros (Ne & D & ->). destruct w as [|c w]; [congruence|]. destruct (digits_uint _ D) as [d E]. rewrite E. cbn [option_map]. rewrite of_uint_dec, (bytes_uint_inv _ _ E). reflexivity.
Qed.
Lemma digit_iff b d : digit b d <-> is_digit b = true /\ d = dval b.
Proof.
  unfold digit, is_digit, dval. rewrite andb_true_iff, !N.leb_le. split; [intros [A B]; rewrite B; lia|intros [A ->]; lia].
Qed.
Lemma numeral_iff w n : numeral w n <-> parse_digits w = Some n.
Proof.
  rewrite parse_dec. split.
  - induction 1 as [b d H|w n b d _ IH H]; apply digit_iff in H; destruct H as [H ->].
    + split; [discriminate|]. cbn. rewrite H. split; [reflexivity|]. unfold dec. cbn [fold_left]. lia.
    + destruct IH as (Ne & D & ->). split; [destruct w; discriminate|]. rewrite forallb_app. cbn. rewrite D, H. split; [reflexivity|]. unfold dec. rewrite fold_left_app. reflexivity.
  - intros (Ne & D & ->). induction w as [|b w IH] using rev_ind; [congruence|]. rewrite forallb_app in D. cbn in D. rewrite andb_true_r in D. apply andb_true_iff in D. destruct D as [D Hb]. assert (Hd : digit b (dval b)) by (apply digit_iff; auto).
    destruct w as [|c w]; [|unfold dec; rewrite fold_left_app; apply num_more; [apply IH; [discriminate|exact D]|exact Hd]]. cbn [app]. unfold dec. cbn [fold_left]. replace (10 * 0 + dval b)%N with (dval b) by lia. apply num_one. exact Hd.
Qed.
Lemma parse_uint_iff w b n : parse_uint w b = Ok n <-> fits b w n.
Proof.
  unfold parse_uint, fits, bits, bits_of. rewrite numeral_iff. destruct (N.ltb_spec 64 b) as [L|L]; [split; [discriminate|intros (_ & X & _); lia]|]. destruct (parse_digits w) as [k|]; [|split; [discriminate|intros (X & _); discriminate]].
  destruct (N.ltb_spec k (2 ^ (if (b =? 0)%N then 64 else b))) as [M|M]; (split; [intros E; try discriminate|intros (E & _ & X)]); [injection E as ->; auto|congruence|injection E as ->; lia].
Qed.
(* one bit: every negative numeral other than 0 is read as -1 *)
Lemma parse_neg_ok w b n : fits_negative b w n -> parse_neg w b = Ok (- Z.of_N n)%Z.
Proof.
  unfold parse_neg, fits_negative, bits, bits_of. rewrite numeral_iff. intros (E & L & A & B). destruct (N.ltb_spec 64 b) as [X|_]; [lia|]. rewrite E. cbv zeta. set (k := (2 ^ (if (b =? 0)%N then 64 else b))%N) in *. replace (N.min n (k - 1)) with n by lia.
  destruct (N.ltb_spec (2 ^ ((if (b =? 0)%N then 64 else b) - 1)) n); [lia|reflexivity].
Qed.
