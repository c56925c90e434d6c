(* CryptProofs.v - proofs about CryptModel *)
From Coq Require Import Strings.String Strings.Byte Lia.
From Verif Require Import GoLemmas Base64 CryptModel CryptSpec.

Lemma toy_aes_size : block_size toy_aes.
Proof. intros k b. unfold toy_aes. rewrite map_length, seq_length. reflexivity. Qed.
Lemma toy_sha256_size : key_size toy_sha256.
Proof. intros p. unfold toy_sha256. rewrite firstn_length, app_length, repeat_length. lia. Qed.

Lemma lxor_lt a b : (a < 256 -> b < 256 -> N.lxor a b < 256)%N.
Proof.
  intros Ha Hb. destruct (N.eq_dec (N.lxor a b) 0) as [E|E]; [rewrite E; lia|].
  change 256%N with (2 ^ 8)%N. apply N.log2_lt_pow2; [lia|].
  eapply N.le_lt_trans; [apply N.log2_lxor|].
  assert (B : forall x, (x < 256 -> N.log2 x < 8)%N).
  { intros x Hx. destruct (N.eq_dec x 0) as [->|Hx0]; [reflexivity|]. apply N.log2_lt_pow2; [lia|exact Hx]. }
  apply N.max_lub_lt; auto.
Qed.
Lemma bxor_to_N a b : Byte.to_N (bxor a b) = N.lxor (Byte.to_N a) (Byte.to_N b).
Proof. unfold bxor. apply to_of_N. apply lxor_lt; apply to_N_bound. Qed.
Lemma to_N_inj a b : Byte.to_N a = Byte.to_N b -> a = b.
Proof. intros H. rewrite <- (byte_of_to_N a), <- (byte_of_to_N b). congruence. Qed.
Lemma bxor_cancel a k : bxor (bxor a k) k = a.
Proof. apply to_N_inj. rewrite !bxor_to_N, N.lxor_assoc, N.lxor_nilpotent, N.lxor_0_r. reflexivity. Qed.
Lemma bxor_diff c c' k : bxor (bxor c k) (bxor c c') = bxor c' k.
Proof.
  apply to_N_inj. rewrite !bxor_to_N.
  set (x := Byte.to_N c). set (y := Byte.to_N c'). set (z := Byte.to_N k).
  rewrite (N.lxor_comm x z). rewrite N.lxor_assoc. rewrite <- (N.lxor_assoc x x y).
  rewrite N.lxor_nilpotent, N.lxor_0_l. apply N.lxor_comm.
Qed.

Section P.
Variable aes : bytes -> bytes -> bytes.
Hypothesis HB : block_size aes.

Lemma aes_cons key b : exists k r, aes key b = k :: r.
Proof. pose proof (HB key b). destruct (aes key b); [discriminate|eauto]. Qed.

Lemma cfb_round_trip key msg : forall next out,
  cfb aes false key next out (cfb aes true key next out msg) = msg.
Proof.
  induction msg as [|x msg IH]; intros next out; [reflexivity|]. cbn [cfb].
  destruct out as [|k out].
  - destruct (aes_cons key next) as (k & r & E). rewrite E. cbn [cfb]. rewrite E. rewrite bxor_cancel, IH. reflexivity.
  - cbn [cfb]. rewrite bxor_cancel, IH. reflexivity.
Qed.

Lemma cfb_length enc key src : forall next out, length (cfb aes enc key next out src) = length src.
Proof.
  induction src as [|x src IH]; intros next out; [reflexivity|]. cbn [cfb].
  destruct out as [|k out].
  - destruct (aes_cons key next) as (k & r & E). rewrite E. cbn [length]. rewrite IH. reflexivity.
  - cbn [length]. rewrite IH. reflexivity.
Qed.

Lemma cfb_within enc key src : forall next k out, length src <= length (k :: out) ->
  cfb aes enc key next (k :: out) src = xors src (k :: out).
Proof.
  induction src as [|x src IH]; intros next k out H; [reflexivity|]. cbn [cfb xors]. f_equal.
  destruct src as [|x' src]; [reflexivity|]. destruct out as [|k' out]; [cbn in H; lia|].
  apply IH. cbn in *. lia.
Qed.

Lemma cfb_dec_through key blk : forall next k out post, length blk = length (k :: out) ->
  cfb aes false key next (k :: out) (blk ++ post) =
  xors blk (k :: out) ++ cfb aes false key (next ++ blk) [] post.
Proof.
  induction blk as [|x blk IH]; intros next k out post H; [discriminate|]. cbn [app cfb xors]. f_equal.
  destruct out as [|k' out].
  - destruct blk; [|discriminate]. reflexivity.
  - rewrite IH by (cbn in *; lia). cbn [app]. rewrite <- app_assoc. reflexivity.
Qed.

Lemma cfb_start enc key next src : cfb aes enc key next [] src = cfb aes enc key [] (aes key next) src.
Proof. destruct src as [|x src]; [reflexivity|]. cbn [cfb]. destruct (aes_cons key next) as (k & r & ->). reflexivity. Qed.

Lemma cfb_dec_block key iv blk post : length blk = 16 ->
  cfb aes false key iv [] (blk ++ post) = xors blk (aes key iv) ++ cfb aes false key blk [] post.
Proof.
  intros H. rewrite cfb_start. pose proof (HB key iv). destruct (aes key iv) as [|k out] eqn:E; [discriminate|].
  rewrite cfb_dec_through by congruence. reflexivity.
Qed.
Lemma cfb_dec_last key iv blk : length blk <= 16 ->
  cfb aes false key iv [] blk = xors blk (aes key iv).
Proof.
  intros H. rewrite cfb_start. pose proof (HB key iv). destruct (aes key iv) as [|k out] eqn:E; [discriminate|].
  apply cfb_within. lia.
Qed.

Lemma xors_length a b : length a <= length b -> length (xors a b) = length a.
Proof. revert b; induction a; destruct b; cbn; intros; try lia. rewrite IHa; lia. Qed.
Lemma xors_flip c : forall c' k, length c = length c' -> length c <= length k ->
  xors c' k = xors (xors c k) (xors c c').
Proof.
  induction c as [|x c IH]; intros [|x' c'] [|y k]; cbn; try discriminate; try reflexivity; intros; try lia.
  rewrite bxor_diff. f_equal. apply IH; lia.
Qed.

Lemma valid32 key : length key = 32 -> valid_aes_key key = true.
Proof. intros H. unfold valid_aes_key. rewrite H. reflexivity. Qed.

Lemma decrypt_spec key txt : length key = 32 ->
  decrypt aes key txt =
  match b64_decode txt with
  | Some c => if length c <? 16 then Err else Ok (cfb aes false key (firstn 16 c) [] (skipn 16 c))
  | None => Err
  end.
Proof. intros H. unfold decrypt. rewrite valid32 by exact H. destruct (b64_decode txt); reflexivity. Qed.

Lemma decrypt_iv_body key iv body : length key = 32 -> length iv = 16 ->
  decrypt aes key (b64_encode (iv ++ body)) = Ok (cfb aes false key iv [] body).
Proof.
  intros Hk Hi. rewrite decrypt_spec, b64_round_trip by exact Hk. rewrite app_length, Hi.
  replace (16 + length body <? 16) with false by (symmetry; apply Nat.ltb_ge; lia).
  rewrite firstn_app, skipn_app, Hi, Nat.sub_diag, firstn_all2, skipn_all2 by lia.
  cbn [firstn skipn app]. rewrite app_nil_r. reflexivity.
Qed.

Lemma encrypt_decrypt key iv msg : length key = 32 -> length iv = 16 ->
  exists txt, encrypt aes key iv msg = Ok txt /\ decrypt aes key txt = Ok msg.
Proof.
  intros Hk Hi. unfold encrypt. rewrite valid32 by exact Hk. cbn [negb]. eexists. split; [reflexivity|].
  rewrite decrypt_iv_body by assumption. rewrite cfb_round_trip. reflexivity.
Qed.

Lemma decrypt_err key txt : length key = 32 ->
  decrypt aes key txt = Err <-> b64_decode txt = None \/ exists c, b64_decode txt = Some c /\ length c < 16.
Proof.
  intros Hk. rewrite decrypt_spec by exact Hk. destruct (b64_decode txt) as [c|].
  - destruct (length c <? 16) eqn:Q.
    + apply Nat.ltb_lt in Q. split; [eauto|reflexivity].
    + apply Nat.ltb_ge in Q. split; [discriminate|]. intros [H|(c' & [= <-] & H)]; [discriminate|lia].
  - split; auto.
Qed.
Lemma decrypt_ok_length key txt c : length key = 32 -> b64_decode txt = Some c -> 16 <= length c ->
  exists m, decrypt aes key txt = Ok m /\ length m = length c - 16.
Proof.
  intros Hk H1 H2. rewrite decrypt_spec, H1 by exact Hk.
  replace (length c <? 16) with false by (symmetry; apply Nat.ltb_ge; lia).
  eexists. split; [reflexivity|]. rewrite cfb_length, skipn_length. reflexivity.
Qed.

Lemma cfb_dec_prefix key n : forall iv pre, length pre = 16 * n ->
  exists M next, length M = 16 * n /\ forall rest, cfb aes false key iv [] (pre ++ rest) = M ++ cfb aes false key next [] rest.
Proof.
  induction n as [|n IH]; intros iv pre H.
  - destruct pre; [|cbn in H; lia]. exists [], iv. split; reflexivity.
  - rewrite <- (firstn_skipn 16 pre) in *. set (a := firstn 16 pre) in *. set (b := skipn 16 pre) in *.
    assert (La : length a = 16).
    { rewrite app_length in H. unfold a, b in *. rewrite firstn_length, skipn_length in *. lia. }
    rewrite app_length, La in H.
    destruct (IH a b) as (M & next & LM & HM); [lia|].
    exists (xors a (aes key iv) ++ M), next. split.
    + rewrite app_length, xors_length by (rewrite HB; lia). lia.
    + intros rest. rewrite <- !app_assoc. rewrite cfb_dec_block by exact La. rewrite HM. reflexivity.
Qed.

Lemma malleable key iv n pre blk blk' m : length key = 32 -> length iv = 16 ->
  length pre = 16 * n -> length blk <= 16 -> length blk' = length blk ->
  decrypt aes key (b64_encode (iv ++ pre ++ blk)) = Ok m ->
  exists M N, m = M ++ N /\ length M = length pre /\
    decrypt aes key (b64_encode (iv ++ pre ++ blk')) = Ok (M ++ xors N (xors blk blk')).
Proof.
  intros Hk Hi Hp Hb Hb'. rewrite !decrypt_iv_body by assumption. intros [= <-].
  destruct (cfb_dec_prefix key n iv pre Hp) as (M & next & LM & HM).
  exists M, (cfb aes false key next [] blk). rewrite !HM. split; [reflexivity|]. split; [lia|].
  rewrite !cfb_dec_last by lia. rewrite <- xors_flip; [reflexivity|lia|rewrite HB; lia].
Qed.

Lemma self_sync key iv n pre pre' blk post : length pre = 16 * n -> length pre' = 16 * n -> length blk = 16 ->
  exists m m', length m = 16 * (S n) /\ length m' = 16 * (S n) /\
    cfb aes false key iv [] (pre ++ blk ++ post) = m ++ cfb aes false key blk [] post /\
    cfb aes false key iv [] (pre' ++ blk ++ post) = m' ++ cfb aes false key blk [] post.
Proof.
  intros H H' Hb.
  destruct (cfb_dec_prefix key n iv pre H) as (M & next & LM & HM).
  destruct (cfb_dec_prefix key n iv pre' H') as (M' & next' & LM' & HM').
  exists (M ++ xors blk (aes key next)), (M' ++ xors blk (aes key next')).
  rewrite HM, HM', !cfb_dec_block by exact Hb. rewrite !app_length, !xors_length by (rewrite HB; lia).
  rewrite <- !app_assoc. repeat split; lia.
Qed.
End P.

Lemma prefix_replaceable : forall aes sha256, block_size aes -> key_size sha256 ->
  forall password iv iv' n pre pre' blk post m m', length iv = 16 -> length iv' = 16 ->
  length pre = 16 * n -> length pre' = 16 * n -> length blk = 16 ->
  decrypt aes (new_encryption sha256 password) (b64_encode (iv ++ pre ++ blk ++ post)) = Ok m ->
  decrypt aes (new_encryption sha256 password) (b64_encode (iv' ++ pre' ++ blk ++ post)) = Ok m' ->
  skipn (16 * S n) m = skipn (16 * S n) m'.
Proof.
  intros aes sha256 HB HK password iv iv' n pre pre' blk post m m' Hi Hi' H H' Hb.
  rewrite !decrypt_iv_body by first [apply HK | assumption]. intros [= <-] [= <-].
  destruct (self_sync aes HB (new_encryption sha256 password) iv n pre pre blk post H H Hb) as (a & _ & La & _ & -> & _).
  destruct (self_sync aes HB (new_encryption sha256 password) iv' n pre' pre' blk post H' H' Hb) as (b & _ & Lb & _ & -> & _).
  rewrite !skipn_app, La, Lb, Nat.sub_diag, (skipn_all2 a), (skipn_all2 b) by lia. reflexivity.
Qed.

Lemma rsa_from_encoded_err : forall Key (parse : bytes -> option Key) s,
  rsa_from_encoded Key parse s = Err <->
  b64_decode s = None \/ exists d, b64_decode s = Some d /\ parse d = None.
Proof.
  intros Key parse s. unfold rsa_from_encoded, rsa_from_bytes. destruct (b64_decode s) as [d|].
  - destruct (parse d) eqn:E.
    + split; [discriminate|]. intros [?|(d' & [= <-] & ?)]; congruence.
    + split; eauto.
  - split; auto.
Qed.

Lemma rsa_round_trip Key (marshal : Key -> bytes) parse : (forall k, parse (marshal k) = Some k) ->
  forall k, rsa_from_encoded Key parse (rsa_to_encoded Key marshal k) = Ok k.
Proof.
  intros H k. unfold rsa_from_encoded, rsa_to_encoded, rsa_from_bytes. rewrite b64_round_trip, H. reflexivity.
Qed.
