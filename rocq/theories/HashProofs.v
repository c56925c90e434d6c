(* HashProofs.v - lemmas about HashModel.v *)
From Coq Require Import Strings.String Strings.Byte.
From Coq Require Import Lia ZifyBool ZifyNat ZifyN Permutation.
From Verif Require Import GoLemmas HashModel HashSpec.

Lemma fold_app (l : list bytes) acc : fold_left (fun m r => m ++ r) l acc = acc ++ concat l.
Proof.
  revert acc; induction l as [|x l IH]; intros acc; cbn [fold_left concat].
  - rewrite app_nil_r; reflexivity.
  - rewrite IH, app_assoc; reflexivity.
Qed.

Lemma mget_mset_same {V} k (v : V) m : mget k (mset k v m) = Some v.
Proof. cbn. rewrite bytes_eqb_refl. reflexivity. Qed.

Lemma mget_mset_other {V} k k' (v : V) m : k <> k' -> mget k (mset k' v m) = mget k m.
Proof. intros H. cbn. apply bytes_eqb_neq in H. rewrite H. reflexivity. Qed.

Section Hash.
Variable sha512 : bytes -> bytes.
Hypothesis Hsize : digest_size sha512.
Notation from_bytes := (from_bytes sha512).
Notation from_multi_bytes := (from_multi_bytes sha512).
Notation from_string := (from_string sha512).

Lemma from_multi_concat l : from_multi_bytes l = from_bytes (concat l).
Proof. unfold HashModel.from_multi_bytes. rewrite fold_app. reflexivity. Qed.

Lemma from_bytes_length b : length (from_bytes b) = 64.
Proof. unfold HashModel.from_bytes. destruct (length b =? 64) eqn:E; [apply Nat.eqb_eq; exact E | apply Hsize]. Qed.

Lemma from_bytes_64 b : length b = 64 -> from_bytes b = b.
Proof. intros H. unfold HashModel.from_bytes. rewrite H. reflexivity. Qed.

Lemma from_bytes_not64 b : length b <> 64 -> from_bytes b = sha512 b.
Proof. intros H. unfold HashModel.from_bytes. apply Nat.eqb_neq in H. rewrite H. reflexivity. Qed.

Lemma from_bytes_idem b : from_bytes (from_bytes b) = from_bytes b.
Proof. apply from_bytes_64, from_bytes_length. Qed.

Lemma from_bytes_second_preimage b : length b <> 64 -> from_bytes b <> b /\ from_bytes (from_bytes b) = from_bytes b.
Proof.
  intros H. split; [|apply from_bytes_idem].
  intros E. apply H. rewrite <- E. apply from_bytes_length.
Qed.

Lemma from_string_of_string h : length h = 64 -> from_string (hash_string h) = Ok h.
Proof.
  intros H. unfold HashModel.from_string, hash_string. rewrite hex_round_trip.
  rewrite from_bytes_64 by exact H. reflexivity.
Qed.

Lemma hash_string_shape h : length h = 64 ->
  length (hash_string h) = 128 /\ forall c, In c (hash_string h) -> In c (bs "0123456789abcdef").
Proof.
  intros H. split.
  - unfold hash_string. rewrite hex_encode_length, H. reflexivity.
  - clear H. unfold hash_string. induction h as [|b h IH]; intros c Hc; [destruct Hc|].
    cbn [hex_encode] in Hc.
    assert (D : forall n, (n < 16)%N -> In (hex_digit n) (bs "0123456789abcdef")).
    { intros n Hn.
      assert (n = 0 \/ n = 1 \/ n = 2 \/ n = 3 \/ n = 4 \/ n = 5 \/ n = 6 \/ n = 7 \/
          n = 8 \/ n = 9 \/ n = 10 \/ n = 11 \/ n = 12 \/ n = 13 \/ n = 14 \/ n = 15)%N as D by lia.
      repeat (destruct D as [-> | D]; [cbv; tauto|]). rewrite D; cbv; tauto. }
    pose proof (to_N_bound b) as Hb.
    destruct Hc as [<- | [<- | Hc]]; [apply D | apply D | apply IH; exact Hc].
    + apply N.div_lt_upper_bound; [discriminate|lia].
    + apply N.mod_upper_bound; discriminate.
Qed.

Lemma from_string_cases s :
  match hex_decode s with
  | Some b => from_string s = Ok (from_bytes b)
  | None => from_string s = Err
  end.
Proof. unfold HashModel.from_string. destruct (hex_decode s); reflexivity. Qed.

Lemma from_string_err s : from_string s = Err <-> (Nat.even (length s) = false \/ exists c, In c s /\ unhex c = None).
Proof.
  pose proof (hex_decode_dec s) as D. pose proof (from_string_cases s) as C.
  destruct (hex_decode s) as [t|].
  - split; [rewrite C; discriminate|]. intros H.
    destruct (proj1 D (ex_intro _ t eq_refl)) as [D1 D2].
    destruct H as [H | (c & Hin & Hc)]; [congruence|].
    rewrite forallb_forall in D2. specialize (D2 c Hin). unfold is_hex in D2. rewrite Hc in D2. discriminate.
  - split; [intros _|intros _; exact C].
    destruct (Nat.even (length s)); [right | left; reflexivity].
    destruct (forallb is_hex s) eqn:F.
    + exfalso. destruct (proj2 D (conj eq_refl eq_refl)) as [t H]; discriminate.
    + assert (exists c, In c s /\ is_hex c = false) as (c & Hin & Hc).
      { clear D C. induction s as [|c s IH]; [discriminate|]. cbn in F.
        destruct (is_hex c) eqn:E.
        - destruct (IH F) as (d & ? & ?). exists d; split; [right; assumption|assumption].
        - exists c. split; [left; reflexivity | exact E]. }
      exists c. split; [exact Hin|]. unfold is_hex in Hc. destruct (unhex c); [discriminate|reflexivity].
Qed.

Lemma from_multi_binding a b :
  length (concat a) <> 64 -> length (concat b) <> 64 ->
  from_multi_bytes a = from_multi_bytes b ->
  concat a = concat b \/ collision sha512.
Proof.
  intros Ha Hb E. rewrite !from_multi_concat, !from_bytes_not64 in E by assumption.
  destruct (bytes_eq_dec (concat a) (concat b)) as [H|H]; [left; exact H | right; exists (concat a), (concat b); split; assumption].
Qed.

(* ------------------------------------------------------------------ trees *)
Inductive perfect : nat -> leaf -> Prop :=
| perfect_0 h : length h = 64 -> perfect 0 (BlockLeaf h)
| perfect_S k h a b : perfect k a -> perfect k b ->
    h = sha512 (leaf_head a ++ leaf_head b) -> perfect (S k) (ChildLeaf h a b).

Lemma perfect_head_length k l : perfect k l -> length (leaf_head l) = 64.
Proof. intros H; destruct H as [h H|k h a b _ _ ->]; cbn; [exact H | apply Hsize]. Qed.

Lemma perfect_length k l : perfect k l -> length (leaf_leaves l) = 2 ^ k.
Proof.
  induction 1 as [h H|k h a b Ha IHa Hb IHb E]; cbn [leaf_leaves]; [reflexivity|].
  rewrite app_length, IHa, IHb. cbn [Nat.pow]. lia.
Qed.

Lemma perfect_height k l : perfect k l -> leaf_height l = k.
Proof. induction 1; cbn; congruence. Qed.

Lemma perfect_depth k l d x : perfect k l -> at_depth l d x -> d = k.
Proof.
  intros H; revert d; induction H as [h H|k h a b Ha IHa Hb IHb E]; intros d D; inversion D; subst; [reflexivity| |];
    f_equal; [apply IHa | apply IHb]; assumption.
Qed.

Lemma perfect_merkle k l : perfect k l -> leaf_head l = merkle sha512 k (map leaf_head (leaf_leaves l)).
Proof.
  induction 1 as [h H|k h a b Ha IHa Hb IHb E]; cbn [leaf_leaves]; [reflexivity|].
  cbn [merkle leaf_head]. rewrite map_app.
  rewrite firstn_app, skipn_app, map_length, (perfect_length k a Ha), Nat.sub_diag.
  rewrite firstn_all2 by (rewrite map_length, (perfect_length k a Ha); lia).
  rewrite skipn_all2 by (rewrite map_length, (perfect_length k a Ha); lia).
  cbn [firstn skipn app]. rewrite app_nil_r, <- IHa, <- IHb. exact E.
Qed.

Lemma pair_hash_sha k a b : perfect k a -> perfect k b -> pair_hash sha512 a b = sha512 (leaf_head a ++ leaf_head b).
Proof.
  intros Ha Hb. unfold pair_hash. cbn [concat]. rewrite app_nil_r. apply from_bytes_not64.
  rewrite app_length, (perfect_head_length _ _ Ha), (perfect_head_length _ _ Hb). discriminate.
Qed.

Lemma children_ok m : forall k l, length l = 2 * m -> Forall (perfect k) l ->
  exists l', create_children_leaves sha512 l = Ok l' /\ length l' = m /\ Forall (perfect (S k)) l' /\
             flat_map leaf_leaves l' = flat_map leaf_leaves l.
Proof.
  induction m as [|m IH]; intros k l Hl Hp.
  - destruct l; [|discriminate]. exists []. repeat split; constructor.
  - destruct l as [|a [|b r]]; cbn [length] in Hl; try lia.
    inversion Hp as [|? ? Ha Hp']; subst. inversion Hp' as [|? ? Hb Hr]; subst.
    destruct (IH k r ltac:(lia) Hr) as (l' & E1 & E2 & E3 & E4).
    cbn [create_children_leaves]. rewrite E1. cbn [bind].
    eexists; split; [reflexivity|]. cbn [length flat_map leaf_leaves]. split; [lia|]. split.
    + constructor; [|exact E3]. constructor; try assumption. apply (pair_hash_sha k); assumption.
    + rewrite E4, app_assoc. reflexivity.
Qed.

Lemma leaves_hashtree_ok j : forall fuel k l,
  length l = 2 ^ (S j) -> Forall (perfect k) l -> j < fuel ->
  exists t, leaves_hashtree sha512 fuel l = Ok t /\
    perfect (k + j) (ht_left t) /\ perfect (k + j) (ht_right t) /\
    tree_leaves t = flat_map leaf_leaves l /\
    ht_head t = sha512 (leaf_head (ht_left t) ++ leaf_head (ht_right t)).
Proof.
  induction j as [|j IH]; intros fuel k l Hl Hp Hf.
  - destruct fuel as [|fuel]; [lia|]. destruct l as [|a [|b [|c l]]]; cbn in Hl; try lia.
    inversion Hp as [|? ? Ha Hp']; subst. inversion Hp' as [|? ? Hb _]; subst.
    cbn [leaves_hashtree]. eexists; split; [reflexivity|]. cbn [ht_left ht_right ht_head].
    rewrite Nat.add_0_r. repeat split; try assumption.
    + unfold tree_leaves. cbn [ht_left ht_right flat_map]. rewrite app_nil_r. reflexivity.
    + apply (pair_hash_sha k); assumption.
  - destruct fuel as [|fuel]; [lia|].
    destruct (children_ok (2 ^ S j) k l) as (l' & E1 & E2 & E3 & E4).
    { rewrite Hl. reflexivity. } { exact Hp. }
    destruct (IH fuel (S k) l' E2 E3 ltac:(lia)) as (t & T1 & T2 & T3 & T4 & T5).
    exists t. split.
    + cbn [leaves_hashtree]. rewrite E1. cbn [bind]. rewrite T1.
      assert (length l <> 2) as L.
      { rewrite Hl. cbn [Nat.pow]. pose proof (Nat.pow_nonzero 2 j). lia. }
      destruct l as [|a [|b [|c l]]]; cbn [length] in L; try reflexivity. lia.
    + replace (k + S j) with (S k + j) by lia. repeat split; try assumption.
      rewrite T4, E4. reflexivity.
Qed.

(* the power-of-two bit trick *)
Lemma is_pow2_true n : is_length_power_of_two n = true -> exists k, n = 2 ^ k.
Proof.
  unfold is_length_power_of_two. intros H. apply andb_true_iff in H; destruct H as [H0 H1].
  apply negb_true_iff, Nat.eqb_neq in H0. apply Nat.eqb_eq in H1.
  exists (Nat.log2 n). pose proof (Nat.log2_spec n ltac:(lia)) as [L1 L2].
  destruct (Nat.eq_dec n (2 ^ Nat.log2 n)) as [E|E]; [exact E|exfalso].
  assert (Nat.log2 (n - 1) = Nat.log2 n) as L3.
  { apply Nat.log2_unique; [lia|]. split; lia. }
  pose proof (Nat.bit_log2 n ltac:(lia)) as B1.
  assert (n - 1 <> 0) as N1. { pose proof (Nat.pow_nonzero 2 (Nat.log2 n)). lia. }
  pose proof (Nat.bit_log2 (n - 1) N1) as B2. rewrite L3 in B2.
  pose proof (Nat.land_spec n (n - 1) (Nat.log2 n)) as B3.
  rewrite H1, B1, B2, Nat.bits_0 in B3. discriminate.
Qed.

Lemma resize_spec l : 1 <= length l ->
  exists k, resize sha512 l = l ++ repeat (from_bytes []) (2 ^ k - length l) /\
            length l <= 2 ^ k /\ (forall j, length l <= 2 ^ j -> k <= j).
Proof.
  intros Hl. unfold resize. destruct (is_length_power_of_two (length l)) eqn:E.
  - apply is_pow2_true in E. destruct E as [k E]. exists k. rewrite <- E, Nat.sub_diag. cbn [repeat].
    rewrite app_nil_r. repeat split; [lia|]. intros j Hj. rewrite E in Hj.
    apply Nat.pow_le_mono_r_iff in Hj; lia.
  - exists (Nat.log2_up (length l)). unfold resize_to_next_power_of_two. split; [reflexivity|].
    destruct (Nat.eq_dec (length l) 1) as [E1|E1].
    + rewrite E1. cbn. split; [lia|]. intros; lia.
    + split.
      * apply Nat.log2_log2_up_spec; lia.
      * intros j Hj. apply Nat.log2_up_le_pow2; lia.
Qed.

Lemma create_block_spec data : data <> [] ->
  exists k, length (create_block_from_data sha512 data) = 2 ^ S k /\
    Forall (fun h => length h = 64) (create_block_from_data sha512 data) /\
    (create_block_from_data sha512 data = map from_bytes data ++ repeat (from_bytes []) (2 ^ S k - length data)) /\
    smallest_pow2_ge (Nat.max 2 (length data)) (2 ^ S k).
Proof.
  intros Hd. unfold create_block_from_data.
  assert (length data <> 0) as Hd0. { destruct data; [contradiction|discriminate]. }
  set (d := if length data <=? 1 then data ++ [[]] else data).
  assert (length d = Nat.max 2 (length data)) as Ld.
  { unfold d. destruct (length data <=? 1) eqn:E; rewrite ?app_length; cbn [length]; lia. }
  assert (Dc : (length data = 1 /\ d = data ++ [[]]) \/ d = data).
  { unfold d. destruct (length data <=? 1) eqn:E; [left; split; [lia|reflexivity] | right; reflexivity]. }
  clearbody d.
  destruct (resize_spec (map from_bytes d)) as (k & R1 & R2 & R3).
  { rewrite map_length. lia. }
  rewrite map_length in R1, R2, R3.
  assert (1 <= k) as Hk.
  { destruct k; [|lia]. cbn in R2. lia. }
  destruct k as [|k]; [lia|]. exists k.
  assert (LR : length (resize sha512 (map from_bytes d)) = 2 ^ S k).
  { rewrite R1, app_length, map_length, repeat_length. lia. }
  split; [exact LR|]. split; [|split].
  - rewrite R1. apply Forall_app. split.
    + apply Forall_forall. intros x Hx. apply in_map_iff in Hx. destruct Hx as (y & <- & _). apply from_bytes_length.
    + apply Forall_forall. intros x Hx. apply repeat_spec in Hx. subst. apply from_bytes_length.
  - rewrite R1. destruct Dc as [[L1 ->] | ->]; [|reflexivity].
    rewrite map_app, <- app_assoc. f_equal. cbn [map].
    rewrite app_length in R2 |- *. cbn [length] in R2 |- *.
    replace (2 ^ S k - length data) with (S (2 ^ S k - (length data + 1))) by lia.
    reflexivity.
  - rewrite <- Ld. split; [exact R2|]. split; [exists (S k); reflexivity|].
    intros j Hj. apply R3 in Hj. apply Nat.pow_le_mono_r; [lia|exact Hj].
Qed.

(* everything about a built tree *)
Lemma build_tree_ok data : data <> [] ->
  exists k t, build_tree sha512 (Some data) = Ok t /\
    perfect k (ht_left t) /\ perfect k (ht_right t) /\
    ht_head t = sha512 (leaf_head (ht_left t) ++ leaf_head (ht_right t)) /\
    leaf_digests t = map from_bytes data ++ repeat (from_bytes []) (2 ^ S k - length data) /\
    smallest_pow2_ge (Nat.max 2 (length data)) (2 ^ S k).
Proof.
  intros Hd. destruct (create_block_spec data Hd) as (k & L & F & E & S2).
  unfold build_tree. set (hs := create_block_from_data sha512 data) in *.
  destruct (leaves_hashtree_ok k (S (length hs)) 0 (map BlockLeaf hs)) as (t & T1 & T2 & T3 & T4 & T5).
  - rewrite map_length. exact L.
  - apply Forall_forall. intros x Hx. apply in_map_iff in Hx. destruct Hx as (y & <- & Hy).
    constructor. rewrite Forall_forall in F. apply F; exact Hy.
  - rewrite L. pose proof (Nat.pow_gt_lin_r 2 (S k)). lia.
  - exists k, t. cbn [Nat.add] in T2, T3. repeat split; try assumption; try apply S2.
    unfold leaf_digests, tree_compact. cbn [snd]. rewrite T4, <- E.
    clear. induction hs as [|h hs IH]; [reflexivity|]. cbn. f_equal. exact IH.
Qed.

Lemma build_tree_inv data t : build_tree sha512 (Some data) = Ok t -> data <> [] ->
  exists k, perfect k (ht_left t) /\ perfect k (ht_right t) /\
    ht_head t = sha512 (leaf_head (ht_left t) ++ leaf_head (ht_right t)) /\
    leaf_digests t = map from_bytes data ++ repeat (from_bytes []) (2 ^ S k - length data) /\
    smallest_pow2_ge (Nat.max 2 (length data)) (2 ^ S k).
Proof.
  intros B Hd. destruct (build_tree_ok data Hd) as (k & t' & E & R). rewrite B in E. injection E as <-.
  exists k. exact R.
Qed.

Lemma build_tree_empty : build_tree sha512 (Some []) = Panic.
Proof. reflexivity. Qed.

Lemma tree_ok_nonempty data t : build_tree sha512 (Some data) = Ok t -> data <> [].
Proof. intros H ->. discriminate. Qed.

Lemma tree_shape data : data <> [] ->
  exists k t, build_tree sha512 (Some data) = Ok t /\
    smallest_pow2_ge (Nat.max 2 (length data)) (2 ^ S k) /\
    tree_length t = 2 ^ S k /\ length (leaf_digests t) = 2 ^ S k /\ tree_height t = k + 2 /\
    (forall d x, at_depth (ht_left t) d x \/ at_depth (ht_right t) d x -> d = k).
Proof.
  intros Hd. destruct (build_tree_ok data Hd) as (k & t & B & Pl & Pr & _ & _ & S2).
  exists k, t. split; [exact B|]. split; [exact S2|].
  assert (LL : length (tree_leaves t) = 2 ^ S k).
  { unfold tree_leaves. rewrite app_length, (perfect_length _ _ Pl), (perfect_length _ _ Pr). cbn [Nat.pow]. lia. }
  repeat split.
  - exact LL.
  - unfold leaf_digests, tree_compact. cbn [snd]. rewrite map_length. exact LL.
  - unfold tree_height. rewrite (perfect_height _ _ Pl). reflexivity.
  - intros d x [D|D]; [exact (perfect_depth _ _ _ _ Pl D) | exact (perfect_depth _ _ _ _ Pr D)].
Qed.

Lemma tree_root data t : build_tree sha512 (Some data) = Ok t ->
  exists k, length (leaf_digests t) = 2 ^ k /\ 1 <= k /\
    ht_head t = merkle sha512 k (leaf_digests t).
Proof.
  intros B. pose proof (tree_ok_nonempty _ _ B) as Hd.
  destruct (build_tree_inv _ _ B Hd) as (k & Pl & Pr & Hh & _ & _).
  assert (perfect (S k) (ChildLeaf (ht_head t) (ht_left t) (ht_right t))) as P by (constructor; assumption).
  exists (S k). unfold leaf_digests, tree_compact. cbn [snd]. rewrite map_length.
  split; [apply (perfect_length _ _ P)|]. split; [lia|]. apply (perfect_merkle _ _ P).
Qed.

Lemma tree_leaves_spec data t : build_tree sha512 (Some data) = Ok t ->
  exists m, leaf_digests t = map from_bytes data ++ repeat (from_bytes []) m.
Proof.
  intros B. destruct (build_tree_inv _ _ B (tree_ok_nonempty _ _ B)) as (k & _ & _ & _ & E & _).
  eexists; exact E.
Qed.

(* binding *)
Lemma perfect_binding k : forall a b, perfect k a -> perfect k b -> leaf_head a = leaf_head b ->
  map leaf_head (leaf_leaves a) = map leaf_head (leaf_leaves b) \/
  exists x y, length x = 128 /\ length y = 128 /\ x <> y /\ sha512 x = sha512 y.
Proof.
  induction k as [|k IH]; intros a b Ha Hb E.
  - inversion Ha; subst. inversion Hb; subst. cbn in E |- *. left. congruence.
  - inversion Ha as [|k1 h1 a1 b1 P1 P2 E1]; subst. inversion Hb as [|k2 h2 a2 b2 P3 P4 E2]; subst.
    cbn [leaf_head] in E.
    destruct (bytes_eq_dec (leaf_head a1 ++ leaf_head b1) (leaf_head a2 ++ leaf_head b2)) as [Q|Q].
    + assert (leaf_head a1 = leaf_head a2 /\ leaf_head b1 = leaf_head b2) as [Q1 Q2].
      { apply app_inj_len; [|exact Q].
        rewrite (perfect_head_length _ _ P1), (perfect_head_length _ _ P3). reflexivity. }
      destruct (IH a1 a2 P1 P3 Q1) as [I1|C]; [|right; exact C].
      destruct (IH b1 b2 P2 P4 Q2) as [I2|C]; [|right; exact C].
      left. cbn [leaf_leaves]. rewrite !map_app, I1, I2. reflexivity.
    + right. exists (leaf_head a1 ++ leaf_head b1), (leaf_head a2 ++ leaf_head b2).
      rewrite !app_length, (perfect_head_length _ _ P1), (perfect_head_length _ _ P2),
        (perfect_head_length _ _ P3), (perfect_head_length _ _ P4). auto.
Qed.

Lemma tree_binding d1 d2 t1 t2 :
  build_tree sha512 (Some d1) = Ok t1 -> build_tree sha512 (Some d2) = Ok t2 ->
  length (leaf_digests t1) = length (leaf_digests t2) -> ht_head t1 = ht_head t2 ->
  leaf_digests t1 = leaf_digests t2 \/
  exists x y, length x = 128 /\ length y = 128 /\ x <> y /\ sha512 x = sha512 y.
Proof.
  intros B1 B2 L E.
  destruct (build_tree_inv _ _ B1 (tree_ok_nonempty _ _ B1)) as (k1 & Pl1 & Pr1 & Hh1 & _ & _).
  destruct (build_tree_inv _ _ B2 (tree_ok_nonempty _ _ B2)) as (k2 & Pl2 & Pr2 & Hh2 & _ & _).
  assert (perfect (S k1) (ChildLeaf (ht_head t1) (ht_left t1) (ht_right t1))) as P1 by (constructor; assumption).
  assert (perfect (S k2) (ChildLeaf (ht_head t2) (ht_left t2) (ht_right t2))) as P2 by (constructor; assumption).
  assert (k1 = k2) as ->.
  { unfold leaf_digests, tree_compact in L. cbn [snd] in L. rewrite !map_length in L.
    change (tree_leaves t1) with (leaf_leaves (ChildLeaf (ht_head t1) (ht_left t1) (ht_right t1))) in L.
    change (tree_leaves t2) with (leaf_leaves (ChildLeaf (ht_head t2) (ht_left t2) (ht_right t2))) in L.
    rewrite (perfect_length _ _ P1), (perfect_length _ _ P2) in L.
    apply Nat.pow_inj_r in L; lia. }
  destruct (perfect_binding _ _ _ P1 P2 E) as [H|H]; [left; exact H | right; exact H].
Qed.

(* replacing a block by its digest *)
Lemma tree_block_digest_swap pre b post t :
  build_tree sha512 (Some (pre ++ b :: post)) = Ok t ->
  build_tree sha512 (Some (pre ++ from_bytes b :: post)) = Ok t.
Proof.
  intros H. rewrite <- H. unfold build_tree.
  assert (create_block_from_data sha512 (pre ++ from_bytes b :: post) = create_block_from_data sha512 (pre ++ b :: post)) as E.
  { unfold create_block_from_data. rewrite !app_length. cbn [length].
    f_equal. destruct (length pre + S (length post) <=? 1); rewrite !map_app; cbn [map]; rewrite from_bytes_idem; reflexivity. }
  rewrite E. reflexivity.
Qed.

(* the two subtree heads, used as blocks, give a two-leaf tree with the same head *)
Lemma tree_cross_size data t :
  build_tree sha512 (Some data) = Ok t ->
  exists t', build_tree sha512 (Some [leaf_head (ht_left t); leaf_head (ht_right t)]) = Ok t' /\
    ht_head t' = ht_head t /\ length (leaf_digests t') = 2.
Proof.
  intros B. destruct (build_tree_inv _ _ B (tree_ok_nonempty _ _ B)) as (k & Pl & Pr & Hh & _ & _).
  cbn. rewrite !from_bytes_64 by (eapply perfect_head_length; eauto).
  eexists; split; [reflexivity|]. cbn [ht_head]. split; [|reflexivity].
  rewrite Hh. unfold pair_hash. cbn [concat leaf_head]. rewrite app_nil_r. apply from_bytes_not64.
  rewrite app_length, (perfect_head_length _ _ Pl), (perfect_head_length _ _ Pr). discriminate.
Qed.

(* ------------------------------------------------------------------ Order *)
Definition hmap (data : list bytes) := fold_left (fun m d => mset (hash_string (from_bytes d)) d m) data (@nil (bytes * bytes)).

Lemma hmap_snoc data d : hmap (data ++ [d]) = mset (hash_string (from_bytes d)) d (hmap data).
Proof. unfold hmap. rewrite fold_left_app. reflexivity. Qed.

(* lookup = last data element with that digest *)
Lemma hmap_some data h d : mget (hash_string h) (hmap data) = Some d -> In d data /\ from_bytes d = h.
Proof.
  induction data as [|x data IH] using rev_ind; [discriminate|].
  rewrite hmap_snoc. intros H. destruct (bytes_eq_dec h (from_bytes x)) as [->|N].
  - rewrite mget_mset_same in H. injection H as <-. split; [apply in_or_app; right; left; reflexivity | reflexivity].
  - rewrite mget_mset_other in H.
    + destruct (IH H) as [I1 I2]. split; [apply in_or_app; left; exact I1 | exact I2].
    + intros E. apply hex_encode_inj in E. contradiction.
Qed.

Lemma hmap_none data h : mget (hash_string h) (hmap data) = None -> ~ In h (map from_bytes data).
Proof.
  induction data as [|x data IH] using rev_ind; [intros _ []|].
  rewrite hmap_snoc, map_app. intros H Hin. destruct (bytes_eq_dec h (from_bytes x)) as [->|N].
  - rewrite mget_mset_same in H. discriminate.
  - rewrite mget_mset_other in H by (intros E; apply hex_encode_inj in E; contradiction).
    apply in_app_or in Hin. destruct Hin as [Hin|[Hin|[]]]; [exact (IH H Hin) | congruence].
Qed.

Lemma hmap_in data d : NoDup (map from_bytes data) -> In d data -> mget (hash_string (from_bytes d)) (hmap data) = Some d.
Proof.
  intros ND Hin. destruct (mget (hash_string (from_bytes d)) (hmap data)) as [d'|] eqn:E.
  - apply hmap_some in E. destruct E as [E1 E2]. f_equal.
    clear -ND Hin E1 E2. induction data as [|x data IH]; [destruct Hin|].
    cbn [map] in ND. inversion ND as [|? ? N1 N2]; subst.
    destruct Hin as [->|Hin], E1 as [->|E1]; try reflexivity.
    + exfalso. apply N1. rewrite <- E2. apply in_map; exact E1.
    + exfalso. apply N1. rewrite E2. apply in_map; exact Hin.
    + apply IH; assumption.
  - apply hmap_none in E. exfalso. apply E. apply in_map; exact Hin.
Qed.

Definition pick (data : list bytes) (hs : list bytes) : list bytes :=
  flat_map (fun h => match mget (hash_string h) (hmap data) with Some d => [d] | None => [] end) hs.

Lemma tree_order_pick t data :
  tree_order sha512 t data =
  if length (pick data (leaf_digests t)) =? length data then Ok (pick data (leaf_digests t)) else Err.
Proof.
  unfold tree_order. fold (hmap data). unfold pick, leaf_digests, tree_compact. cbn [snd].
  assert (E : forall ls, flat_map (fun l => match mget (hash_string (leaf_head l)) (hmap data) with Some d => [d] | None => [] end) ls
     = flat_map (fun h => match mget (hash_string h) (hmap data) with Some d => [d] | None => [] end) (map leaf_head ls)).
  { induction ls as [|l ls IH]; [reflexivity|]. cbn [flat_map map]. rewrite IH. reflexivity. }
  rewrite E. reflexivity.
Qed.

Lemma pick_app data a b : pick data (a ++ b) = pick data a ++ pick data b.
Proof. unfold pick. apply flat_map_app. Qed.

Lemma pick_blocks data blocks : NoDup (map from_bytes data) -> (forall b, In b blocks -> In b data) ->
  pick data (map from_bytes blocks) = blocks.
Proof.
  intros ND. induction blocks as [|b blocks IH]; intros H; [reflexivity|].
  cbn [map]. unfold pick. cbn [flat_map]. rewrite hmap_in; [|exact ND|apply H; left; reflexivity].
  cbn [app]. f_equal. apply IH. intros x Hx. apply H. right; exact Hx.
Qed.

Lemma pick_filler data m : ~ In (from_bytes []) (map from_bytes data) -> pick data (repeat (from_bytes []) m) = [].
Proof.
  intros H. induction m as [|m IH]; [reflexivity|]. cbn [repeat]. unfold pick. cbn [flat_map].
  destruct (mget (hash_string (from_bytes [])) (hmap data)) as [d|] eqn:E.
  - apply hmap_some in E. destruct E as [E1 E2]. exfalso. apply H. rewrite <- E2. apply in_map; exact E1.
  - exact IH.
Qed.

Lemma tree_order_restores blocks t data :
  build_tree sha512 (Some blocks) = Ok t ->
  NoDup (map from_bytes blocks) -> ~ In (from_bytes []) (map from_bytes blocks) ->
  Permutation blocks data -> tree_order sha512 t data = Ok blocks.
Proof.
  intros B ND NF P. destruct (tree_leaves_spec _ _ B) as [m E]. rewrite tree_order_pick, E, pick_app.
  pose proof (Permutation_map from_bytes P) as PM.
  rewrite pick_blocks, pick_filler, app_nil_r.
  - rewrite (Permutation_length P), Nat.eqb_refl. reflexivity.
  - intros H. apply NF. apply (Permutation_in _ (Permutation_sym PM)). exact H.
  - apply (Permutation_NoDup PM ND).
  - intros b Hb. apply (Permutation_in _ P Hb).
Qed.

Lemma pick_in data hs d : In d (pick data hs) -> In d data /\ In (from_bytes d) hs.
Proof.
  unfold pick. intros H. apply in_flat_map in H. destruct H as (h & Hh & Hd).
  destruct (mget (hash_string h) (hmap data)) as [d'|] eqn:E; [|destruct Hd].
  destruct Hd as [<-|[]]. apply hmap_some in E. destruct E as [E1 E2]. subst. split; assumption.
Qed.

Lemma pick_subseq data hs : subseq (map from_bytes (pick data hs)) hs.
Proof.
  induction hs as [|h hs IH]; [constructor|]. unfold pick. cbn [flat_map].
  destruct (mget (hash_string h) (hmap data)) as [d|] eqn:E; cbn [app].
  - apply hmap_some in E. destruct E as [_ E]. cbn [map]. rewrite E. apply sub_take. exact IH.
  - apply sub_skip. exact IH.
Qed.

Lemma tree_order_sound t data out : tree_order sha512 t data = Ok out ->
  length out = length data /\ (forall d, In d out -> In d data) /\
  subseq (map from_bytes out) (leaf_digests t).
Proof.
  rewrite tree_order_pick. destruct (length (pick data (leaf_digests t)) =? length data) eqn:E; [|discriminate].
  intros H. injection H as <-. apply Nat.eqb_eq in E. split; [exact E|]. split; [|apply pick_subseq].
  intros d Hd. apply pick_in in Hd. apply Hd.
Qed.

Lemma tree_order_fails t data : tree_order sha512 t data = Err \/ exists out, tree_order sha512 t data = Ok out.
Proof. rewrite tree_order_pick. destruct (_ =? _); [right; eexists; reflexivity | left; reflexivity]. Qed.

Lemma subseq_NoDup {A} (a b : list A) : subseq a b -> NoDup b -> NoDup a.
Proof.
  assert (I : forall a b : list A, subseq a b -> forall x, In x a -> In x b).
  { clear; induction 1 as [|y a b S IH|y a b S IH]; intros x Hx; [exact Hx| |].
    - destruct Hx as [->|Hx]; [left; reflexivity | right; apply IH; exact Hx].
    - right; apply IH; exact Hx. }
  induction 1 as [|y a b S IH|y a b S IH]; intros ND; [constructor| |].
  - inversion ND as [|? ? N1 N2]; subst. constructor; [|apply IH; exact N2].
    intros H. apply N1. eapply I; eauto.
  - inversion ND; subst. apply IH; assumption.
Qed.

(* among the leaves, keep those whose digest is a digest of [data]: if none of them
   repeats, success means a permutation of the data was returned *)
Lemma pick_hashes data hs :
  map from_bytes (pick data hs) =
  filter (fun h => existsb (bytes_eqb h) (map from_bytes data)) hs.
Proof.
  induction hs as [|h hs IH]; [reflexivity|]. cbn [filter]. unfold pick. cbn [flat_map].
  destruct (mget (hash_string h) (hmap data)) as [d|] eqn:E; cbn [app].
  - apply hmap_some in E. destruct E as [E1 E2]. cbn [map].
    assert (existsb (bytes_eqb h) (map from_bytes data) = true) as ->.
    { apply existsb_exists. exists h. split; [rewrite <- E2; apply in_map; exact E1 | apply bytes_eqb_refl]. }
    rewrite E2. f_equal. exact IH.
  - apply hmap_none in E.
    destruct (existsb (bytes_eqb h) (map from_bytes data)) eqn:X; [|exact IH].
    exfalso. apply existsb_exists in X. destruct X as (y & Y1 & Y2). apply bytes_eqb_eq in Y2. subst. contradiction.
Qed.

Lemma tree_order_permutation t data out :
  NoDup (filter (fun h => existsb (bytes_eqb h) (map from_bytes data)) (leaf_digests t)) ->
  tree_order sha512 t data = Ok out -> Permutation data out.
Proof.
  intros ND H. pose proof (tree_order_sound _ _ _ H) as (L & I & _).
  rewrite tree_order_pick in H. destruct (length (pick data (leaf_digests t)) =? length data); [|discriminate].
  injection H as <-. symmetry. apply NoDup_Permutation_bis.
  - rewrite <- pick_hashes in ND. apply NoDup_map_inv in ND. exact ND.
  - lia.
  - exact I.
Qed.

Lemma block_json l : Forall (fun h => length h = 64) l ->
  block_from_strings sha512 (block_to_strings l) = Ok l.
Proof.
  intros H. unfold block_from_strings, block_to_strings.
  induction H as [|h l Hh Hl IH]; [reflexivity|]. cbn [map mapM].
  rewrite from_string_of_string by exact Hh. cbn [bind]. rewrite IH. reflexivity.
Qed.

End Hash.

Lemma toy_sha_size : digest_size toy_sha.
Proof.
  intros b. unfold toy_sha. rewrite firstn_length, app_length, repeat_length. lia.
Qed.

(* Order on the original list fails as soon as an empty block meets padding *)
Lemma pick_all sha512 data hs : (forall h, In h hs -> In h (map (from_bytes sha512) data)) ->
  length (pick sha512 data hs) = length hs.
Proof.
  induction hs as [|h hs IH]; intros H; [reflexivity|]. unfold pick. cbn [flat_map].
  destruct (mget (hash_string h) (hmap sha512 data)) as [d|] eqn:E.
  - cbn [app length]. f_equal. apply IH. intros x Hx. apply H. right; exact Hx.
  - apply hmap_none in E. exfalso. apply E, H. left; reflexivity.
Qed.

Lemma tree_order_empty_block sha512 (Hs : digest_size sha512) blocks t :
  build_tree sha512 (Some blocks) = Ok t -> In [] blocks ->
  length (leaf_digests t) <> length blocks -> tree_order sha512 t blocks = Err.
Proof.
  intros B Hin L. destruct (tree_leaves_spec sha512 Hs _ _ B) as [m E].
  rewrite tree_order_pick, pick_all.
  - apply Nat.eqb_neq in L. rewrite L. reflexivity.
  - rewrite E. intros h Hh. apply in_app_or in Hh. destruct Hh as [Hh|Hh]; [exact Hh|].
    apply repeat_spec in Hh. subst. apply in_map. exact Hin.
Qed.

Lemma tree_order_unknown sha512 (Hs : digest_size sha512) a z t :
  from_bytes sha512 a <> from_bytes sha512 z ->
  build_tree sha512 (Some [a; a]) = Ok t -> tree_order sha512 t [a; z] = Ok [a; a].
Proof.
  intros N B. destruct (build_tree_inv sha512 Hs _ _ B ltac:(discriminate)) as (k & _ & _ & _ & E & S2).
  assert (k = 0) as ->.
  { destruct S2 as (_ & _ & S2). specialize (S2 1 ltac:(cbn; lia)). cbn [length Nat.max] in S2.
    destruct k; [reflexivity|]. exfalso. cbn [Nat.pow] in S2. pose proof (Nat.pow_nonzero 2 k). lia. }
  change (2 ^ 1 - length [a; a]) with 0 in E. cbn [map repeat app] in E. rewrite tree_order_pick, E.
  assert (mget (hash_string (from_bytes sha512 a)) (hmap sha512 [a; z]) = Some a) as M.
  { unfold hmap. cbn [fold_left]. rewrite mget_mset_other.
    - apply mget_mset_same.
    - intros X. apply hex_encode_inj in X. contradiction. }
  unfold pick. cbn [flat_map]. rewrite M. reflexivity.
Qed.

Lemma from_string_hex sha512 b : from_string sha512 (hex_encode b) = Ok (from_bytes sha512 b).
Proof. unfold from_string. rewrite hex_round_trip. reflexivity. Qed.

Lemma from_multi_only_concat sha512 a b : concat a = concat b ->
  from_multi_bytes sha512 a = from_multi_bytes sha512 b.
Proof. intros E. rewrite !from_multi_concat, E. reflexivity. Qed.

Lemma from_bytes_not_injective sha512 (Hs : digest_size sha512) b : length b <> 64 ->
  exists b', b' <> b /\ from_bytes sha512 b' = from_bytes sha512 b.
Proof. intros Hb. exists (from_bytes sha512 b). apply from_bytes_second_preimage; assumption. Qed.
