(* HashProps.v - property theorems C01-C08: domain/hash and domain/hashtree.
   [sha512] is the external SHA-512 function; [digest_size sha512] says its
   output has 64 bytes, the only thing assumed about it. *)
From Coq Require Import Strings.String Strings.Byte Permutation.
From Verif Require Import GoLemmas HashModel HashSpec HashProofs.

(* the hypothesis on sha512 is satisfiable *)
Example digest_size_satisfiable : digest_size toy_sha.
Proof. exact toy_sha_size. Qed.

(* ---- C01 ---- *)
Theorem C01_from_bytes_total_64 : forall sha512, digest_size sha512 ->
  forall b, length (from_bytes sha512 b) = 64.
Proof. exact from_bytes_length. Qed.
Print Assumptions C01_from_bytes_total_64.

Theorem C01_from_bytes_verbatim : forall sha512 b, length b = 64 -> from_bytes sha512 b = b.
Proof. exact from_bytes_64. Qed.
Print Assumptions C01_from_bytes_verbatim.

Theorem C01_from_bytes_digest : forall sha512 b, length b <> 64 -> from_bytes sha512 b = sha512 b.
Proof. exact from_bytes_not64. Qed.
Print Assumptions C01_from_bytes_digest.

Theorem C01_from_bytes_idempotent : forall sha512, digest_size sha512 ->
  forall b, from_bytes sha512 (from_bytes sha512 b) = from_bytes sha512 b.
Proof. exact from_bytes_idem. Qed.
Print Assumptions C01_from_bytes_idempotent.

(* a second preimage for every input of another length than 64 *)
Theorem C01_from_bytes_injective_refuted : forall sha512, digest_size sha512 ->
  forall b, length b <> 64 ->
  exists b', b' <> b /\ from_bytes sha512 b' = from_bytes sha512 b.
Proof. exact from_bytes_not_injective. Qed.
Print Assumptions C01_from_bytes_injective_refuted.

Example C01_example : length (bs "abc") <> 64 /\ length (from_bytes toy_sha (bs "abc")) = 64.
Proof. vm_compute. split; [discriminate | reflexivity]. Qed.

(* ---- C02 ---- *)
Theorem C02_string_round_trip : forall sha512 h, length h = 64 ->
  from_string sha512 (hash_string h) = Ok h.
Proof. exact from_string_of_string. Qed.
Print Assumptions C02_string_round_trip.

Theorem C02_string_injective : forall a b, hash_string a = hash_string b -> a = b.
Proof. exact hex_encode_inj. Qed.
Print Assumptions C02_string_injective.

Theorem C02_string_shape : forall h, length h = 64 ->
  length (hash_string h) = 128 /\ forall c, In c (hash_string h) -> In c (bs "0123456789abcdef").
Proof. exact hash_string_shape. Qed.
Print Assumptions C02_string_shape.

Theorem C02_from_string_errors : forall sha512 s,
  from_string sha512 s = Err <->
  (Nat.even (length s) = false \/ exists c, In c s /\ unhex c = None).
Proof. exact from_string_err. Qed.
Print Assumptions C02_from_string_errors.

Theorem C02_from_string_value : forall sha512 b, from_string sha512 (hex_encode b) = Ok (from_bytes sha512 b).
Proof. exact from_string_hex. Qed.
Print Assumptions C02_from_string_value.

Theorem C02_compare : forall a b, hash_compare a b = true <-> a = b.
Proof. exact bytes_eqb_eq. Qed.
Print Assumptions C02_compare.

Example C02_example : exists h, length h = 64 /\ from_string toy_sha (hash_string h) = Ok h.
Proof. exists (from_bytes toy_sha (bs "x")). vm_compute. split; reflexivity. Qed.

(* ---- C03 ---- *)
Theorem C03_only_concatenation : forall sha512 a b, concat a = concat b ->
  from_multi_bytes sha512 a = from_multi_bytes sha512 b.
Proof. exact from_multi_only_concat. Qed.
Print Assumptions C03_only_concatenation.

Theorem C03_concatenation_binding : forall sha512 a b,
  length (concat a) <> 64 -> length (concat b) <> 64 ->
  from_multi_bytes sha512 a = from_multi_bytes sha512 b ->
  concat a = concat b \/ collision sha512.
Proof. exact from_multi_binding. Qed.
Print Assumptions C03_concatenation_binding.

Example C03_example : concat [bs "ab"; bs "c"] = concat [bs "a"; bs "bc"] /\ [bs "ab"; bs "c"] <> [bs "a"; bs "bc"]
  /\ length (concat [bs "ab"; bs "c"]) <> 64.
Proof. vm_compute. repeat split; discriminate. Qed.

(* ---- C04 ---- *)
Theorem C04_tree_shape : forall sha512, digest_size sha512 -> forall data, data <> [] ->
  exists k t, build_tree sha512 (Some data) = Ok t /\
    smallest_pow2_ge (Nat.max 2 (length data)) (2 ^ S k) /\
    tree_length t = 2 ^ S k /\ length (leaf_digests t) = 2 ^ S k /\ tree_height t = k + 2 /\
    (forall d x, at_depth (ht_left t) d x \/ at_depth (ht_right t) d x -> d = k).
Proof. exact tree_shape. Qed.
Print Assumptions C04_tree_shape.

Theorem C04_nil_is_error : forall sha512, build_tree sha512 None = Err.
Proof. exact (fun _ => eq_refl). Qed.
Print Assumptions C04_nil_is_error.

Theorem C04_empty_list_panics : forall sha512, build_tree sha512 (Some []) = Panic.
Proof. exact build_tree_empty. Qed.
Print Assumptions C04_empty_list_panics.

Example C04_example : exists t, build_tree toy_sha (Some [bs "a"; bs "b"; bs "c"; bs "d"; bs "e"]) = Ok t
  /\ tree_length t = 8 /\ tree_height t = 4.
Proof. eexists. vm_compute. repeat split. Qed.

(* ---- C05 ---- *)
Theorem C05_leaves_in_order : forall sha512, digest_size sha512 -> forall data t,
  build_tree sha512 (Some data) = Ok t ->
  exists m, leaf_digests t = map (from_bytes sha512) data ++ repeat (from_bytes sha512 []) m.
Proof. exact tree_leaves_spec. Qed.
Print Assumptions C05_leaves_in_order.

Theorem C05_head_is_merkle_root : forall sha512, digest_size sha512 -> forall data t,
  build_tree sha512 (Some data) = Ok t ->
  exists k, length (leaf_digests t) = 2 ^ k /\ 1 <= k /\
    ht_head t = merkle sha512 k (leaf_digests t).
Proof. exact tree_root. Qed.
Print Assumptions C05_head_is_merkle_root.

Example C05_example : exists t, build_tree toy_sha (Some [bs "a"; bs "b"; bs "c"]) = Ok t
  /\ leaf_digests t = map (from_bytes toy_sha) [bs "a"; bs "b"; bs "c"] ++ [from_bytes toy_sha []].
Proof. eexists. vm_compute. repeat split. Qed.

(* ---- C06 ---- *)
Theorem C06_head_commits_to_leaves : forall sha512, digest_size sha512 -> forall d1 d2 t1 t2,
  build_tree sha512 (Some d1) = Ok t1 -> build_tree sha512 (Some d2) = Ok t2 ->
  length (leaf_digests t1) = length (leaf_digests t2) -> ht_head t1 = ht_head t2 ->
  leaf_digests t1 = leaf_digests t2 \/
  exists x y, length x = 128 /\ length y = 128 /\ x <> y /\ sha512 x = sha512 y.
Proof. exact tree_binding. Qed.
Print Assumptions C06_head_commits_to_leaves.

(* not to the blocks themselves: any block may be replaced by its own digest *)
Theorem C06_blocks_binding_refuted : forall sha512, digest_size sha512 -> forall pre b post t,
  build_tree sha512 (Some (pre ++ b :: post)) = Ok t ->
  build_tree sha512 (Some (pre ++ from_bytes sha512 b :: post)) = Ok t.
Proof. exact tree_block_digest_swap. Qed.
Print Assumptions C06_blocks_binding_refuted.

(* and not to the number of leaves: two 64-byte blocks reproduce the head of any tree *)
Theorem C06_size_binding_refuted : forall sha512, digest_size sha512 -> forall data t,
  build_tree sha512 (Some data) = Ok t ->
  exists t', build_tree sha512 (Some [leaf_head (ht_left t); leaf_head (ht_right t)]) = Ok t' /\
    ht_head t' = ht_head t /\ length (leaf_digests t') = 2.
Proof. exact tree_cross_size. Qed.
Print Assumptions C06_size_binding_refuted.

Example C06_example : exists t1 t2,
  build_tree toy_sha (Some [bs "a"; bs "b"; bs "c"]) = Ok t1 /\
  build_tree toy_sha (Some [bs "a"; bs "b"; bs "c"; []]) = Ok t2 /\
  length (leaf_digests t1) = length (leaf_digests t2) /\ ht_head t1 = ht_head t2.
Proof. do 2 eexists. vm_compute. repeat split. Qed.

(* ---- C07 ---- *)
Theorem C07_order_restores : forall sha512, digest_size sha512 -> forall blocks t data,
  build_tree sha512 (Some blocks) = Ok t ->
  NoDup (map (from_bytes sha512) blocks) ->
  ~ In (from_bytes sha512 []) (map (from_bytes sha512) blocks) ->
  Permutation blocks data -> tree_order sha512 t data = Ok blocks.
Proof. exact tree_order_restores. Qed.
Print Assumptions C07_order_restores.

(* with an empty block and padding, Order fails on the tree's own block list *)
Theorem C07_empty_block_refuted : forall sha512, digest_size sha512 -> forall blocks t,
  build_tree sha512 (Some blocks) = Ok t -> In [] blocks ->
  length (leaf_digests t) <> length blocks -> tree_order sha512 t blocks = Err.
Proof. exact tree_order_empty_block. Qed.
Print Assumptions C07_empty_block_refuted.

Example C07_example : exists t, build_tree toy_sha (Some [bs "a"; bs "b"; bs "c"]) = Ok t
  /\ tree_order toy_sha t [bs "c"; bs "a"; bs "b"] = Ok [bs "a"; bs "b"; bs "c"].
Proof. eexists. vm_compute. repeat split. Qed.
Example C07_example_refuted : exists t, build_tree toy_sha (Some [bs "a"; []; bs "c"]) = Ok t
  /\ In [] [bs "a"; []; bs "c"] /\ length (leaf_digests t) <> length [bs "a"; []; bs "c"].
Proof. eexists. vm_compute. repeat split; [right; left; reflexivity | discriminate]. Qed.

(* ---- C08 ---- *)
Theorem C08_order_sound : forall sha512 t data out, tree_order sha512 t data = Ok out ->
  length out = length data /\ (forall d, In d out -> In d data) /\
  subseq (map (from_bytes sha512) out) (leaf_digests t).
Proof. exact tree_order_sound. Qed.
Print Assumptions C08_order_sound.

Theorem C08_order_permutation : forall sha512 t data out,
  NoDup (filter (fun h => existsb (bytes_eqb h) (map (from_bytes sha512) data)) (leaf_digests t)) ->
  tree_order sha512 t data = Ok out -> Permutation data out.
Proof. exact tree_order_permutation. Qed.
Print Assumptions C08_order_permutation.

(* without the no-repetition hypothesis foreign data is silently replaced *)
Theorem C08_repeated_leaves_refuted : forall sha512, digest_size sha512 -> forall a z t,
  from_bytes sha512 a <> from_bytes sha512 z ->
  build_tree sha512 (Some [a; a]) = Ok t -> tree_order sha512 t [a; z] = Ok [a; a].
Proof. exact tree_order_unknown. Qed.
Print Assumptions C08_repeated_leaves_refuted.

Theorem C08_json_list_round_trip : forall sha512 l, Forall (fun h => length h = 64) l ->
  block_from_strings sha512 (block_to_strings l) = Ok l.
Proof. exact block_json. Qed.
Print Assumptions C08_json_list_round_trip.

Example C08_example : exists t, build_tree toy_sha (Some [bs "a"; bs "a"]) = Ok t /\
  from_bytes toy_sha (bs "a") <> from_bytes toy_sha (bs "z").
Proof. eexists. vm_compute. split; [reflexivity | discriminate]. Qed.
