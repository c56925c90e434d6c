(* DomainProps.v - property theorems C17-C27, C52, C53: the entity builders.
   [sha512] is the external SHA-512 function.  A builder's history is any list of
   method calls; DomainSpec.v defines last_... (the last value given since the last
   Create), digest (64 bytes), built_..., same_transaction. *)
From Coq Require Import Strings.String Strings.Byte Lia.
From Verif Require Import GoLemmas HashModel HashSpec HashProofs DomainModel DomainSpec DomainProofs.

Definition d64 (c : byte) : bytes := repeat c 64.

(* ---- C17 rings ---- *)
Theorem C17_ring_built_exactly :
  forall sha512 min max ops r,
  ring_now sha512 min max (run ring_step None ops) = Ok r <->
  exists l, last_ring_list ops = Some l /\ (min <= N.of_nat (length l) <= max)%N
    /\ r = {| ring_hash := from_bytes sha512 (concat l); ring_list := l |}.
Proof. exact @ring_exact. Qed.
Print Assumptions C17_ring_built_exactly.

Theorem C17_ring_otherwise_error :
  forall sha512 min max ops,
  (exists r, ring_now sha512 min max (run ring_step None ops) = Ok r) \/ ring_now sha512 min max (run ring_step None ops) = Err.
Proof. exact @ring_total. Qed.
Print Assumptions C17_ring_otherwise_error.

(* a one-member ring is identified with its member *)
Theorem C17_ring_one_member :
  forall sha512 min max ops r h,
  ring_now sha512 min max (run ring_step None ops) = Ok r -> ring_list r = [h] -> digest h -> ring_hash r = h.
Proof. exact @ring_one_member. Qed.
Print Assumptions C17_ring_one_member.

Theorem C17_ring_hash_binding :
  forall sha512 min max min' max' ops ops' r r',
  ring_now sha512 min max (run ring_step None ops) = Ok r ->
  ring_now sha512 min' max' (run ring_step None ops') = Ok r' ->
  Forall digest (ring_list r) -> Forall digest (ring_list r') ->
  length (ring_list r) <> 1 -> length (ring_list r') <> 1 ->
  ring_hash r = ring_hash r' -> ring_list r = ring_list r' \/ collision sha512.
Proof. exact @ring_binding. Qed.
Print Assumptions C17_ring_hash_binding.

(* every ring of another size shares its hash with a one-member ring *)
Theorem C17_ring_hash_determines_members_refuted :
  forall sha512 (Hs : digest_size sha512) min max ops r,
  ring_now sha512 min max (run ring_step None ops) = Ok r -> length (ring_list r) <> 1 ->
  exists r', ring_now sha512 1 1 (run ring_step None [RWithList (Some [ring_hash r])]) = Ok r'
    /\ ring_hash r' = ring_hash r /\ ring_list r' <> ring_list r.
Proof. exact @ring_confusion. Qed.
Print Assumptions C17_ring_hash_determines_members_refuted.

Example C17_example : exists r,
  ring_now toy_sha 1 3 (run ring_step None [RWithList None; RWithList (Some [d64 "a"; d64 "b"]); RNow]) = Ok r
  /\ ring_list r = [d64 "a"; d64 "b"] /\ Forall digest (ring_list r) /\ length (ring_list r) <> 1.
Proof. eexists. split; [vm_compute; reflexivity|]. split; [reflexivity|]. split; [repeat constructor | discriminate]. Qed.
Example C17_example_rejected :
  ring_now toy_sha 2 3 (run ring_step None [RWithList (Some [d64 "a"])]) = Err /\
  ring_now toy_sha 0 1 (run ring_step None [RWithList (Some [d64 "a"; d64 "b"])]) = Err /\
  ring_now toy_sha 0 1 (run ring_step None [RWithList (Some [d64 "a"]); RCreate]) = Err.
Proof. repeat split. Qed.

(* ---- C18 unit contents ---- *)
Theorem C18_unit_content_built_exactly :
  forall sha512 ops u,
  uc_now sha512 (run uc_step uc_init ops) = Ok u <->
  exists amount nonce activated created,
    last_u_amount ops = Some amount /\ (0 < amount)%N /\
    last_u_nonce ops = Some nonce /\ nonce <> [] /\
    last_u_activated ops = Some activated /\ last_u_created ops = Some created /\
    (created <= activated)%Z /\
    u = {| uc_hash := from_bytes sha512 (itoa_uint amount ++ nonce ++ itoaZ (unix_nano activated) ++ itoaZ (unix_nano created));
           uc_amount := amount; uc_nonce := nonce; uc_activated := activated; uc_created := created |}.
Proof. exact @uc_exact. Qed.
Print Assumptions C18_unit_content_built_exactly.

Theorem C18_unit_content_otherwise_error :
  forall sha512 ops,
  (exists r, uc_now sha512 (run uc_step uc_init ops) = Ok r) \/ uc_now sha512 (run uc_step uc_init ops) = Err.
Proof. exact @uc_total. Qed.
Print Assumptions C18_unit_content_otherwise_error.

Theorem C18_unit_built_exactly :
  forall sha512 ops u,
  gu_now sha512 (run gu_step gu_init ops) = Ok u <->
  exists c o, last_gu_content_of ops = Some c /\ last_gu_owner_of ops = Some o /\
    u = {| gu_hash := from_bytes sha512 (uc_hash c ++ ring_hash o); gu_content := c; gu_owner := o |}.
Proof. exact @gu_exact. Qed.
Print Assumptions C18_unit_built_exactly.

Definition ex_uc := [UWithAmount 5; UWithNonce (bs "x"); UActivatedOn 30; UCreatedOn 20; UWithAmount 7; UNow].
Example C18_example : exists u, uc_now toy_sha (run uc_step uc_init ex_uc) = Ok u /\ uc_amount u = 7%N /\ uc_created u = 20%Z.
Proof. eexists. split; [vm_compute; reflexivity|]. split; reflexivity. Qed.
Example C18_example_rejected :
  uc_now toy_sha (run uc_step uc_init (ex_uc ++ [UActivatedOn 19])) = Err /\
  uc_now toy_sha (run uc_step uc_init (ex_uc ++ [UWithAmount 0])) = Err /\
  uc_now toy_sha (run uc_step uc_init (ex_uc ++ [UCreate])) = Err.
Proof. repeat split. Qed.

(* ---- C19 genesis ---- *)
Theorem C19_genesis_built_exactly :
  forall sha512 ops g,
  g_now sha512 (run g_step g_init ops) = Ok g <->
  exists u f t, last_g_units_of ops = Some u /\ last_g_fees_of ops = Some f /\ last_g_created_of ops = Some t /\
    (forall x, In x (snd u) -> (t <= uc_created (gu_content x))%Z) /\
    g = {| g_hash := from_bytes sha512 (itoa_uint f ++ fst u ++ itoaZ (unix_nano t));
           g_units := u; g_fees := f; g_created := t |}.
Proof. exact @g_exact. Qed.
Print Assumptions C19_genesis_built_exactly.

Theorem C19_genesis_otherwise_error :
  forall sha512 ops,
  (exists r, g_now sha512 (run g_step g_init ops) = Ok r) \/ g_now sha512 (run g_step g_init ops) = Err.
Proof. exact @g_total. Qed.
Print Assumptions C19_genesis_otherwise_error.

(* creation times of equal text length (all those between 2001 and 2262) *)
Theorem C19_genesis_hash_binding :
  forall sha512 ops ops' g g',
  g_now sha512 (run g_step g_init ops) = Ok g -> g_now sha512 (run g_step g_init ops') = Ok g' ->
  digest (fst (g_units g)) -> digest (fst (g_units g')) -> uint64 (g_fees g) -> uint64 (g_fees g') ->
  in_nano_range (g_created g) -> in_nano_range (g_created g') ->
  length (itoaZ (g_created g)) = length (itoaZ (g_created g')) ->
  g_hash g = g_hash g' ->
  (g_fees g = g_fees g' /\ fst (g_units g) = fst (g_units g') /\ g_created g = g_created g') \/ collision sha512.
Proof. exact @genesis_binding. Qed.
Print Assumptions C19_genesis_hash_binding.

Theorem C19_unit_hash_binding :
  forall sha512 ops ops' u u',
  gu_now sha512 (run gu_step gu_init ops) = Ok u -> gu_now sha512 (run gu_step gu_init ops') = Ok u' ->
  digest (uc_hash (gu_content u)) -> digest (ring_hash (gu_owner u)) ->
  digest (uc_hash (gu_content u')) -> digest (ring_hash (gu_owner u')) ->
  gu_hash u = gu_hash u' ->
  (uc_hash (gu_content u) = uc_hash (gu_content u') /\ ring_hash (gu_owner u) = ring_hash (gu_owner u')) \/ collision sha512.
Proof. exact @unit_binding. Qed.
Print Assumptions C19_unit_hash_binding.

Theorem C19_genesis_private_built_exactly :
  forall sha512 ops p,
  gp_now sha512 (run gp_step gp_init ops) = Ok p <->
  exists u k, last_gp_unit_of ops = Some u /\ last_gp_pk_of ops = Some k /\
    p = {| gp_hash := from_bytes sha512 (gu_hash u ++ k); gp_unit := u; gp_pk := k |}.
Proof. exact @gp_exact. Qed.
Print Assumptions C19_genesis_private_built_exactly.

Theorem C19_genesis_private_hash_binding :
  forall sha512 ops ops' p p',
  gp_now sha512 (run gp_step gp_init ops) = Ok p -> gp_now sha512 (run gp_step gp_init ops') = Ok p' ->
  digest (gu_hash (gp_unit p)) -> digest (gu_hash (gp_unit p')) -> gp_pk p <> [] -> gp_pk p' <> [] ->
  gp_hash p = gp_hash p' ->
  (gu_hash (gp_unit p) = gu_hash (gp_unit p') /\ gp_pk p = gp_pk p') \/ collision sha512.
Proof. exact @gprivate_binding. Qed.
Print Assumptions C19_genesis_private_hash_binding.

Definition ex_unit : gunit :=
  {| gu_hash := d64 "u"; gu_content := {| uc_hash := d64 "c"; uc_amount := 1; uc_nonce := bs "n"; uc_activated := 30; uc_created := 20 |};
     gu_owner := {| ring_hash := d64 "r"; ring_list := [d64 "r"] |} |}.
Example C19_example : exists g,
  g_now toy_sha (run g_step g_init [GWithUnits (Some (d64 "u", [ex_unit])); GWithFees 3; GCreatedOn 20]) = Ok g
  /\ digest (fst (g_units g)) /\ uint64 (g_fees g) /\ in_nano_range (g_created g).
Proof. eexists. split; [vm_compute; reflexivity|]. repeat split; reflexivity || (cbn; lia) || discriminate. Qed.
Example C19_example_rejected :
  g_now toy_sha (run g_step g_init [GWithUnits (Some (d64 "u", [ex_unit])); GWithFees 3; GCreatedOn 21]) = Err.
Proof. reflexivity. Qed.

(* ---- C20 unit content hash ---- *)
Theorem C20_distinct_contents_distinct_hashes_refuted :
  forall sha512 s a c,
  s <> [] -> (c <= a)%Z ->
  exists ops ops' u u',
    uc_now sha512 (run uc_step uc_init ops) = Ok u /\ uc_now sha512 (run uc_step uc_init ops') = Ok u' /\
    uc_amount u = 1%N /\ uc_nonce u = bs "2" ++ s /\ uc_amount u' = 12%N /\ uc_nonce u' = s /\
    uc_activated u = a /\ uc_activated u' = a /\ uc_created u = c /\ uc_created u' = c /\
    uc_hash u = uc_hash u'.
Proof. exact @unit_content_collision. Qed.
Print Assumptions C20_distinct_contents_distinct_hashes_refuted.

Theorem C20_unit_content_hash_binding :
  forall sha512 ops ops' u u',
  uc_now sha512 (run uc_step uc_init ops) = Ok u -> uc_now sha512 (run uc_step uc_init ops') = Ok u' ->
  uc_amount u = uc_amount u' ->
  in_nano_range (uc_activated u) -> in_nano_range (uc_activated u') ->
  in_nano_range (uc_created u) -> in_nano_range (uc_created u') ->
  length (itoaZ (uc_activated u)) = length (itoaZ (uc_activated u')) ->
  length (itoaZ (uc_created u)) = length (itoaZ (uc_created u')) ->
  length (itoa_uint (uc_amount u) ++ uc_nonce u ++ itoaZ (uc_activated u) ++ itoaZ (uc_created u)) <> 64 ->
  length (itoa_uint (uc_amount u') ++ uc_nonce u' ++ itoaZ (uc_activated u') ++ itoaZ (uc_created u')) <> 64 ->
  uc_hash u = uc_hash u' -> u = u' \/ collision sha512.
Proof. exact @unit_content_binding. Qed.
Print Assumptions C20_unit_content_hash_binding.

(* a content whose text has 64 bytes has that text as its hash, in clear *)
Theorem C20_hash_hides_content_refuted :
  forall sha512 ops u,
  uc_now sha512 (run uc_step uc_init ops) = Ok u ->
  in_nano_range (uc_activated u) -> in_nano_range (uc_created u) ->
  length (itoa_uint (uc_amount u) ++ uc_nonce u ++ itoaZ (uc_activated u) ++ itoaZ (uc_created u)) = 64 ->
  uc_hash u = itoa_uint (uc_amount u) ++ uc_nonce u ++ itoaZ (uc_activated u) ++ itoaZ (uc_created u).
Proof. exact @unit_content_clear. Qed.
Print Assumptions C20_hash_hides_content_refuted.

Example C20_example : exists ops u, uc_now toy_sha (run uc_step uc_init ops) = Ok u /\
  in_nano_range (uc_activated u) /\ in_nano_range (uc_created u) /\
  length (itoa_uint (uc_amount u) ++ uc_nonce u ++ itoaZ (uc_activated u) ++ itoaZ (uc_created u)) <> 64.
Proof. exists ex_uc. eexists. split; [vm_compute; reflexivity|]. repeat split; cbn; lia. Qed.
Example C20_example_clear : exists u,
  uc_now toy_sha (run uc_step uc_init [UWithAmount 5; UWithNonce (repeat "x"%byte 59); UActivatedOn 30; UCreatedOn 20]) = Ok u /\
  uc_hash u = bs "5" ++ repeat "x"%byte 59 ++ bs "3020".
Proof. eexists. split; vm_compute; reflexivity. Qed.

(* ---- C21 transactions ---- *)
Theorem C21_origin_built_exactly :
  forall ops o,
  o_now (run o_step o_init ops) = Ok o <->
  (exists u, last_o_genesis_of ops = Some u /\ o = OGenesis u) \/
  (last_o_genesis_of ops = None /\ exists t, last_o_trx_of ops = Some t /\ o = OTransaction t).
Proof. exact @o_exact. Qed.
Print Assumptions C21_origin_built_exactly.

Theorem C21_content_built_exactly :
  forall sha512 ops c,
  tc_now sha512 (run tc_step tc_init ops) = Ok c <->
  exists w a o e t, last_tc_owner_of ops = Some w /\ last_tc_amount_of ops = Some a /\
    last_tc_origin_of ops = Some o /\ last_tc_external_of ops = Some e /\ last_tc_created_of ops = Some t /\
    c = TContent (from_bytes sha512 (ring_hash w ++ a ++ o_hash o ++ e ++ itoaZ (unix t))) w a o e t.
Proof. exact @tc_exact. Qed.
Print Assumptions C21_content_built_exactly.

Theorem C21_content_hash_binding :
  forall sha512 ops ops' c c',
  tc_now sha512 (run tc_step tc_init ops) = Ok c -> tc_now sha512 (run tc_step tc_init ops') = Ok c' ->
  digest (ring_hash (tc_owner c)) -> digest (tc_amount c) -> digest (o_hash (tc_origin c)) -> digest (tc_external c) ->
  digest (ring_hash (tc_owner c')) -> digest (tc_amount c') -> digest (o_hash (tc_origin c')) -> digest (tc_external c') ->
  tc_hash c = tc_hash c' ->
  (ring_hash (tc_owner c) = ring_hash (tc_owner c') /\ tc_amount c = tc_amount c' /\
   o_hash (tc_origin c) = o_hash (tc_origin c') /\ tc_external c = tc_external c' /\ unix (tc_created c) = unix (tc_created c'))
  \/ collision sha512.
Proof. exact @content_binding. Qed.
Print Assumptions C21_content_hash_binding.

(* two instants of the same second *)
Theorem C21_content_hash_determines_time_refuted :
  forall sha512 w a o e t,
  exists ops ops' c c', tc_now sha512 (run tc_step tc_init ops) = Ok c /\ tc_now sha512 (run tc_step tc_init ops') = Ok c' /\
    tc_owner c = w /\ tc_amount c = a /\ tc_origin c = o /\ tc_external c = e /\ tc_created c = (t * 1000000000)%Z /\
    tc_owner c' = w /\ tc_amount c' = a /\ tc_origin c' = o /\ tc_external c' = e /\ tc_created c' = (t * 1000000000 + 999999999)%Z /\
    tc_hash c = tc_hash c'.
Proof. exact @content_subsecond. Qed.
Print Assumptions C21_content_hash_determines_time_refuted.

(* the authorisation is not verified *)
Theorem C21_transaction_built_exactly :
  forall sha512 ops t,
  t_now sha512 (run t_step t_init ops) = Ok t <->
  exists c a, last_t_content_of ops = Some c /\ last_t_auth_of ops = Some a /\
    t = Transaction (from_bytes sha512 (tc_hash c ++ a)) c a.
Proof. exact @t_exact. Qed.
Print Assumptions C21_transaction_built_exactly.

Theorem C21_transaction_hash_binding :
  forall sha512 ops ops' t t',
  t_now sha512 (run t_step t_init ops) = Ok t -> t_now sha512 (run t_step t_init ops') = Ok t' ->
  digest (tc_hash (t_content t)) -> digest (tc_hash (t_content t')) -> t_auth t <> [] -> t_auth t' <> [] ->
  t_hash t = t_hash t' ->
  (tc_hash (t_content t) = tc_hash (t_content t') /\ t_auth t = t_auth t') \/ collision sha512.
Proof. exact @transaction_binding. Qed.
Print Assumptions C21_transaction_hash_binding.

Definition ex_ring : ring := {| ring_hash := d64 "r"; ring_list := [d64 "r"] |}.
Definition ex_tc_ops := [TCWithOwner (Some ex_ring); TCWithAmount (d64 "a"); TCWithOrigin (Some (OGenesis ex_unit));
  TCWithExternal (d64 "e"); TCCreatedOn 5000000000].
Example C21_example : exists c, tc_now toy_sha (run tc_step tc_init ex_tc_ops) = Ok c
  /\ digest (ring_hash (tc_owner c)) /\ digest (tc_amount c) /\ digest (o_hash (tc_origin c)) /\ digest (tc_external c)
  /\ exists t, t_now toy_sha (run t_step t_init [TWithContent (Some c); TWithAuthorization (Some (bs "sig"))]) = Ok t
  /\ t_auth t <> [].
Proof.
  eexists. split; [vm_compute; reflexivity|]. do 4 (split; [vm_compute; reflexivity|]).
  eexists. split; [vm_compute; reflexivity|]. discriminate.
Qed.

(* ---- C22 private transactions and receipts ---- *)
Theorem C22_receipts_share_one_hash : forall sha512 ops ops' r r',
  rc_now sha512 (run rc_step rc_init ops) = Ok r -> rc_now sha512 (run rc_step rc_init ops') = Ok r' ->
  rc_hash r = rc_hash r' /\ rc_hash r = from_bytes sha512 [].
Proof. exact receipts_share. Qed.
Print Assumptions C22_receipts_share_one_hash.

Theorem C22_privates_share_one_hash : forall sha512 ops ops' p p',
  tp_now sha512 (run tp_step tp_init ops) = Ok p -> tp_now sha512 (run tp_step tp_init ops') = Ok p' ->
  tp_hash p = tp_hash p' /\ tp_hash p = from_bytes sha512 [].
Proof. exact privates_share. Qed.
Print Assumptions C22_privates_share_one_hash.

Theorem C22_private_and_receipt_share_one_hash : forall sha512 ops ops' p r,
  tp_now sha512 (run tp_step tp_init ops) = Ok p -> rc_now sha512 (run rc_step rc_init ops') = Ok r ->
  tp_hash p = rc_hash r.
Proof. exact private_receipt_share. Qed.
Print Assumptions C22_private_and_receipt_share_one_hash.

(* two lists of private transactions of the same length have the same hash *)
Theorem C22_private_lists_share_by_length : forall sha512 ops ops' l l',
  list_now sha512 tp_hash (run list_step None ops) = Ok l -> list_now sha512 tp_hash (run list_step None ops') = Ok l' ->
  (forall p, In p (snd l ++ snd l') -> exists ops, tp_now sha512 (run tp_step tp_init ops) = Ok p) ->
  length (snd l) = length (snd l') -> fst l = fst l'.
Proof. exact private_lists_share. Qed.
Print Assumptions C22_private_lists_share_by_length.

Theorem C22_receipt_built_exactly :
  forall sha512 ops r,
  rc_now sha512 (run rc_step rc_init ops) = Ok r <->
  exists s g, last_rc_secret_of ops = Some s /\ last_rc_sig_of ops = Some g /\
    r = {| rc_hash := from_bytes sha512 []; rc_secret := s; rc_sig := g |}.
Proof. exact @rc_exact. Qed.
Print Assumptions C22_receipt_built_exactly.

Theorem C22_private_built_exactly :
  forall sha512 ops r,
  tp_now sha512 (run tp_step tp_init ops) = Ok r <->
  exists k x, last_tp_pk_of ops = Some k /\ last_tp_receipt_of ops = Some x /\
    r = {| tp_hash := from_bytes sha512 []; tp_pk := k; tp_receipt := x |}.
Proof. exact @tp_exact. Qed.
Print Assumptions C22_private_built_exactly.

Definition ex_trx : transaction := Transaction (d64 "t") (TContent (d64 "c") ex_ring (d64 "a") (OGenesis ex_unit) (d64 "e") 0) (bs "sig").
Definition ex_secret : secret := Secret (d64 "s") 3 (bs "n") ex_trx None None.
Example C22_example : exists r r', rc_now toy_sha (run rc_step rc_init [RCWithSecret (Some ex_secret); RCWithSignature (Some (bs "x"))]) = Ok r
  /\ rc_now toy_sha (run rc_step rc_init [RCWithSecret (Some ex_secret); RCWithSignature (Some (bs "y"))]) = Ok r' /\ r <> r'
  /\ exists p, tp_now toy_sha (run tp_step tp_init [TPWithPrivateKey (Some (bs "k")); TPWithReceipt (Some r)]) = Ok p.
Proof. do 2 eexists. split; [reflexivity|]. split; [reflexivity|]. split; [discriminate|]. eexists. reflexivity. Qed.

(* ---- C23 secrets ---- *)
Theorem C23_secret_built_exactly :
  forall sha512 ops s,
  s_now sha512 (run s_step s_init ops) = Ok s <->
  exists n v p, last_s_amount_of ops = Some n /\ (0 < n)%N /\ last_s_nonce_of ops = Some v /\ v <> [] /\
    last_s_public_of ops = Some p /\
    s = Secret (from_bytes sha512 (t_hash p ++ itoa_uint n ++ v
                  ++ match last_s_origin_of ops with Some x => s_hash x | None => [] end
                  ++ match last_s_sides_of ops with Some x => fst x | None => [] end))
          n v p (last_s_origin_of ops) (last_s_sides_of ops).
Proof. exact @s_exact. Qed.
Print Assumptions C23_secret_built_exactly.

Theorem C23_secret_otherwise_error :
  forall sha512 ops,
  (exists r, s_now sha512 (run s_step s_init ops) = Ok r) \/ s_now sha512 (run s_step s_init ops) = Err.
Proof. exact @s_total. Qed.
Print Assumptions C23_secret_otherwise_error.

Theorem C23_amount_nonce_refuted :
  forall sha512 p s,
  s <> [] ->
  exists ops ops' x x', s_now sha512 (run s_step s_init ops) = Ok x /\ s_now sha512 (run s_step s_init ops') = Ok x' /\
    s_public x = p /\ s_public x' = p /\ s_amount x = 1%N /\ s_nonce x = bs "2" ++ s /\ s_amount x' = 12%N /\ s_nonce x' = s /\
    s_hash x = s_hash x'.
Proof. exact @secret_resplit. Qed.
Print Assumptions C23_amount_nonce_refuted.

(* a secret with an origin, and one without whose nonce ends with the origin digest *)
Theorem C23_nonce_origin_refuted :
  forall sha512 (Hs : digest_size sha512) n v p o,
  (0 < n)%N -> v <> [] ->
  exists ops ops' x x', s_now sha512 (run s_step s_init ops) = Ok x /\ s_now sha512 (run s_step s_init ops') = Ok x' /\
    s_public x = p /\ s_public x' = p /\ s_amount x = n /\ s_amount x' = n /\
    s_nonce x = v /\ s_origin x = Some o /\ s_nonce x' = v ++ s_hash o /\ s_origin x' = None /\
    s_sides x = None /\ s_sides x' = None /\
    s_hash x = s_hash x'.
Proof. exact @secret_absorb. Qed.
Print Assumptions C23_nonce_origin_refuted.

(* a secret with an origin, and one with that secret as its only side *)
Theorem C23_origin_sides_refuted :
  forall sha512 n v p o,
  (0 < n)%N -> v <> [] -> digest (s_hash o) ->
  exists ops ops' ops'' x x' sides, 
    list_now sha512 s_hash (run list_step None ops'') = Ok sides /\ snd sides = [o] /\
    s_now sha512 (run s_step s_init ops) = Ok x /\ s_now sha512 (run s_step s_init ops') = Ok x' /\
    s_public x = p /\ s_public x' = p /\ s_amount x = n /\ s_amount x' = n /\ s_nonce x = v /\ s_nonce x' = v /\
    s_origin x = Some o /\ s_sides x = None /\ s_origin x' = None /\ s_sides x' = Some sides /\
    s_hash x = s_hash x'.
Proof. exact @secret_origin_sides. Qed.
Print Assumptions C23_origin_sides_refuted.

(* what the hash commits to unconditionally: the public transaction *)
Theorem C23_secret_hash_commits_to_public :
  forall sha512 ops ops' x x',
  s_now sha512 (run s_step s_init ops) = Ok x -> s_now sha512 (run s_step s_init ops') = Ok x' ->
  digest (t_hash (s_public x)) -> digest (t_hash (s_public x')) ->
  s_hash x = s_hash x' -> t_hash (s_public x) = t_hash (s_public x') \/ collision sha512.
Proof. exact @secret_binding. Qed.
Print Assumptions C23_secret_hash_commits_to_public.

(* for the same amount, nonce length and presence of an origin *)
Theorem C23_secret_hash_binding :
  forall sha512 ops ops' x x',
  s_now sha512 (run s_step s_init ops) = Ok x -> s_now sha512 (run s_step s_init ops') = Ok x' ->
  digest (t_hash (s_public x)) -> digest (t_hash (s_public x')) ->
  opt_digest (option_map s_hash (s_origin x)) -> opt_digest (option_map s_hash (s_origin x')) ->
  opt_digest (option_map fst (s_sides x)) -> opt_digest (option_map fst (s_sides x')) ->
  s_amount x = s_amount x' -> length (s_nonce x) = length (s_nonce x') ->
  (s_origin x = None <-> s_origin x' = None) ->
  s_hash x = s_hash x' ->
  (t_hash (s_public x) = t_hash (s_public x') /\ s_nonce x = s_nonce x' /\
   option_map s_hash (s_origin x) = option_map s_hash (s_origin x') /\
   option_map fst (s_sides x) = option_map fst (s_sides x')) \/ collision sha512.
Proof. exact @secret_binding_full. Qed.
Print Assumptions C23_secret_hash_binding.

Example C23_example : exists x,
  s_now toy_sha (run s_step s_init [SWithAmount 4; SWithNonce (bs "n"); SWithPublic (Some ex_trx); SWithOrigin (Some ex_secret)]) = Ok x
  /\ digest (t_hash (s_public x)) /\ digest (s_hash ex_secret).
Proof. eexists. split; [vm_compute; reflexivity|]. split; vm_compute; reflexivity. Qed.

(* ---- C24 blocks ---- *)
Theorem C24_block_built_exactly :
  forall sha512 ops b,
  b_now sha512 (run b_step b_init ops) = Ok b <->
  exists n f x t, last_b_height_of ops = Some n /\ (0 < n)%N /\ last_b_fees_of ops = Some f /\
    last_b_trx_of ops = Some x /\ last_b_created_of ops = Some t /\
    b = {| b_hash := from_bytes sha512 (itoa_uint n ++ ring_hash f ++ fst x ++ itoaZ (unix t)
                       ++ match last_b_previous_of ops with Some h => h | None => [] end);
           b_height := n; b_fees := f; b_trx := x; b_created := t; b_previous := last_b_previous_of ops |}.
Proof. exact @b_exact. Qed.
Print Assumptions C24_block_built_exactly.

Theorem C24_block_otherwise_error :
  forall sha512 ops,
  (exists r, b_now sha512 (run b_step b_init ops) = Ok r) \/ b_now sha512 (run b_step b_init ops) = Err.
Proof. exact @b_total. Qed.
Print Assumptions C24_block_otherwise_error.

(* creation seconds of equal text length (all those between 2001 and 2286) *)
Theorem C24_block_hash_binding :
  forall sha512 ops ops' b b',
  b_now sha512 (run b_step b_init ops) = Ok b -> b_now sha512 (run b_step b_init ops') = Ok b' ->
  digest (ring_hash (b_fees b)) -> digest (fst (b_trx b)) -> opt_digest (b_previous b) ->
  digest (ring_hash (b_fees b')) -> digest (fst (b_trx b')) -> opt_digest (b_previous b') ->
  uint64 (b_height b) -> uint64 (b_height b') -> in_unix_range (b_created b) -> in_unix_range (b_created b') ->
  length (itoaZ (unix (b_created b))) = length (itoaZ (unix (b_created b'))) ->
  b_hash b = b_hash b' ->
  (b_height b = b_height b' /\ ring_hash (b_fees b) = ring_hash (b_fees b') /\ fst (b_trx b) = fst (b_trx b') /\
   unix (b_created b) = unix (b_created b') /\ b_previous b = b_previous b') \/ collision sha512.
Proof. exact @block_binding. Qed.
Print Assumptions C24_block_hash_binding.

Definition ex_b_ops := [BWithHeight 1; BWithFees (Some ex_ring); BWithTransactions (Some (d64 "t", [ex_trx])); BCreatedOn 1600000000000000000;
  BWithPrevious (d64 "p")].
Example C24_example : exists b, b_now toy_sha (run b_step b_init ex_b_ops) = Ok b /\ digest (ring_hash (b_fees b)) /\
  digest (fst (b_trx b)) /\ opt_digest (b_previous b) /\ uint64 (b_height b) /\ in_unix_range (b_created b).
Proof. eexists. split; [vm_compute; reflexivity|]. repeat split; try (vm_compute; reflexivity); vm_compute; discriminate. Qed.
Example C24_example_no_previous : is_ok (b_now toy_sha (run b_step b_init (firstn 4 ex_b_ops))) = true.
Proof. reflexivity. Qed.
Example C24_example_rejected : b_now toy_sha (run b_step b_init (ex_b_ops ++ [BWithHeight 0])) = Err.
Proof. reflexivity. Qed.

(* ---- C25 chains ---- *)
Theorem C25_chain_built_exactly :
  forall sha512 ops c,
  c_now sha512 (run c_step c_init ops) = Ok c <->
  exists i r t, last_c_id_of ops = Some i /\ last_c_root_of ops = Some r /\ last_c_created_of ops = Some t /\
    c = {| c_id := i;
           c_hash := from_bytes sha512 (i ++ r ++ itoaZ (unix t)
                       ++ match last_c_head_of ops with Some b => b_hash b | None => [] end);
           c_root := r; c_created := t; c_head := last_c_head_of ops |}.
Proof. exact @c_exact. Qed.
Print Assumptions C25_chain_built_exactly.

Theorem C25_chain_otherwise_error :
  forall sha512 ops,
  (exists r, c_now sha512 (run c_step c_init ops) = Ok r) \/ c_now sha512 (run c_step c_init ops) = Err.
Proof. exact @c_total. Qed.
Print Assumptions C25_chain_otherwise_error.

Theorem C25_chain_hash_binding :
  forall sha512 ops ops' c c',
  c_now sha512 (run c_step c_init ops) = Ok c -> c_now sha512 (run c_step c_init ops') = Ok c' ->
  length (c_id c) = 16 -> length (c_id c') = 16 -> digest (c_root c) -> digest (c_root c') ->
  opt_digest (option_map b_hash (c_head c)) -> opt_digest (option_map b_hash (c_head c')) ->
  in_unix_range (c_created c) -> in_unix_range (c_created c') ->
  c_hash c = c_hash c' ->
  (c_id c = c_id c' /\ c_root c = c_root c' /\ unix (c_created c) = unix (c_created c') /\
   option_map b_hash (c_head c) = option_map b_hash (c_head c')) \/ collision sha512.
Proof. exact @chain_binding. Qed.
Print Assumptions C25_chain_hash_binding.

Example C25_example : exists c,
  c_now toy_sha (run c_step c_init [CWithID (repeat "i"%byte 16); CWithRoot (d64 "r"); CCreatedOn 5]) = Ok c /\
  length (c_id c) = 16 /\ digest (c_root c) /\ opt_digest (option_map b_hash (c_head c)) /\ in_unix_range (c_created c).
Proof. eexists. split; [vm_compute; reflexivity|]. repeat split; try (vm_compute; reflexivity); vm_compute; discriminate. Qed.

(* ---- C26 peers ---- *)
(* a delimiter with a character that is not a digit, first occurring right after the host *)
Theorem C26_peer_text_round_trip :
  forall d h n x,
  In x d -> is_digit x = false -> h <> [] -> (forall i, i < length h -> ~ occurs_at d (h ++ d) i) ->
  (n < 2 ^ 63)%N ->
  p_now (run p_step (p_init d) [PWithString (peer_string {| p_host := h; p_port := n; p_delim := d |})])
    = Ok {| p_host := h; p_port := n; p_delim := d |}.
Proof. exact @peer_round_trip. Qed.
Print Assumptions C26_peer_text_round_trip.

(* the usual case: a one-character delimiter absent from the host *)
Theorem C26_peer_text_round_trip_char :
  forall x h n,
  is_digit x = false -> h <> [] -> ~ In x h -> (n < 2 ^ 63)%N ->
  p_now (run p_step (p_init [x]) [PWithString (peer_string {| p_host := h; p_port := n; p_delim := [x] |})])
    = Ok {| p_host := h; p_port := n; p_delim := [x] |}.
Proof. exact @peer_round_trip1. Qed.
Print Assumptions C26_peer_text_round_trip_char.

Theorem C26_peer_text_accepted_exactly :
  forall d ops s p,
  d <> [] -> ~ In PNow ops -> last_p_string ops = Some s -> s <> [] ->
  (p_now (run p_step (p_init d) ops) = Ok p <->
   exists h t z, s = h ++ d ++ t /\ (forall i, i < length h -> ~ occurs_at d s i) /\ (forall i, i < length t -> ~ occurs_at d t i) /\
     h <> [] /\ atoi t = Some z /\ p = {| p_host := h; p_port := to_uint64 z; p_delim := d |}).
Proof. exact @peer_exact. Qed.
Print Assumptions C26_peer_text_accepted_exactly.

Theorem C26_peer_parts_accepted_exactly :
  forall d ops p,
  ~ In PNow ops -> last_p_string ops = None \/ last_p_string ops = Some [] ->
  (p_now (run p_step (p_init d) ops) = Ok p <->
   exists h n, last_p_host ops = Some h /\ h <> [] /\ last_p_port ops = Some n /\ p = {| p_host := h; p_port := n; p_delim := d |}).
Proof. exact @peer_host_port. Qed.
Print Assumptions C26_peer_parts_accepted_exactly.

Theorem C26_peer_otherwise_error :
  forall d ops,
  (exists p, p_now (run p_step (p_init d) ops) = Ok p) \/ p_now (run p_step (p_init d) ops) = Err.
Proof. exact @peer_total. Qed.
Print Assumptions C26_peer_otherwise_error.

(* ports above 2^63 have a text that is not accepted *)
Theorem C26_large_port_round_trip_refuted :
  forall d h n x,
  In x d -> is_digit x = false -> h <> [] -> (forall i, i < length h -> ~ occurs_at d (h ++ d) i) ->
  (2 ^ 63 <= n)%N ->
  p_now (run p_step (p_init d) [PWithString (peer_string {| p_host := h; p_port := n; p_delim := d |})]) = Err.
Proof. exact @peer_big_port. Qed.
Print Assumptions C26_large_port_round_trip_refuted.

(* a negative port text is accepted and wraps around *)
Theorem C26_negative_port_rejected_refuted :
  p_now (run p_step (p_init (bs ":")) [PWithString (bs "h:-1")]) = Ok {| p_host := bs "h"; p_port := 2 ^ 64 - 1; p_delim := bs ":" |}.
Proof. reflexivity. Qed.
Print Assumptions C26_negative_port_rejected_refuted.

Example C26_example : p_now (run p_step (p_init (bs ":")) [PWithString (bs "127.0.0.1:8080")])
  = Ok {| p_host := bs "127.0.0.1"; p_port := 8080; p_delim := bs ":" |}
  /\ p_now (run p_step (p_init (bs ":")) [PWithString (bs "a:b:80")]) = Err
  /\ p_now (run p_step (p_init (bs ":")) [PWithString (bs ":80")]) = Err
  /\ p_now (run p_step (p_init (bs ":")) [PWithString (bs "h:x")]) = Err.
Proof. repeat split. Qed.
Example C26_example_hypotheses : In ":"%byte (bs "::") /\ is_digit ":" = false /\ bs "host" <> [] /\
  (forall i, i < length (bs "host") -> ~ occurs_at (bs "::") (bs "host" ++ bs "::") i) /\ (80 < 2 ^ 63)%N.
Proof.
  split; [left; reflexivity|]. split; [reflexivity|]. split; [discriminate|]. split; [|reflexivity].
  intros i Hi. rewrite occurs_at_prefix. cbn in Hi. intros [_ H].
  destruct i as [|[|[|[|i]]]]; try discriminate H. lia.
Qed.

(* ---- C27 the last call wins, Create resets ---- *)
Theorem C27_last_call_wins_unit_content :
  forall sha512 ops ops',
  last_u_amount ops = last_u_amount ops' ->
  last_u_nonce ops = last_u_nonce ops' ->
  last_u_activated ops = last_u_activated ops' ->
  last_u_created ops = last_u_created ops' ->
  uc_now sha512 (run uc_step uc_init ops) = uc_now sha512 (run uc_step uc_init ops').
Proof. exact last_wins_unit_content. Qed.
Print Assumptions C27_last_call_wins_unit_content.

Theorem C27_last_call_wins_unit :
  forall sha512 ops ops',
  last_gu_content_of ops = last_gu_content_of ops' ->
  last_gu_owner_of ops = last_gu_owner_of ops' ->
  gu_now sha512 (run gu_step gu_init ops) = gu_now sha512 (run gu_step gu_init ops').
Proof. exact last_wins_unit. Qed.
Print Assumptions C27_last_call_wins_unit.

Theorem C27_last_call_wins_genesis :
  forall sha512 ops ops',
  last_g_units_of ops = last_g_units_of ops' ->
  last_g_fees_of ops = last_g_fees_of ops' ->
  last_g_created_of ops = last_g_created_of ops' ->
  g_now sha512 (run g_step g_init ops) = g_now sha512 (run g_step g_init ops').
Proof. exact last_wins_genesis. Qed.
Print Assumptions C27_last_call_wins_genesis.

Theorem C27_last_call_wins_genesis_private :
  forall sha512 ops ops',
  last_gp_unit_of ops = last_gp_unit_of ops' ->
  last_gp_pk_of ops = last_gp_pk_of ops' ->
  gp_now sha512 (run gp_step gp_init ops) = gp_now sha512 (run gp_step gp_init ops').
Proof. exact last_wins_genesis_private. Qed.
Print Assumptions C27_last_call_wins_genesis_private.

Theorem C27_last_call_wins_origin :
  forall ops ops',
  last_o_genesis_of ops = last_o_genesis_of ops' ->
  last_o_trx_of ops = last_o_trx_of ops' ->
  o_now (run o_step o_init ops) = o_now (run o_step o_init ops').
Proof. exact last_wins_origin. Qed.
Print Assumptions C27_last_call_wins_origin.

Theorem C27_last_call_wins_content :
  forall sha512 ops ops',
  last_tc_owner_of ops = last_tc_owner_of ops' ->
  last_tc_amount_of ops = last_tc_amount_of ops' ->
  last_tc_origin_of ops = last_tc_origin_of ops' ->
  last_tc_external_of ops = last_tc_external_of ops' ->
  last_tc_created_of ops = last_tc_created_of ops' ->
  tc_now sha512 (run tc_step tc_init ops) = tc_now sha512 (run tc_step tc_init ops').
Proof. exact last_wins_content. Qed.
Print Assumptions C27_last_call_wins_content.

Theorem C27_last_call_wins_transaction :
  forall sha512 ops ops',
  last_t_content_of ops = last_t_content_of ops' ->
  last_t_auth_of ops = last_t_auth_of ops' ->
  t_now sha512 (run t_step t_init ops) = t_now sha512 (run t_step t_init ops').
Proof. exact last_wins_transaction. Qed.
Print Assumptions C27_last_call_wins_transaction.

Theorem C27_last_call_wins_secret :
  forall sha512 ops ops',
  last_s_amount_of ops = last_s_amount_of ops' ->
  last_s_nonce_of ops = last_s_nonce_of ops' ->
  last_s_public_of ops = last_s_public_of ops' ->
  last_s_origin_of ops = last_s_origin_of ops' ->
  last_s_sides_of ops = last_s_sides_of ops' ->
  s_now sha512 (run s_step s_init ops) = s_now sha512 (run s_step s_init ops').
Proof. exact last_wins_secret. Qed.
Print Assumptions C27_last_call_wins_secret.

Theorem C27_last_call_wins_receipt :
  forall sha512 ops ops',
  last_rc_secret_of ops = last_rc_secret_of ops' ->
  last_rc_sig_of ops = last_rc_sig_of ops' ->
  rc_now sha512 (run rc_step rc_init ops) = rc_now sha512 (run rc_step rc_init ops').
Proof. exact last_wins_receipt. Qed.
Print Assumptions C27_last_call_wins_receipt.

Theorem C27_last_call_wins_transaction_private :
  forall sha512 ops ops',
  last_tp_pk_of ops = last_tp_pk_of ops' ->
  last_tp_receipt_of ops = last_tp_receipt_of ops' ->
  tp_now sha512 (run tp_step tp_init ops) = tp_now sha512 (run tp_step tp_init ops').
Proof. exact last_wins_transaction_private. Qed.
Print Assumptions C27_last_call_wins_transaction_private.

Theorem C27_last_call_wins_block :
  forall sha512 ops ops',
  last_b_height_of ops = last_b_height_of ops' ->
  last_b_fees_of ops = last_b_fees_of ops' ->
  last_b_trx_of ops = last_b_trx_of ops' ->
  last_b_created_of ops = last_b_created_of ops' ->
  last_b_previous_of ops = last_b_previous_of ops' ->
  b_now sha512 (run b_step b_init ops) = b_now sha512 (run b_step b_init ops').
Proof. exact last_wins_block. Qed.
Print Assumptions C27_last_call_wins_block.

Theorem C27_last_call_wins_chain :
  forall sha512 ops ops',
  last_c_id_of ops = last_c_id_of ops' ->
  last_c_root_of ops = last_c_root_of ops' ->
  last_c_created_of ops = last_c_created_of ops' ->
  last_c_head_of ops = last_c_head_of ops' ->
  c_now sha512 (run c_step c_init ops) = c_now sha512 (run c_step c_init ops').
Proof. exact last_wins_chain. Qed.
Print Assumptions C27_last_call_wins_chain.

Theorem C27_last_call_wins_identity_transactions :
  forall ops ops',
  last_it_outgoing_of ops = last_it_outgoing_of ops' ->
  last_it_incoming_of ops = last_it_incoming_of ops' ->
  it_now (run it_step it_init ops) = it_now (run it_step it_init ops').
Proof. exact last_wins_identity_transactions. Qed.
Print Assumptions C27_last_call_wins_identity_transactions.

Theorem C27_last_call_wins_identity :
  forall ops ops',
  last_id_name_of ops = last_id_name_of ops' ->
  last_id_trx_of ops = last_id_trx_of ops' ->
  last_id_genesis_of ops = last_id_genesis_of ops' ->
  id_now (run id_step id_init ops) = id_now (run id_step id_init ops').
Proof. exact last_wins_identity. Qed.
Print Assumptions C27_last_call_wins_identity.
Theorem C27_last_call_wins_collection :
  forall A sha512 (h : A -> bytes) (ops ops' : list (list_op A)),
  last_list ops = last_list ops' ->
  list_now sha512 h (run list_step None ops) = list_now sha512 h (run list_step None ops').
Proof. exact @last_wins_list. Qed.
Print Assumptions C27_last_call_wins_collection.

Theorem C27_last_call_wins_peers :
  forall A (ops ops' : list (list_op A)),
  last_list ops = last_list ops' ->
  peers_now (run list_step None ops) = peers_now (run list_step None ops').
Proof. exact @last_wins_peers. Qed.
Print Assumptions C27_last_call_wins_peers.

Theorem C27_last_call_wins_ring :
  forall sha512 min max ops ops',
  last_ring_list ops = last_ring_list ops' ->
  ring_now sha512 min max (run ring_step None ops) = ring_now sha512 min max (run ring_step None ops').
Proof. exact @last_wins_ring. Qed.
Print Assumptions C27_last_call_wins_ring.

(* holds as long as no Now intervenes *)
Theorem C27_last_call_wins_peer_without_now :
  forall d ops ops',
  ~ In PNow ops -> ~ In PNow ops' ->
  last_p_host ops = last_p_host ops' -> last_p_port ops = last_p_port ops' -> last_p_string ops = last_p_string ops' ->
  p_now (run p_step (p_init d) ops) = p_now (run p_step (p_init d) ops').
Proof. exact @last_wins_peer. Qed.
Print Assumptions C27_last_call_wins_peer_without_now.

(* with Now in between it does not: the parsed host and port stay in the builder *)
Theorem C27_last_call_wins_peer_refuted : exists d ops ops',
  last_p_host ops = last_p_host ops' /\ last_p_port ops = last_p_port ops' /\ last_p_string ops = last_p_string ops' /\
  p_now (run p_step (p_init d) ops) <> p_now (run p_step (p_init d) ops').
Proof.
  exists (bs ":"), [PWithString (bs "h:1"); PNow; PWithString []], [PWithString (bs "h:1"); PWithString []].
  do 3 (split; [reflexivity|]). discriminate.
Qed.
Print Assumptions C27_last_call_wins_peer_refuted.

Example C27_example : last_u_amount ex_uc = Some 7%N /\ last_u_amount (ex_uc ++ [UCreate; UWithAmount 9]) = Some 9%N
  /\ last_u_nonce (ex_uc ++ [UCreate; UWithAmount 9]) = None.
Proof. repeat split. Qed.

(* ---- C52 collections ---- *)
(* units, transactions, secrets, private keys, private transactions, rings: [h] is the element hash *)
Theorem C52_collection_built_exactly :
  forall A sha512 (h : A -> bytes) (ops : list (list_op A)) r,
  list_now sha512 h (run list_step None ops) = Ok r <->
  exists l, last_list ops = Some l /\ l <> [] /\ r = (from_bytes sha512 (concat (map h l)), l).
Proof. exact @list_exact. Qed.
Print Assumptions C52_collection_built_exactly.

Theorem C52_collection_otherwise_error :
  forall A sha512 (h : A -> bytes) (ops : list (list_op A)),
  (exists r, list_now sha512 h (run list_step None ops) = Ok r) \/ list_now sha512 h (run list_step None ops) = Err.
Proof. exact @list_total. Qed.
Print Assumptions C52_collection_otherwise_error.

Theorem C52_peers_built_exactly :
  forall A (ops : list (list_op A)) r,
  peers_now (run list_step None ops) = Ok r <-> last_list ops = Some r /\ r <> [].
Proof. exact @peers_exact. Qed.
Print Assumptions C52_peers_built_exactly.

Theorem C52_collection_hash_binding :
  forall A B sha512 (h : A -> bytes) (k : B -> bytes) ops ops' r r',
  list_now sha512 h (run list_step None ops) = Ok r ->
  list_now sha512 k (run list_step None ops') = Ok r' ->
  Forall digest (map h (snd r)) -> Forall digest (map k (snd r')) ->
  length (snd r) <> 1 -> length (snd r') <> 1 ->
  fst r = fst r' -> map h (snd r) = map k (snd r') \/ collision sha512.
Proof. exact @list_binding. Qed.
Print Assumptions C52_collection_hash_binding.

Theorem C52_one_element_collection_hash :
  forall A sha512 (h : A -> bytes) ops r x,
  list_now sha512 h (run list_step None ops) = Ok r -> snd r = [x] -> digest (h x) -> fst r = h x.
Proof. exact @list_one. Qed.
Print Assumptions C52_one_element_collection_hash.

Example C52_example : exists r, list_now toy_sha gu_hash (run list_step None [LWithList (Some [ex_unit; ex_unit]); LNow]) = Ok r
  /\ Forall digest (map gu_hash (snd r)) /\ length (snd r) <> 1.
Proof. eexists. split; [vm_compute; reflexivity|]. split; [repeat constructor | discriminate]. Qed.
Example C52_example_empty : list_now toy_sha gu_hash (run list_step None [LWithList (Some [])]) = Err.
Proof. reflexivity. Qed.

Theorem C52_identity_built_exactly :
  forall ops i,
  id_now (run id_step id_init ops) = Ok i <->
  exists n t, last_id_name_of ops = Some n /\ n <> [] /\ last_id_trx_of ops = Some t /\
    i = {| id_name := n; id_transactions := t; id_genesis := last_id_genesis_of ops |}.
Proof. exact @id_exact. Qed.
Print Assumptions C52_identity_built_exactly.

Theorem C52_identity_transactions_always_built :
  forall ops i,
  it_now (run it_step it_init ops) = Ok i <->
  i = {| it_outgoing := last_it_outgoing_of ops; it_incoming := last_it_incoming_of ops |}.
Proof. exact @it_exact. Qed.
Print Assumptions C52_identity_transactions_always_built.

(* ---- C53 ancestry ---- *)
(* a transaction hash commits to the whole chain of origins *)
Theorem C53_transaction_hash_commits_to_ancestry :
  forall sha512 (Hs : digest_size sha512) t,
  built_transaction sha512 t ->
  forall t', built_transaction sha512 t' -> t_hash t = t_hash t' -> same_transaction t t' \/ collision sha512.
Proof. exact @ancestry_binding. Qed.
Print Assumptions C53_transaction_hash_commits_to_ancestry.

(* a transaction spending a transaction that spends a genesis unit is built_transaction *)
Example C53_example : exists t t0, built_transaction toy_sha t /\ tc_origin (t_content t) = OTransaction t0.
Proof. exact ancestry_example. Qed.
