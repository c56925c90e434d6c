(* DomainProofs.v - proofs for the entity builder properties. *)
From Coq Require Import Strings.String Strings.Byte Lia.
From Verif Require Import GoLemmas Digits HashModel HashSpec HashProofs DomainModel DomainSpec.

(* ---- what a history leaves in each builder ---- *)
Lemma uc_run ops : run uc_step uc_init ops = {| ucb_amount := match last_u_amount ops with Some v => v | None => 0%N end; ucb_nonce := match last_u_nonce ops with Some v => v | None => [] end; ucb_activated := last_u_activated ops; ucb_created := last_u_created ops |}.
Proof.
  unfold run, last_u_amount, last_u_nonce, last_u_activated, last_u_created. unfold last_call. induction ops as [|o ops IH] using rev_ind; [reflexivity|].
  rewrite !fold_left_app. cbn [fold_left]. rewrite IH. destruct o; reflexivity.
Qed.

Lemma gu_run ops : run gu_step gu_init ops = {| gub_content := last_gu_content_of ops; gub_owner := last_gu_owner_of ops |}.
Proof.
  unfold run, last_gu_content_of, last_gu_owner_of. unfold last_call. induction ops as [|o ops IH] using rev_ind; [reflexivity|].
  rewrite !fold_left_app. cbn [fold_left]. rewrite IH. destruct o; reflexivity.
Qed.

Lemma g_run ops : run g_step g_init ops = {| gb_units := last_g_units_of ops; gb_fees := last_g_fees_of ops; gb_created := last_g_created_of ops |}.
Proof.
  unfold run, last_g_units_of, last_g_fees_of, last_g_created_of. unfold last_call. induction ops as [|o ops IH] using rev_ind; [reflexivity|].
  rewrite !fold_left_app. cbn [fold_left]. rewrite IH. destruct o; reflexivity.
Qed.

Lemma gp_run ops : run gp_step gp_init ops = {| gpb_unit := last_gp_unit_of ops; gpb_pk := last_gp_pk_of ops |}.
Proof.
  unfold run, last_gp_unit_of, last_gp_pk_of. unfold last_call. induction ops as [|o ops IH] using rev_ind; [reflexivity|].
  rewrite !fold_left_app. cbn [fold_left]. rewrite IH. destruct o; reflexivity.
Qed.

Lemma o_run ops : run o_step o_init ops = {| ob_genesis := last_o_genesis_of ops; ob_trx := last_o_trx_of ops |}.
Proof.
  unfold run, last_o_genesis_of, last_o_trx_of. unfold last_call. induction ops as [|o ops IH] using rev_ind; [reflexivity|].
  rewrite !fold_left_app. cbn [fold_left]. rewrite IH. destruct o; reflexivity.
Qed.

Lemma tc_run ops : run tc_step tc_init ops = {| tcb_owner := last_tc_owner_of ops; tcb_amount := last_tc_amount_of ops; tcb_origin := last_tc_origin_of ops; tcb_external := last_tc_external_of ops; tcb_created := last_tc_created_of ops |}.
Proof.
  unfold run, last_tc_owner_of, last_tc_amount_of, last_tc_origin_of, last_tc_external_of, last_tc_created_of. unfold last_call. induction ops as [|o ops IH] using rev_ind; [reflexivity|].
  rewrite !fold_left_app. cbn [fold_left]. rewrite IH. destruct o; reflexivity.
Qed.

Lemma t_run ops : run t_step t_init ops = {| tb_content := last_t_content_of ops; tb_auth := last_t_auth_of ops |}.
Proof.
  unfold run, last_t_content_of, last_t_auth_of. unfold last_call. induction ops as [|o ops IH] using rev_ind; [reflexivity|].
  rewrite !fold_left_app. cbn [fold_left]. rewrite IH. destruct o; reflexivity.
Qed.

Lemma s_run ops : run s_step s_init ops = {| sb_amount := match last_s_amount_of ops with Some v => v | None => 0%N end; sb_nonce := match last_s_nonce_of ops with Some v => v | None => [] end; sb_public := last_s_public_of ops; sb_origin := last_s_origin_of ops; sb_sides := last_s_sides_of ops |}.
Proof.
  unfold run, last_s_amount_of, last_s_nonce_of, last_s_public_of, last_s_origin_of, last_s_sides_of. unfold last_call. induction ops as [|o ops IH] using rev_ind; [reflexivity|].
  rewrite !fold_left_app. cbn [fold_left]. rewrite IH. destruct o; reflexivity.
Qed.

Lemma rc_run ops : run rc_step rc_init ops = {| rcb_secret := last_rc_secret_of ops; rcb_sig := last_rc_sig_of ops |}.
Proof.
  unfold run, last_rc_secret_of, last_rc_sig_of. unfold last_call. induction ops as [|o ops IH] using rev_ind; [reflexivity|].
  rewrite !fold_left_app. cbn [fold_left]. rewrite IH. destruct o; reflexivity.
Qed.

Lemma tp_run ops : run tp_step tp_init ops = {| tpb_pk := last_tp_pk_of ops; tpb_receipt := last_tp_receipt_of ops |}.
Proof.
  unfold run, last_tp_pk_of, last_tp_receipt_of. unfold last_call. induction ops as [|o ops IH] using rev_ind; [reflexivity|].
  rewrite !fold_left_app. cbn [fold_left]. rewrite IH. destruct o; reflexivity.
Qed.

Lemma b_run ops : run b_step b_init ops = {| bb_height := match last_b_height_of ops with Some v => v | None => 0%N end; bb_fees := last_b_fees_of ops; bb_trx := last_b_trx_of ops; bb_created := last_b_created_of ops; bb_previous := last_b_previous_of ops |}.
Proof.
  unfold run, last_b_height_of, last_b_fees_of, last_b_trx_of, last_b_created_of, last_b_previous_of. unfold last_call. induction ops as [|o ops IH] using rev_ind; [reflexivity|].
  rewrite !fold_left_app. cbn [fold_left]. rewrite IH. destruct o; reflexivity.
Qed.

Lemma c_run ops : run c_step c_init ops = {| cb_id := last_c_id_of ops; cb_root := last_c_root_of ops; cb_created := last_c_created_of ops; cb_head := last_c_head_of ops |}.
Proof.
  unfold run, last_c_id_of, last_c_root_of, last_c_created_of, last_c_head_of. unfold last_call. induction ops as [|o ops IH] using rev_ind; [reflexivity|].
  rewrite !fold_left_app. cbn [fold_left]. rewrite IH. destruct o; reflexivity.
Qed.

Lemma it_run ops : run it_step it_init ops = {| it_outgoing := last_it_outgoing_of ops; it_incoming := last_it_incoming_of ops |}.
Proof.
  unfold run, last_it_outgoing_of, last_it_incoming_of. unfold last_call. induction ops as [|o ops IH] using rev_ind; [reflexivity|].
  rewrite !fold_left_app. cbn [fold_left]. rewrite IH. destruct o; reflexivity.
Qed.

Lemma id_run ops : run id_step id_init ops = {| idb_name := match last_id_name_of ops with Some v => v | None => [] end; idb_trx := last_id_trx_of ops; idb_genesis := last_id_genesis_of ops |}.
Proof.
  unfold run, last_id_name_of, last_id_trx_of, last_id_genesis_of. unfold last_call. induction ops as [|o ops IH] using rev_ind; [reflexivity|].
  rewrite !fold_left_app. cbn [fold_left]. rewrite IH. destruct o; reflexivity.
Qed.

Lemma list_run {A} (ops : list (list_op A)) : norm_list (run list_step None ops) = norm_list (last_list ops).
Proof.
  unfold run, last_list, last_call. induction ops as [|o ops IH] using rev_ind; [reflexivity|].
  rewrite !fold_left_app. cbn [fold_left]. destruct o; cbn [list_step list_is_create]; try reflexivity.
  rewrite <- IH. destruct (fold_left list_step ops None) as [[|x l]|]; reflexivity.
Qed.
Lemma ring_run ops : run ring_step None ops = last_ring_list ops.
Proof.
  unfold run, last_ring_list, last_call. induction ops as [|o ops IH] using rev_ind; [reflexivity|].
  rewrite !fold_left_app. cbn [fold_left]. rewrite <- IH. destruct o; reflexivity.
Qed.
Lemma p_run d ops : ~ In PNow ops -> run p_step (p_init d) ops =
  {| pb_delim := d; pb_host := match last_p_host ops with Some v => v | None => [] end;
     pb_port := last_p_port ops; pb_str := match last_p_string ops with Some v => v | None => [] end |}.
Proof.
  unfold run, last_p_host, last_p_port, last_p_string, last_call.
  induction ops as [|o ops IH] using rev_ind; [reflexivity|]. intros Hn.
  rewrite !fold_left_app. cbn [fold_left]. rewrite IH.
  - destruct o; try reflexivity. exfalso; apply Hn, in_or_app; right; left; reflexivity.
  - intros H. apply Hn, in_or_app; left; exact H.
Qed.

Lemma last_wins_unit_content :
  forall sha512 ops ops',
  last_u_amount ops = last_u_amount ops' ->
  last_u_nonce ops = last_u_nonce ops' ->
  last_u_activated ops = last_u_activated ops' ->
  last_u_created ops = last_u_created ops' ->
  uc_now sha512 (run uc_step uc_init ops) = uc_now sha512 (run uc_step uc_init ops').
Proof. intros sha512 ops ops' H0 H1 H2 H3. rewrite !uc_run, H0, H1, H2, H3. reflexivity. Qed.

Lemma last_wins_unit :
  forall sha512 ops ops',
  last_gu_content_of ops = last_gu_content_of ops' ->
  last_gu_owner_of ops = last_gu_owner_of ops' ->
  gu_now sha512 (run gu_step gu_init ops) = gu_now sha512 (run gu_step gu_init ops').
Proof. intros sha512 ops ops' H0 H1. rewrite !gu_run, H0, H1. reflexivity. Qed.

Lemma last_wins_genesis :
  forall sha512 ops ops',
  last_g_units_of ops = last_g_units_of ops' ->
  last_g_fees_of ops = last_g_fees_of ops' ->
  last_g_created_of ops = last_g_created_of ops' ->
  g_now sha512 (run g_step g_init ops) = g_now sha512 (run g_step g_init ops').
Proof. intros sha512 ops ops' H0 H1 H2. rewrite !g_run, H0, H1, H2. reflexivity. Qed.

Lemma last_wins_genesis_private :
  forall sha512 ops ops',
  last_gp_unit_of ops = last_gp_unit_of ops' ->
  last_gp_pk_of ops = last_gp_pk_of ops' ->
  gp_now sha512 (run gp_step gp_init ops) = gp_now sha512 (run gp_step gp_init ops').
Proof. intros sha512 ops ops' H0 H1. rewrite !gp_run, H0, H1. reflexivity. Qed.

Lemma last_wins_origin :
  forall ops ops',
  last_o_genesis_of ops = last_o_genesis_of ops' ->
  last_o_trx_of ops = last_o_trx_of ops' ->
  o_now (run o_step o_init ops) = o_now (run o_step o_init ops').
Proof. intros ops ops' H0 H1. rewrite !o_run, H0, H1. reflexivity. Qed.

Lemma last_wins_content :
  forall sha512 ops ops',
  last_tc_owner_of ops = last_tc_owner_of ops' ->
  last_tc_amount_of ops = last_tc_amount_of ops' ->
  last_tc_origin_of ops = last_tc_origin_of ops' ->
  last_tc_external_of ops = last_tc_external_of ops' ->
  last_tc_created_of ops = last_tc_created_of ops' ->
  tc_now sha512 (run tc_step tc_init ops) = tc_now sha512 (run tc_step tc_init ops').
Proof. intros sha512 ops ops' H0 H1 H2 H3 H4. rewrite !tc_run, H0, H1, H2, H3, H4. reflexivity. Qed.

Lemma last_wins_transaction :
  forall sha512 ops ops',
  last_t_content_of ops = last_t_content_of ops' ->
  last_t_auth_of ops = last_t_auth_of ops' ->
  t_now sha512 (run t_step t_init ops) = t_now sha512 (run t_step t_init ops').
Proof. intros sha512 ops ops' H0 H1. rewrite !t_run, H0, H1. reflexivity. Qed.

Lemma last_wins_secret :
  forall sha512 ops ops',
  last_s_amount_of ops = last_s_amount_of ops' ->
  last_s_nonce_of ops = last_s_nonce_of ops' ->
  last_s_public_of ops = last_s_public_of ops' ->
  last_s_origin_of ops = last_s_origin_of ops' ->
  last_s_sides_of ops = last_s_sides_of ops' ->
  s_now sha512 (run s_step s_init ops) = s_now sha512 (run s_step s_init ops').
Proof. intros sha512 ops ops' H0 H1 H2 H3 H4. rewrite !s_run, H0, H1, H2, H3, H4. reflexivity. Qed.

Lemma last_wins_receipt :
  forall sha512 ops ops',
  last_rc_secret_of ops = last_rc_secret_of ops' ->
  last_rc_sig_of ops = last_rc_sig_of ops' ->
  rc_now sha512 (run rc_step rc_init ops) = rc_now sha512 (run rc_step rc_init ops').
Proof. intros sha512 ops ops' H0 H1. rewrite !rc_run, H0, H1. reflexivity. Qed.

Lemma last_wins_transaction_private :
  forall sha512 ops ops',
  last_tp_pk_of ops = last_tp_pk_of ops' ->
  last_tp_receipt_of ops = last_tp_receipt_of ops' ->
  tp_now sha512 (run tp_step tp_init ops) = tp_now sha512 (run tp_step tp_init ops').
Proof. intros sha512 ops ops' H0 H1. rewrite !tp_run, H0, H1. reflexivity. Qed.

Lemma last_wins_block :
  forall sha512 ops ops',
  last_b_height_of ops = last_b_height_of ops' ->
  last_b_fees_of ops = last_b_fees_of ops' ->
  last_b_trx_of ops = last_b_trx_of ops' ->
  last_b_created_of ops = last_b_created_of ops' ->
  last_b_previous_of ops = last_b_previous_of ops' ->
  b_now sha512 (run b_step b_init ops) = b_now sha512 (run b_step b_init ops').
Proof. intros sha512 ops ops' H0 H1 H2 H3 H4. rewrite !b_run, H0, H1, H2, H3, H4. reflexivity. Qed.

Lemma last_wins_chain :
  forall sha512 ops ops',
  last_c_id_of ops = last_c_id_of ops' ->
  last_c_root_of ops = last_c_root_of ops' ->
  last_c_created_of ops = last_c_created_of ops' ->
  last_c_head_of ops = last_c_head_of ops' ->
  c_now sha512 (run c_step c_init ops) = c_now sha512 (run c_step c_init ops').
Proof. intros sha512 ops ops' H0 H1 H2 H3. rewrite !c_run, H0, H1, H2, H3. reflexivity. Qed.

Lemma last_wins_identity_transactions :
  forall ops ops',
  last_it_outgoing_of ops = last_it_outgoing_of ops' ->
  last_it_incoming_of ops = last_it_incoming_of ops' ->
  it_now (run it_step it_init ops) = it_now (run it_step it_init ops').
Proof. intros ops ops' H0 H1. rewrite !it_run, H0, H1. reflexivity. Qed.

Lemma last_wins_identity :
  forall ops ops',
  last_id_name_of ops = last_id_name_of ops' ->
  last_id_trx_of ops = last_id_trx_of ops' ->
  last_id_genesis_of ops = last_id_genesis_of ops' ->
  id_now (run id_step id_init ops) = id_now (run id_step id_init ops').
Proof. intros ops ops' H0 H1 H2. rewrite !id_run, H0, H1, H2. reflexivity. Qed.

Lemma last_wins_list {A} sha512 (h : A -> bytes) (ops ops' : list (list_op A)) : last_list ops = last_list ops' ->
  list_now sha512 h (run list_step None ops) = list_now sha512 h (run list_step None ops').
Proof. intros H. unfold list_now. rewrite !list_run, H. reflexivity. Qed.
Lemma last_wins_peers {A} (ops ops' : list (list_op A)) : last_list ops = last_list ops' ->
  peers_now (run list_step None ops) = peers_now (run list_step None ops').
Proof. intros H. unfold peers_now. rewrite !list_run, H. reflexivity. Qed.
Lemma last_wins_ring sha512 min max ops ops' : last_ring_list ops = last_ring_list ops' ->
  ring_now sha512 min max (run ring_step None ops) = ring_now sha512 min max (run ring_step None ops').
Proof. intros H. rewrite !ring_run, H. reflexivity. Qed.
Lemma last_wins_peer d ops ops' : ~ In PNow ops -> ~ In PNow ops' ->
  last_p_host ops = last_p_host ops' -> last_p_port ops = last_p_port ops' -> last_p_string ops = last_p_string ops' ->
  p_now (run p_step (p_init d) ops) = p_now (run p_step (p_init d) ops').
Proof. intros N1 N2 H0 H1 H2. rewrite !p_run, H0, H1, H2 by assumption. reflexivity. Qed.

(* the values held come from the history *)
Lemma last_call_in {O V} (isc : O -> bool) (arg : O -> option (option V)) ops v :
  last_call isc arg ops = Some v -> exists o, In o ops /\ arg o = Some (Some v).
Proof.
  unfold last_call. induction ops as [|o ops IH] using rev_ind; [discriminate|].
  rewrite fold_left_app. cbn [fold_left]. destruct (isc o); [discriminate|].
  destruct (arg o) as [w|] eqn:E.
  - intros ->. exists o. split; [apply in_or_app; right; left; reflexivity | exact E].
  - intros H. destruct (IH H) as (o' & Hi & Ho). exists o'. split; [apply in_or_app; left; exact Hi | exact Ho].
Qed.

(* ---- "built exactly when" ---- *)
Lemma ring_exact sha512 min max ops r :
  ring_now sha512 min max (run ring_step None ops) = Ok r <->
  exists l, last_ring_list ops = Some l /\ (min <= N.of_nat (length l) <= max)%N
    /\ r = {| ring_hash := from_bytes sha512 (concat l); ring_list := l |}.
Proof.
  rewrite ring_run. unfold ring_now. split.
  - destruct (last_ring_list ops) as [l|]; [|discriminate]. cbn zeta.
    destruct (N.ltb_spec (N.of_nat (length l)) min); [discriminate|].
    destruct (N.ltb_spec max (N.of_nat (length l))); [discriminate|].
    intros E; injection E as <-. exists l. rewrite from_multi_concat. repeat split; lia.
  - intros (l & -> & H & ->). cbn zeta.
    destruct (N.ltb_spec (N.of_nat (length l)) min); [lia|].
    destruct (N.ltb_spec max (N.of_nat (length l))); [lia|].
    rewrite from_multi_concat. reflexivity.
Qed.
Lemma ring_total sha512 min max ops :
  (exists r, ring_now sha512 min max (run ring_step None ops) = Ok r) \/ ring_now sha512 min max (run ring_step None ops) = Err.
Proof.
  unfold ring_now. destruct (run ring_step None ops); [|auto]. cbn zeta.
  destruct (_ <? _)%N; [auto|]. destruct (_ <? _)%N; eauto.
Qed.

Lemma list_exact {A} sha512 (h : A -> bytes) (ops : list (list_op A)) r :
  list_now sha512 h (run list_step None ops) = Ok r <->
  exists l, last_list ops = Some l /\ l <> [] /\ r = (from_bytes sha512 (concat (map h l)), l).
Proof.
  unfold list_now. rewrite list_run. split.
  - destruct (last_list ops) as [[|x l]|]; try discriminate. cbn [norm_list]. intros E; injection E as <-.
    exists (x :: l). rewrite from_multi_concat. repeat split; discriminate.
  - intros (l & -> & Hn & ->). destruct l; [contradiction|]. cbn [norm_list]. rewrite from_multi_concat. reflexivity.
Qed.
Lemma list_total {A} sha512 (h : A -> bytes) (ops : list (list_op A)) :
  (exists r, list_now sha512 h (run list_step None ops) = Ok r) \/ list_now sha512 h (run list_step None ops) = Err.
Proof. unfold list_now. destruct (norm_list _); eauto. Qed.
Lemma peers_exact {A} (ops : list (list_op A)) r :
  peers_now (run list_step None ops) = Ok r <-> last_list ops = Some r /\ r <> [].
Proof.
  unfold peers_now. rewrite list_run. split.
  - destruct (last_list ops) as [[|x l]|]; try discriminate. cbn [norm_list]. intros E; injection E as <-. split; [reflexivity|discriminate].
  - intros (-> & Hn). destruct r; [contradiction|]. reflexivity.
Qed.

Ltac norm_concat := rewrite ?from_multi_concat; cbn [concat map opt_part app]; rewrite ?app_nil_r.

Lemma uc_exact sha512 ops u :
  uc_now sha512 (run uc_step uc_init ops) = Ok u <->
  exists amount nonce activated created,
    last_u_amount ops = Some amount /\ (0 < amount)%N /\
    last_u_nonce ops = Some nonce /\ nonce <> [] /\
    last_u_activated ops = Some activated /\ last_u_created ops = Some created /\
    (created <= activated)%Z /\
    u = {| uc_hash := from_bytes sha512 (itoa_uint amount ++ nonce ++ itoaZ (unix_nano activated) ++ itoaZ (unix_nano created));
           uc_amount := amount; uc_nonce := nonce; uc_activated := activated; uc_created := created |}.
Proof.
  rewrite uc_run. unfold uc_now, before. cbn [ucb_amount ucb_nonce ucb_activated ucb_created]. split.
  - destruct (last_u_amount ops) as [n|]; [|discriminate].
    destruct (N.leb_spec n 0); [discriminate|].
    destruct (last_u_nonce ops) as [[|c s]|]; try discriminate.
    destruct (last_u_activated ops) as [a|]; [|discriminate].
    destruct (last_u_created ops) as [t|]; [|discriminate].
    destruct (Z.ltb_spec a t); [discriminate|]. intros E; injection E as <-.
    exists n, (c :: s), a, t. norm_concat. repeat split; try lia; try discriminate.
  - intros (n & s & a & t & -> & Hn & -> & Hs & -> & -> & Ht & ->).
    destruct (N.leb_spec n 0); [lia|]. destruct s as [|c s]; [contradiction|].
    destruct (Z.ltb_spec a t); [lia|]. norm_concat. reflexivity.
Qed.
Lemma uc_total sha512 ops :
  (exists r, uc_now sha512 (run uc_step uc_init ops) = Ok r) \/ uc_now sha512 (run uc_step uc_init ops) = Err.
Proof.
  unfold uc_now. destruct (_ <=? _)%N; [auto|]. destruct (ucb_nonce _); [auto|].
  destruct (ucb_activated _); [|auto]. destruct (ucb_created _); [|auto]. destruct (before _ _); eauto.
Qed.

Lemma gu_exact sha512 ops u :
  gu_now sha512 (run gu_step gu_init ops) = Ok u <->
  exists c o, last_gu_content_of ops = Some c /\ last_gu_owner_of ops = Some o /\
    u = {| gu_hash := from_bytes sha512 (uc_hash c ++ ring_hash o); gu_content := c; gu_owner := o |}.
Proof.
  rewrite gu_run. unfold gu_now. cbn [gub_content gub_owner]. split.
  - destruct (last_gu_content_of ops) as [c|]; [|discriminate]. destruct (last_gu_owner_of ops) as [o|]; [|discriminate].
    norm_concat. intros E; injection E as <-. eauto.
  - intros (c & o & -> & -> & ->). norm_concat. reflexivity.
Qed.

Lemma g_exact sha512 ops g :
  g_now sha512 (run g_step g_init ops) = Ok g <->
  exists u f t, last_g_units_of ops = Some u /\ last_g_fees_of ops = Some f /\ last_g_created_of ops = Some t /\
    (forall x, In x (snd u) -> (t <= uc_created (gu_content x))%Z) /\
    g = {| g_hash := from_bytes sha512 (itoa_uint f ++ fst u ++ itoaZ (unix_nano t));
           g_units := u; g_fees := f; g_created := t |}.
Proof.
  rewrite g_run. unfold g_now. cbn [gb_units gb_fees gb_created]. split.
  - destruct (last_g_units_of ops) as [u|]; [|discriminate]. destruct (last_g_fees_of ops) as [f|]; [|discriminate].
    destruct (last_g_created_of ops) as [t|]; [|discriminate].
    destruct (existsb _ _) eqn:X; [discriminate|]. norm_concat. intros E; injection E as <-.
    exists u, f, t. repeat split; auto. intros x Hx. destruct (Z.le_gt_cases t (uc_created (gu_content x))); [assumption|].
    rewrite <- not_true_iff_false, existsb_exists in X. exfalso; apply X. exists x. split; [assumption|].
    unfold before. apply Z.ltb_lt. lia.
  - intros (u & f & t & -> & -> & -> & Hu & ->).
    destruct (existsb _ _) eqn:X.
    + apply existsb_exists in X. destruct X as (x & Hx & Hb). unfold before in Hb. apply Z.ltb_lt in Hb. specialize (Hu x Hx). lia.
    + norm_concat. reflexivity.
Qed.
Lemma g_total sha512 ops :
  (exists r, g_now sha512 (run g_step g_init ops) = Ok r) \/ g_now sha512 (run g_step g_init ops) = Err.
Proof.
  unfold g_now. destruct (gb_units _); [|auto]. destruct (gb_fees _); [|auto]. destruct (gb_created _); [|auto].
  destruct (existsb _ _); eauto.
Qed.

Lemma gp_exact sha512 ops p :
  gp_now sha512 (run gp_step gp_init ops) = Ok p <->
  exists u k, last_gp_unit_of ops = Some u /\ last_gp_pk_of ops = Some k /\
    p = {| gp_hash := from_bytes sha512 (gu_hash u ++ k); gp_unit := u; gp_pk := k |}.
Proof.
  rewrite gp_run. unfold gp_now. cbn [gpb_unit gpb_pk]. split.
  - destruct (last_gp_unit_of ops) as [u|]; [|discriminate]. destruct (last_gp_pk_of ops) as [k|]; [|discriminate].
    norm_concat. intros E; injection E as <-. eauto.
  - intros (u & k & -> & -> & ->). norm_concat. reflexivity.
Qed.

Lemma o_exact ops o :
  o_now (run o_step o_init ops) = Ok o <->
  (exists u, last_o_genesis_of ops = Some u /\ o = OGenesis u) \/
  (last_o_genesis_of ops = None /\ exists t, last_o_trx_of ops = Some t /\ o = OTransaction t).
Proof.
  rewrite o_run. unfold o_now. cbn [ob_genesis ob_trx]. split.
  - destruct (last_o_genesis_of ops) as [u|].
    + intros E; injection E as <-. left. eauto.
    + destruct (last_o_trx_of ops) as [t|]; [|discriminate]. intros E; injection E as <-. right. eauto.
  - intros [(u & -> & ->)|(-> & t & -> & ->)]; reflexivity.
Qed.

Lemma tc_exact sha512 ops c :
  tc_now sha512 (run tc_step tc_init ops) = Ok c <->
  exists w a o e t, last_tc_owner_of ops = Some w /\ last_tc_amount_of ops = Some a /\
    last_tc_origin_of ops = Some o /\ last_tc_external_of ops = Some e /\ last_tc_created_of ops = Some t /\
    c = TContent (from_bytes sha512 (ring_hash w ++ a ++ o_hash o ++ e ++ itoaZ (unix t))) w a o e t.
Proof.
  rewrite tc_run. unfold tc_now. cbn [tcb_owner tcb_amount tcb_origin tcb_external tcb_created]. split.
  - destruct (last_tc_owner_of ops) as [w|]; [|discriminate]. destruct (last_tc_amount_of ops) as [a|]; [|discriminate].
    destruct (last_tc_origin_of ops) as [o|]; [|discriminate]. destruct (last_tc_external_of ops) as [e|]; [|discriminate].
    destruct (last_tc_created_of ops) as [t|]; [|discriminate].
    norm_concat. intros E; injection E as <-. exists w, a, o, e, t. auto 10.
  - intros (w & a & o & e & t & -> & -> & -> & -> & -> & ->). norm_concat. reflexivity.
Qed.

Lemma t_exact sha512 ops t :
  t_now sha512 (run t_step t_init ops) = Ok t <->
  exists c a, last_t_content_of ops = Some c /\ last_t_auth_of ops = Some a /\
    t = Transaction (from_bytes sha512 (tc_hash c ++ a)) c a.
Proof.
  rewrite t_run. unfold t_now. cbn [tb_content tb_auth]. split.
  - destruct (last_t_content_of ops) as [c|]; [|discriminate]. destruct (last_t_auth_of ops) as [a|]; [|discriminate].
    norm_concat. intros E; injection E as <-. eauto.
  - intros (c & a & -> & -> & ->). norm_concat. reflexivity.
Qed.

(* the text a secret's hash is taken of *)
Lemma concat_app2 (a b : bytes) (l : list bytes) : concat (a :: b :: l) = a ++ b ++ concat l.
Proof. reflexivity. Qed.

Lemma s_exact sha512 ops s :
  s_now sha512 (run s_step s_init ops) = Ok s <->
  exists n v p, last_s_amount_of ops = Some n /\ (0 < n)%N /\ last_s_nonce_of ops = Some v /\ v <> [] /\
    last_s_public_of ops = Some p /\
    s = Secret (from_bytes sha512 (t_hash p ++ itoa_uint n ++ v
                  ++ match last_s_origin_of ops with Some x => s_hash x | None => [] end
                  ++ match last_s_sides_of ops with Some x => fst x | None => [] end))
          n v p (last_s_origin_of ops) (last_s_sides_of ops).
Proof.
  rewrite s_run. unfold s_now. cbn [sb_amount sb_nonce sb_public sb_origin sb_sides].
  assert (T : forall n v p, from_multi_bytes sha512 ([t_hash p; itoa_uint n; v] ++ opt_part s_hash (last_s_origin_of ops) ++ opt_part fst (last_s_sides_of ops))
    = from_bytes sha512 (t_hash p ++ itoa_uint n ++ v
                  ++ match last_s_origin_of ops with Some x => s_hash x | None => [] end
                  ++ match last_s_sides_of ops with Some x => fst x | None => [] end)).
  { intros. rewrite from_multi_concat. destruct (last_s_origin_of ops), (last_s_sides_of ops); cbn [concat opt_part app];
      rewrite ?app_nil_r; reflexivity. }
  split.
  - destruct (last_s_amount_of ops) as [n|]; [|discriminate].
    destruct (N.leb_spec n 0); [discriminate|].
    destruct (last_s_nonce_of ops) as [[|c v]|]; try discriminate.
    destruct (last_s_public_of ops) as [p|]; [|discriminate].
    rewrite T. intros E; injection E as <-. exists n, (c :: v), p. repeat split; try lia; discriminate.
  - intros (n & v & p & -> & Hn & -> & Hv & -> & ->).
    destruct (N.leb_spec n 0); [lia|]. destruct v as [|c v]; [contradiction|].
    rewrite T. reflexivity.
Qed.
Lemma s_total sha512 ops :
  (exists r, s_now sha512 (run s_step s_init ops) = Ok r) \/ s_now sha512 (run s_step s_init ops) = Err.
Proof.
  unfold s_now. destruct (_ <=? _)%N; [auto|]. destruct (sb_nonce _); [auto|]. destruct (sb_public _); eauto.
Qed.

Lemma rc_exact sha512 ops r :
  rc_now sha512 (run rc_step rc_init ops) = Ok r <->
  exists s g, last_rc_secret_of ops = Some s /\ last_rc_sig_of ops = Some g /\
    r = {| rc_hash := from_bytes sha512 []; rc_secret := s; rc_sig := g |}.
Proof.
  rewrite rc_run. unfold rc_now. cbn [rcb_secret rcb_sig]. split.
  - destruct (last_rc_secret_of ops) as [s|]; [|discriminate]. destruct (last_rc_sig_of ops) as [g|]; [|discriminate].
    intros E; injection E as <-. eauto.
  - intros (s & g & -> & -> & ->). reflexivity.
Qed.
Lemma tp_exact sha512 ops r :
  tp_now sha512 (run tp_step tp_init ops) = Ok r <->
  exists k x, last_tp_pk_of ops = Some k /\ last_tp_receipt_of ops = Some x /\
    r = {| tp_hash := from_bytes sha512 []; tp_pk := k; tp_receipt := x |}.
Proof.
  rewrite tp_run. unfold tp_now. cbn [tpb_pk tpb_receipt]. split.
  - destruct (last_tp_pk_of ops) as [k|]; [|discriminate]. destruct (last_tp_receipt_of ops) as [x|]; [|discriminate].
    intros E; injection E as <-. eauto.
  - intros (k & x & -> & -> & ->). reflexivity.
Qed.

Lemma b_exact sha512 ops b :
  b_now sha512 (run b_step b_init ops) = Ok b <->
  exists n f x t, last_b_height_of ops = Some n /\ (0 < n)%N /\ last_b_fees_of ops = Some f /\
    last_b_trx_of ops = Some x /\ last_b_created_of ops = Some t /\
    b = {| b_hash := from_bytes sha512 (itoa_uint n ++ ring_hash f ++ fst x ++ itoaZ (unix t)
                       ++ match last_b_previous_of ops with Some h => h | None => [] end);
           b_height := n; b_fees := f; b_trx := x; b_created := t; b_previous := last_b_previous_of ops |}.
Proof.
  rewrite b_run. unfold b_now. cbn [bb_height bb_fees bb_trx bb_created bb_previous].
  assert (T : forall n f (x : transactions) t, from_multi_bytes sha512 ([itoa_uint n; ring_hash f; fst x; itoaZ (unix t)] ++ opt_part (fun h => h) (last_b_previous_of ops))
    = from_bytes sha512 (itoa_uint n ++ ring_hash f ++ fst x ++ itoaZ (unix t)
                       ++ match last_b_previous_of ops with Some h => h | None => [] end)).
  { intros. rewrite from_multi_concat. destruct (last_b_previous_of ops); cbn [concat opt_part app]; rewrite ?app_nil_r; reflexivity. }
  split.
  - destruct (last_b_height_of ops) as [n|]; [|discriminate].
    destruct (N.eqb_spec n 0); [discriminate|].
    destruct (last_b_fees_of ops) as [f|]; [|discriminate]. destruct (last_b_trx_of ops) as [x|]; [|discriminate].
    destruct (last_b_created_of ops) as [t|]; [|discriminate].
    rewrite T. intros E; injection E as <-. exists n, f, x, t. repeat split; lia.
  - intros (n & f & x & t & -> & Hn & -> & -> & -> & ->).
    destruct (N.eqb_spec n 0); [lia|]. rewrite T. reflexivity.
Qed.
Lemma b_total sha512 ops :
  (exists r, b_now sha512 (run b_step b_init ops) = Ok r) \/ b_now sha512 (run b_step b_init ops) = Err.
Proof.
  unfold b_now. destruct (_ =? _)%N; [auto|]. destruct (bb_fees _); [|auto]. destruct (bb_trx _); [|auto]. destruct (bb_created _); eauto.
Qed.

Lemma c_exact sha512 ops c :
  c_now sha512 (run c_step c_init ops) = Ok c <->
  exists i r t, last_c_id_of ops = Some i /\ last_c_root_of ops = Some r /\ last_c_created_of ops = Some t /\
    c = {| c_id := i;
           c_hash := from_bytes sha512 (i ++ r ++ itoaZ (unix t)
                       ++ match last_c_head_of ops with Some b => b_hash b | None => [] end);
           c_root := r; c_created := t; c_head := last_c_head_of ops |}.
Proof.
  rewrite c_run. unfold c_now. cbn [cb_id cb_root cb_created cb_head].
  assert (T : forall i r t, from_multi_bytes sha512 ([i; r; itoaZ (unix t)] ++ opt_part b_hash (last_c_head_of ops))
    = from_bytes sha512 (i ++ r ++ itoaZ (unix t)
                       ++ match last_c_head_of ops with Some b => b_hash b | None => [] end)).
  { intros. rewrite from_multi_concat. destruct (last_c_head_of ops); cbn [concat opt_part app]; rewrite ?app_nil_r; reflexivity. }
  split.
  - destruct (last_c_id_of ops) as [i|]; [|discriminate]. destruct (last_c_root_of ops) as [r|]; [|discriminate].
    destruct (last_c_created_of ops) as [t|]; [|discriminate].
    rewrite T. intros E; injection E as <-. eauto 10.
  - intros (i & r & t & -> & -> & -> & ->). rewrite T. reflexivity.
Qed.
Lemma c_total sha512 ops :
  (exists r, c_now sha512 (run c_step c_init ops) = Ok r) \/ c_now sha512 (run c_step c_init ops) = Err.
Proof.
  unfold c_now. destruct (cb_id _); [|auto]. destruct (cb_root _); [|auto]. destruct (cb_created _); eauto.
Qed.

Lemma id_exact ops i :
  id_now (run id_step id_init ops) = Ok i <->
  exists n t, last_id_name_of ops = Some n /\ n <> [] /\ last_id_trx_of ops = Some t /\
    i = {| id_name := n; id_transactions := t; id_genesis := last_id_genesis_of ops |}.
Proof.
  rewrite id_run. unfold id_now. cbn [idb_name idb_trx idb_genesis]. split.
  - destruct (last_id_name_of ops) as [[|c n]|]; try discriminate.
    destruct (last_id_trx_of ops) as [t|]; [|discriminate]. intros E; injection E as <-.
    exists (c :: n), t. repeat split. discriminate.
  - intros (n & t & -> & Hn & -> & ->). destruct n; [contradiction|]. reflexivity.
Qed.
Lemma it_exact ops i :
  it_now (run it_step it_init ops) = Ok i <->
  i = {| it_outgoing := last_it_outgoing_of ops; it_incoming := last_it_incoming_of ops |}.
Proof. rewrite it_run. unfold it_now. split; [intros E; injection E as <-; reflexivity | intros ->; reflexivity]. Qed.

(* ---- the hash commits to ... ---- *)
Lemma bytes_binding sha512 a b : length a <> 64 -> length b <> 64 ->
  from_bytes sha512 a = from_bytes sha512 b -> a = b \/ collision sha512.
Proof.
  intros Ha Hb E. rewrite !from_bytes_not64 in E by assumption.
  destruct (bytes_eq_dec a b) as [H|H]; [left; exact H | right; exists a, b; split; assumption].
Qed.

Lemma concat_digests_length l : Forall digest l -> length (concat l) = 64 * length l.
Proof.
  induction 1 as [|x l Hx _ IH]; [reflexivity|]. cbn [concat length]. rewrite app_length, IH. unfold digest in Hx. lia.
Qed.
Lemma concat_digests_inj a : forall b, Forall digest a -> Forall digest b -> concat a = concat b -> a = b.
Proof.
  induction a as [|x a IH]; intros b Ha Hb E.
  - destruct b as [|y b]; [reflexivity|]. inversion Hb as [|? ? Hy _]; subst.
    apply (f_equal (@length byte)) in E. cbn [concat] in E. rewrite app_length in E. unfold digest in Hy. cbn in E. lia.
  - destruct b as [|y b].
    + inversion Ha as [|? ? Hx _]; subst. apply (f_equal (@length byte)) in E. cbn [concat] in E.
      rewrite app_length in E. unfold digest in Hx. cbn in E. lia.
    + inversion Ha as [|? ? Hx Ha']; inversion Hb as [|? ? Hy Hb']; subst. cbn [concat] in E.
      apply app_inj_len in E; [|unfold digest in *; congruence]. destruct E as [-> E]. f_equal. apply IH; assumption.
Qed.
Lemma digests_binding sha512 a b : Forall digest a -> Forall digest b -> length a <> 1 -> length b <> 1 ->
  from_bytes sha512 (concat a) = from_bytes sha512 (concat b) -> a = b \/ collision sha512.
Proof.
  intros Ha Hb La Lb E. apply bytes_binding in E.
  - destruct E as [E|E]; [left; apply concat_digests_inj; assumption | right; exact E].
  - rewrite concat_digests_length by assumption. lia.
  - rewrite concat_digests_length by assumption. lia.
Qed.
Lemma ring_singleton sha512 h : digest h -> from_bytes sha512 (concat [h]) = h.
Proof. intros H. cbn [concat]. rewrite app_nil_r. apply from_bytes_64. exact H. Qed.

Lemma ring_binding sha512 min max min' max' ops ops' r r' :
  ring_now sha512 min max (run ring_step None ops) = Ok r ->
  ring_now sha512 min' max' (run ring_step None ops') = Ok r' ->
  Forall digest (ring_list r) -> Forall digest (ring_list r') ->
  length (ring_list r) <> 1 -> length (ring_list r') <> 1 ->
  ring_hash r = ring_hash r' -> ring_list r = ring_list r' \/ collision sha512.
Proof.
  intros H H'. apply ring_exact in H, H'. destruct H as (l & _ & _ & ->), H' as (l' & _ & _ & ->).
  cbn [ring_list ring_hash]. intros. eapply digests_binding; eassumption.
Qed.
Lemma ring_one_member sha512 min max ops r h :
  ring_now sha512 min max (run ring_step None ops) = Ok r -> ring_list r = [h] -> digest h -> ring_hash r = h.
Proof.
  intros H. apply ring_exact in H. destruct H as (l & _ & _ & ->). cbn [ring_list ring_hash]. intros -> Hd. apply ring_singleton; exact Hd.
Qed.
Lemma ring_confusion sha512 (Hs : digest_size sha512) min max ops r :
  ring_now sha512 min max (run ring_step None ops) = Ok r -> length (ring_list r) <> 1 ->
  exists r', ring_now sha512 1 1 (run ring_step None [RWithList (Some [ring_hash r])]) = Ok r'
    /\ ring_hash r' = ring_hash r /\ ring_list r' <> ring_list r.
Proof.
  intros H. apply ring_exact in H. destruct H as (l & _ & _ & ->). cbn [ring_list ring_hash]. intros Hl.
  exists {| ring_hash := from_bytes sha512 (concat [from_bytes sha512 (concat l)]); ring_list := [from_bytes sha512 (concat l)] |}.
  split; [|split].
  - apply ring_exact. eexists. split; [reflexivity|]. split; [cbn; lia|reflexivity].
  - cbn [ring_hash]. apply ring_singleton. apply from_bytes_length. exact Hs.
  - cbn [ring_list]. intros E. apply Hl. rewrite <- E. reflexivity.
Qed.

Lemma list_binding {A B} sha512 (h : A -> bytes) (k : B -> bytes) ops ops' r r' :
  list_now sha512 h (run list_step None ops) = Ok r ->
  list_now sha512 k (run list_step None ops') = Ok r' ->
  Forall digest (map h (snd r)) -> Forall digest (map k (snd r')) ->
  length (snd r) <> 1 -> length (snd r') <> 1 ->
  fst r = fst r' -> map h (snd r) = map k (snd r') \/ collision sha512.
Proof.
  intros H H'. apply list_exact in H, H'. destruct H as (l & _ & _ & ->), H' as (l' & _ & _ & ->).
  cbn [fst snd]. intros. eapply digests_binding; try eassumption; rewrite map_length; assumption.
Qed.
Lemma list_one {A} sha512 (h : A -> bytes) ops r x :
  list_now sha512 h (run list_step None ops) = Ok r -> snd r = [x] -> digest (h x) -> fst r = h x.
Proof.
  intros H. apply list_exact in H. destruct H as (l & _ & _ & ->). cbn [fst snd]. intros -> Hd. cbn [map]. apply ring_singleton; exact Hd.
Qed.

(* texts of numbers *)
Lemma itoa_uint_length n : 1 <= length (itoa_uint n) <= 20.
Proof. apply itoaZ_length, to_int64_range. Qed.
Lemma itoa_uint_inj a b : uint64 a -> uint64 b -> itoa_uint a = itoa_uint b -> a = b.
Proof. intros Ha Hb E. apply itoaZ_inj in E. apply to_int64_inj; assumption. Qed.
Lemma unix_nano_range t : (- 2 ^ 63 <= unix_nano t < 2 ^ 63)%Z.
Proof. unfold unix_nano. pose proof (Z.mod_pos_bound (t + 2 ^ 63) (2 ^ 64) ltac:(lia)). lia. Qed.
Lemma unix_nano_id t : in_nano_range t -> unix_nano t = t.
Proof. unfold in_nano_range, unix_nano. intros H. rewrite Z.mod_small by lia. lia. Qed.
Lemma unix_nano_inj a b : in_nano_range a -> in_nano_range b -> itoaZ (unix_nano a) = itoaZ (unix_nano b) -> a = b.
Proof. intros Ha Hb E. apply itoaZ_inj in E. rewrite !unix_nano_id in E by assumption. exact E. Qed.

Lemma genesis_binding sha512 ops ops' g g' :
  g_now sha512 (run g_step g_init ops) = Ok g -> g_now sha512 (run g_step g_init ops') = Ok g' ->
  digest (fst (g_units g)) -> digest (fst (g_units g')) -> uint64 (g_fees g) -> uint64 (g_fees g') ->
  in_nano_range (g_created g) -> in_nano_range (g_created g') ->
  length (itoaZ (g_created g)) = length (itoaZ (g_created g')) ->
  g_hash g = g_hash g' ->
  (g_fees g = g_fees g' /\ fst (g_units g) = fst (g_units g') /\ g_created g = g_created g') \/ collision sha512.
Proof.
  intros H H'. apply g_exact in H, H'. destruct H as (u & f & t & _ & _ & _ & _ & ->), H' as (u' & f' & t' & _ & _ & _ & _ & ->).
  cbn [g_hash g_units g_fees g_created]. unfold digest. intros Du Du' Hf Hf' Ht Ht' Lt E.
  pose proof (itoa_uint_length f). pose proof (itoa_uint_length f').
  pose proof (itoaZ_length _ (unix_nano_range t)). pose proof (itoaZ_length _ (unix_nano_range t')).
  apply bytes_binding in E; try (rewrite !app_length; lia).
  destruct E as [E|E]; [left|right; exact E].
  pose proof (f_equal (@length byte) E) as L. rewrite !app_length, !unix_nano_id in L by assumption.
  apply app_inj_len in E; [|lia]. destruct E as [E1 E]. apply app_inj_len in E; [|lia]. destruct E as [E2 E3].
  apply itoa_uint_inj in E1; [|assumption..]. apply unix_nano_inj in E3; auto.
Qed.

Lemma unit_content_collision sha512 s a c : s <> [] -> (c <= a)%Z ->
  exists ops ops' u u',
    uc_now sha512 (run uc_step uc_init ops) = Ok u /\ uc_now sha512 (run uc_step uc_init ops') = Ok u' /\
    uc_amount u = 1%N /\ uc_nonce u = bs "2" ++ s /\ uc_amount u' = 12%N /\ uc_nonce u' = s /\
    uc_activated u = a /\ uc_activated u' = a /\ uc_created u = c /\ uc_created u' = c /\
    uc_hash u = uc_hash u'.
Proof.
  intros Hs Hc.
  exists [UWithAmount 1; UWithNonce (bs "2" ++ s); UActivatedOn a; UCreatedOn c],
         [UWithAmount 12; UWithNonce s; UActivatedOn a; UCreatedOn c].
  eexists. eexists. split; [|split].
  - apply uc_exact. do 4 eexists. split; [reflexivity|]. split; [reflexivity|]. split; [reflexivity|].
    split; [discriminate|]. split; [reflexivity|]. split; [reflexivity|]. split; [exact Hc | reflexivity].
  - apply uc_exact. do 4 eexists. split; [reflexivity|]. split; [reflexivity|]. split; [reflexivity|].
    split; [exact Hs|]. split; [reflexivity|]. split; [reflexivity|]. split; [exact Hc | reflexivity].
  - cbn [uc_amount uc_nonce uc_activated uc_created uc_hash]. repeat split; reflexivity.
Qed.
Lemma unit_content_binding sha512 ops ops' u u' :
  uc_now sha512 (run uc_step uc_init ops) = Ok u -> uc_now sha512 (run uc_step uc_init ops') = Ok u' ->
  uc_amount u = uc_amount u' ->
  in_nano_range (uc_activated u) -> in_nano_range (uc_activated u') ->
  in_nano_range (uc_created u) -> in_nano_range (uc_created u') ->
  length (itoaZ (uc_activated u)) = length (itoaZ (uc_activated u')) ->
  length (itoaZ (uc_created u)) = length (itoaZ (uc_created u')) ->
  length (itoa_uint (uc_amount u) ++ uc_nonce u ++ itoaZ (uc_activated u) ++ itoaZ (uc_created u)) <> 64 ->
  length (itoa_uint (uc_amount u') ++ uc_nonce u' ++ itoaZ (uc_activated u') ++ itoaZ (uc_created u')) <> 64 ->
  uc_hash u = uc_hash u' -> u = u' \/ collision sha512.
Proof.
  intros H H'. apply uc_exact in H, H'.
  destruct H as (n & s & a & c & _ & _ & _ & _ & _ & _ & _ & ->), H' as (n' & s' & a' & c' & _ & _ & _ & _ & _ & _ & _ & ->).
  cbn [uc_amount uc_nonce uc_activated uc_created uc_hash]. intros <- Ha Ha' Hc Hc' La Lc L L' E.
  rewrite !unix_nano_id in * by assumption.
  apply bytes_binding in E; [|assumption..]. destruct E as [E|E]; [left|right; exact E].
  pose proof (f_equal (@length byte) E) as K. rewrite !app_length in K.
  apply app_inv_head in E. apply app_inj_len in E; [|lia]. destruct E as [-> E].
  apply app_inj_len in E; [|lia]. destruct E as [E1 E2]. apply itoaZ_inj in E1, E2. subst. reflexivity.
Qed.
Lemma unit_content_clear sha512 ops u :
  uc_now sha512 (run uc_step uc_init ops) = Ok u ->
  in_nano_range (uc_activated u) -> in_nano_range (uc_created u) ->
  length (itoa_uint (uc_amount u) ++ uc_nonce u ++ itoaZ (uc_activated u) ++ itoaZ (uc_created u)) = 64 ->
  uc_hash u = itoa_uint (uc_amount u) ++ uc_nonce u ++ itoaZ (uc_activated u) ++ itoaZ (uc_created u).
Proof.
  intros H. apply uc_exact in H. destruct H as (n & s & a & c & _ & _ & _ & _ & _ & _ & _ & ->).
  cbn [uc_amount uc_nonce uc_activated uc_created uc_hash]. intros Ha Hc L. rewrite !unix_nano_id by assumption.
  apply from_bytes_64. exact L.
Qed.

Lemma unit_binding sha512 ops ops' u u' :
  gu_now sha512 (run gu_step gu_init ops) = Ok u -> gu_now sha512 (run gu_step gu_init ops') = Ok u' ->
  digest (uc_hash (gu_content u)) -> digest (ring_hash (gu_owner u)) ->
  digest (uc_hash (gu_content u')) -> digest (ring_hash (gu_owner u')) ->
  gu_hash u = gu_hash u' ->
  (uc_hash (gu_content u) = uc_hash (gu_content u') /\ ring_hash (gu_owner u) = ring_hash (gu_owner u')) \/ collision sha512.
Proof.
  intros H H'. apply gu_exact in H, H'. destruct H as (c & o & _ & _ & ->), H' as (c' & o' & _ & _ & ->).
  cbn [gu_hash gu_content gu_owner]. unfold digest. intros D1 D2 D3 D4 E.
  apply bytes_binding in E; try (rewrite app_length; lia). destruct E as [E|E]; [left|right; exact E].
  apply app_inj_len in E; [exact E | lia].
Qed.

Lemma content_binding sha512 ops ops' c c' :
  tc_now sha512 (run tc_step tc_init ops) = Ok c -> tc_now sha512 (run tc_step tc_init ops') = Ok c' ->
  digest (ring_hash (tc_owner c)) -> digest (tc_amount c) -> digest (o_hash (tc_origin c)) -> digest (tc_external c) ->
  digest (ring_hash (tc_owner c')) -> digest (tc_amount c') -> digest (o_hash (tc_origin c')) -> digest (tc_external c') ->
  tc_hash c = tc_hash c' ->
  (ring_hash (tc_owner c) = ring_hash (tc_owner c') /\ tc_amount c = tc_amount c' /\
   o_hash (tc_origin c) = o_hash (tc_origin c') /\ tc_external c = tc_external c' /\ unix (tc_created c) = unix (tc_created c'))
  \/ collision sha512.
Proof.
  intros H H'. apply tc_exact in H, H'.
  destruct H as (w & a & o & e & t & _ & _ & _ & _ & _ & ->), H' as (w' & a' & o' & e' & t' & _ & _ & _ & _ & _ & ->).
  cbn [tc_owner tc_amount tc_origin tc_external tc_created tc_hash]. unfold digest.
  intros D1 D2 D3 D4 D5 D6 D7 D8 E.
  apply bytes_binding in E; try (rewrite !app_length; lia). destruct E as [E|E]; [left|right; exact E].
  apply app_inj_len in E; [|lia]. destruct E as [E1 E]. apply app_inj_len in E; [|lia]. destruct E as [E2 E].
  apply app_inj_len in E; [|lia]. destruct E as [E3 E]. apply app_inj_len in E; [|lia]. destruct E as [E4 E].
  apply itoaZ_inj in E. auto.
Qed.
Lemma content_subsecond sha512 w a o e t :
  exists ops ops' c c', tc_now sha512 (run tc_step tc_init ops) = Ok c /\ tc_now sha512 (run tc_step tc_init ops') = Ok c' /\
    tc_owner c = w /\ tc_amount c = a /\ tc_origin c = o /\ tc_external c = e /\ tc_created c = (t * 1000000000)%Z /\
    tc_owner c' = w /\ tc_amount c' = a /\ tc_origin c' = o /\ tc_external c' = e /\ tc_created c' = (t * 1000000000 + 999999999)%Z /\
    tc_hash c = tc_hash c'.
Proof.
  exists [TCWithOwner (Some w); TCWithAmount a; TCWithOrigin (Some o); TCWithExternal e; TCCreatedOn (t * 1000000000)%Z],
         [TCWithOwner (Some w); TCWithAmount a; TCWithOrigin (Some o); TCWithExternal e; TCCreatedOn (t * 1000000000 + 999999999)%Z].
  do 2 eexists. split; [reflexivity|]. split; [reflexivity|]. do 10 (split; [reflexivity|]).
  cbn [tc_hash tcb_created run fold_left tc_step].
  assert (U : unix (t * 1000000000) = unix (t * 1000000000 + 999999999)).
  { unfold unix. rewrite Z.div_mul, Z.div_add_l by lia. rewrite (Z.div_small 999999999) by lia. lia. }
  rewrite U. reflexivity.
Qed.
Lemma transaction_binding sha512 ops ops' t t' :
  t_now sha512 (run t_step t_init ops) = Ok t -> t_now sha512 (run t_step t_init ops') = Ok t' ->
  digest (tc_hash (t_content t)) -> digest (tc_hash (t_content t')) -> t_auth t <> [] -> t_auth t' <> [] ->
  t_hash t = t_hash t' ->
  (tc_hash (t_content t) = tc_hash (t_content t') /\ t_auth t = t_auth t') \/ collision sha512.
Proof.
  intros H H'. apply t_exact in H, H'. destruct H as (c & a & _ & _ & ->), H' as (c' & a' & _ & _ & ->).
  cbn [t_content t_auth t_hash]. unfold digest. intros D1 D2 Ha Ha' E.
  assert (length a <> 0) by (destruct a; [contradiction|discriminate]).
  assert (length a' <> 0) by (destruct a'; [contradiction|discriminate]).
  apply bytes_binding in E; try (rewrite !app_length; lia). destruct E as [E|E]; [left|right; exact E].
  apply app_inj_len in E; [exact E|lia].
Qed.

(* ---- secrets ---- *)
Lemma secret_resplit sha512 p s : s <> [] ->
  exists ops ops' x x', s_now sha512 (run s_step s_init ops) = Ok x /\ s_now sha512 (run s_step s_init ops') = Ok x' /\
    s_public x = p /\ s_public x' = p /\ s_amount x = 1%N /\ s_nonce x = bs "2" ++ s /\ s_amount x' = 12%N /\ s_nonce x' = s /\
    s_hash x = s_hash x'.
Proof.
  intros Hs.
  exists [SWithAmount 1; SWithNonce (bs "2" ++ s); SWithPublic (Some p)], [SWithAmount 12; SWithNonce s; SWithPublic (Some p)].
  do 2 eexists. split; [|split].
  - apply s_exact. do 3 eexists. repeat split; discriminate.
  - apply s_exact. do 3 eexists. repeat split; exact Hs.
  - repeat split.
Qed.
Lemma secret_absorb sha512 (Hs : digest_size sha512) n v p o : (0 < n)%N -> v <> [] ->
  exists ops ops' x x', s_now sha512 (run s_step s_init ops) = Ok x /\ s_now sha512 (run s_step s_init ops') = Ok x' /\
    s_public x = p /\ s_public x' = p /\ s_amount x = n /\ s_amount x' = n /\
    s_nonce x = v /\ s_origin x = Some o /\ s_nonce x' = v ++ s_hash o /\ s_origin x' = None /\
    s_sides x = None /\ s_sides x' = None /\
    s_hash x = s_hash x'.
Proof.
  intros Hn Hv.
  exists [SWithAmount n; SWithNonce v; SWithPublic (Some p); SWithOrigin (Some o)],
         [SWithAmount n; SWithNonce (v ++ s_hash o); SWithPublic (Some p)].
  do 2 eexists. split; [|split].
  - apply s_exact. do 3 eexists. repeat split; assumption.
  - apply s_exact. do 3 eexists. repeat split; try assumption. destruct v; [contradiction|discriminate].
  - repeat split. cbn [s_hash last_s_origin_of last_s_sides_of last_call fold_left s_is_create]. rewrite !app_nil_r, <- ?app_assoc. reflexivity.
Qed.
Lemma secret_origin_sides sha512 n v p o : (0 < n)%N -> v <> [] -> digest (s_hash o) ->
  exists ops ops' ops'' x x' sides, 
    list_now sha512 s_hash (run list_step None ops'') = Ok sides /\ snd sides = [o] /\
    s_now sha512 (run s_step s_init ops) = Ok x /\ s_now sha512 (run s_step s_init ops') = Ok x' /\
    s_public x = p /\ s_public x' = p /\ s_amount x = n /\ s_amount x' = n /\ s_nonce x = v /\ s_nonce x' = v /\
    s_origin x = Some o /\ s_sides x = None /\ s_origin x' = None /\ s_sides x' = Some sides /\
    s_hash x = s_hash x'.
Proof.
  intros Hn Hv Hd.
  exists [SWithAmount n; SWithNonce v; SWithPublic (Some p); SWithOrigin (Some o)],
         [SWithAmount n; SWithNonce v; SWithPublic (Some p); SWithSides (Some (s_hash o, [o]))],
         [LWithList (Some [o])].
  do 2 eexists. exists (s_hash o, [o]). split; [|split; [reflexivity|split; [|split]]].
  - apply list_exact. eexists. split; [reflexivity|]. split; [discriminate|]. cbn [map]. rewrite ring_singleton by exact Hd. reflexivity.
  - apply s_exact. do 3 eexists. repeat split; assumption.
  - apply s_exact. do 3 eexists. repeat split; assumption.
  - repeat split. cbn [s_hash last_s_origin_of last_s_sides_of last_call fold_left s_is_create fst]. rewrite !app_nil_r. reflexivity.
Qed.
Lemma secret_binding sha512 ops ops' x x' :
  s_now sha512 (run s_step s_init ops) = Ok x -> s_now sha512 (run s_step s_init ops') = Ok x' ->
  digest (t_hash (s_public x)) -> digest (t_hash (s_public x')) ->
  s_hash x = s_hash x' -> t_hash (s_public x) = t_hash (s_public x') \/ collision sha512.
Proof.
  intros H H'. apply s_exact in H, H'. destruct H as (n & v & p & _ & _ & _ & Hv & _ & ->), H' as (n' & v' & p' & _ & _ & _ & Hv' & _ & ->).
  cbn [s_hash s_public]. unfold digest. intros D D' E.
  assert (length v <> 0) by (destruct v; [contradiction|discriminate]).
  assert (length v' <> 0) by (destruct v'; [contradiction|discriminate]).
  apply bytes_binding in E; try (rewrite !app_length; lia). destruct E as [E|E]; [left|right; exact E].
  apply app_inj_len in E; [|lia]. apply E.
Qed.

(* ---- blocks and chains ---- *)
Lemma opt_eq_len (P P' : option bytes) (a a' b b' : nat) : opt_digest P -> opt_digest P' ->
  a + length (match P with Some h => h | None => [] end) = a' + length (match P' with Some h => h | None => [] end) ->
  a < 64 + a' -> a' < 64 + a -> a = a' /\ (P = None <-> P' = None).
Proof.
  unfold opt_digest, digest. destruct P as [h|], P' as [h'|]; cbn [length]; intros; split; try lia; split; congruence || (intros; lia) || discriminate.
Qed.

Lemma block_binding sha512 ops ops' b b' :
  b_now sha512 (run b_step b_init ops) = Ok b -> b_now sha512 (run b_step b_init ops') = Ok b' ->
  digest (ring_hash (b_fees b)) -> digest (fst (b_trx b)) -> opt_digest (b_previous b) ->
  digest (ring_hash (b_fees b')) -> digest (fst (b_trx b')) -> opt_digest (b_previous b') ->
  uint64 (b_height b) -> uint64 (b_height b') -> in_unix_range (b_created b) -> in_unix_range (b_created b') ->
  length (itoaZ (unix (b_created b))) = length (itoaZ (unix (b_created b'))) ->
  b_hash b = b_hash b' ->
  (b_height b = b_height b' /\ ring_hash (b_fees b) = ring_hash (b_fees b') /\ fst (b_trx b) = fst (b_trx b') /\
   unix (b_created b) = unix (b_created b') /\ b_previous b = b_previous b') \/ collision sha512.
Proof.
  intros H H'. apply b_exact in H, H'.
  destruct H as (n & f & x & t & _ & _ & _ & _ & _ & ->), H' as (n' & f' & x' & t' & _ & _ & _ & _ & _ & ->).
  cbn [b_height b_fees b_trx b_created b_previous b_hash].
  set (P := last_b_previous_of ops). set (P' := last_b_previous_of ops').
  unfold digest. intros D1 D2 D3 D4 D5 D6 Hn Hn' Ht Ht' L E.
  pose proof (itoa_uint_length n). pose proof (itoa_uint_length n').
  pose proof (itoaZ_length _ Ht). pose proof (itoaZ_length _ Ht').
  apply bytes_binding in E; try (rewrite !app_length; lia). destruct E as [E|E]; [left|right; exact E].
  pose proof (f_equal (@length byte) E) as K. rewrite !app_length in K.
  destruct (opt_eq_len P P' (length (itoa_uint n)) (length (itoa_uint n')) 0 0 D3 D6) as [K1 K2]; [lia..|].
  apply app_inj_len in E; [|lia]. destruct E as [E1 E]. apply app_inj_len in E; [|lia]. destruct E as [E2 E].
  apply app_inj_len in E; [|lia]. destruct E as [E3 E]. apply app_inj_len in E; [|lia]. destruct E as [E4 E].
  apply itoa_uint_inj in E1; [|assumption..]. apply itoaZ_inj in E4.
  repeat split; try assumption.
  destruct P, P'; try congruence; [destruct K2 as [_ K2]; discriminate (K2 eq_refl) | destruct K2 as [K2 _]; discriminate (K2 eq_refl)].
Qed.

Lemma chain_binding sha512 ops ops' c c' :
  c_now sha512 (run c_step c_init ops) = Ok c -> c_now sha512 (run c_step c_init ops') = Ok c' ->
  length (c_id c) = 16 -> length (c_id c') = 16 -> digest (c_root c) -> digest (c_root c') ->
  opt_digest (option_map b_hash (c_head c)) -> opt_digest (option_map b_hash (c_head c')) ->
  in_unix_range (c_created c) -> in_unix_range (c_created c') ->
  c_hash c = c_hash c' ->
  (c_id c = c_id c' /\ c_root c = c_root c' /\ unix (c_created c) = unix (c_created c') /\
   option_map b_hash (c_head c) = option_map b_hash (c_head c')) \/ collision sha512.
Proof.
  intros H H'. apply c_exact in H, H'. destruct H as (i & r & t & _ & _ & _ & ->), H' as (i' & r' & t' & _ & _ & _ & ->).
  cbn [c_id c_root c_created c_head c_hash].
  set (P := last_c_head_of ops). set (P' := last_c_head_of ops').
  unfold digest. intros Hi Hi' Hr Hr' D D' Ht Ht' E.
  pose proof (itoaZ_length _ Ht). pose proof (itoaZ_length _ Ht').
  apply bytes_binding in E; try (rewrite !app_length; lia). destruct E as [E|E]; [left|right; exact E].
  pose proof (f_equal (@length byte) E) as K. rewrite !app_length in K.
  unfold opt_digest, digest in D, D'.
  destruct P as [b|], P' as [b'|]; cbn [option_map length] in *; try (exfalso; lia);
    (apply app_inj_len in E; [|lia]; destruct E as [E1 E]; apply app_inj_len in E; [|lia]; destruct E as [E2 E];
     apply app_inj_len in E; [|lia]; destruct E as [E3 E]; apply itoaZ_inj in E3; repeat split; congruence).
Qed.

(* ---- ancestry ---- *)
Scheme bt_ind := Induction for built_transaction Sort Prop
  with bc_ind := Induction for built_content Sort Prop
  with bo_ind := Induction for built_origin Sort Prop.

Ltac from_history H :=
  apply last_call_in in H; let o := fresh in let Hi := fresh "Hi" in let Ho := fresh in
  destruct H as (o & Hi & Ho); destruct o; try discriminate Ho; injection Ho as Ho; subst.

Section Ancestry.
Variable sha512 : bytes -> bytes.
Hypothesis Hs : digest_size sha512.

Lemma from_bytes_digest b : digest (from_bytes sha512 b).
Proof. apply from_bytes_length. exact Hs. Qed.
Lemma built_ring_digest r : built_ring sha512 r -> digest (ring_hash r).
Proof. intros (min & max & ops & _ & H). apply ring_exact in H. destruct H as (l & _ & _ & ->). apply from_bytes_digest. Qed.
Lemma built_unit_content_digest r : built_unit_content sha512 r -> digest (uc_hash r).
Proof. intros (ops & H). apply uc_exact in H. destruct H as (n & v & a & c & _ & _ & _ & _ & _ & _ & _ & ->). apply from_bytes_digest. Qed.
Lemma built_unit_text u : built_unit sha512 u -> exists x, gu_hash u = sha512 x /\ length x = 128.
Proof.
  intros (ops & Hc & Hr & H). apply gu_exact in H. destruct H as (c & o & Lc & Lo & ->). cbn [gu_hash].
  from_history Lc. from_history Lo.
  apply Hc, built_unit_content_digest in Hi. apply Hr, built_ring_digest in Hi0. unfold digest in *.
  exists (uc_hash c ++ ring_hash o). rewrite app_length. split; [apply from_bytes_not64; rewrite app_length; lia | lia].
Qed.
Lemma built_content_digest c : built_content sha512 c -> digest (tc_hash c).
Proof. intros [x ops _ _ _ _ H]. apply tc_exact in H. destruct H as (w & a & o & e & t & _ & _ & _ & _ & _ & ->). apply from_bytes_digest. Qed.
Lemma built_transaction_text t : built_transaction sha512 t ->
  t_hash t = sha512 (tc_hash (t_content t) ++ t_auth t) /\ digest (tc_hash (t_content t)) /\ 64 < length (t_auth t).
Proof.
  intros [x ops Hc Ha H]. apply t_exact in H. destruct H as (c & a & Lc & La & ->). cbn [t_hash t_content t_auth].
  from_history Lc. from_history La. apply Hc, built_content_digest in Hi. apply Ha in Hi0. unfold digest in *.
  split; [apply from_bytes_not64; rewrite app_length; lia | split; assumption].
Qed.
Lemma built_origin_digest o : built_origin sha512 o -> digest (o_hash o).
Proof.
  intros [x ops Hu Ht H]. apply o_exact in H. destruct H as [(u & L & ->)|(_ & t & L & ->)]; cbn [o_hash].
  - from_history L. apply Hu, built_unit_text in Hi. destruct Hi as (x & -> & _). apply Hs.
  - from_history L. apply Ht, built_transaction_text in Hi. destruct Hi as (-> & _). apply Hs.
Qed.
Lemma sha_lengths x y : length x <> length y -> sha512 x = sha512 y -> collision sha512.
Proof. intros L E. exists x, y. split; [intros ->; apply L; reflexivity | exact E]. Qed.

Lemma ancestry_binding t : built_transaction sha512 t ->
  forall t', built_transaction sha512 t' -> t_hash t = t_hash t' -> same_transaction t t' \/ collision sha512.
Proof.
  intros B. induction B using bt_ind with
    (P0 := fun c _ => forall c', built_content sha512 c' -> tc_hash c = tc_hash c' -> same_content c c' \/ collision sha512)
    (P1 := fun o _ => forall o', built_origin sha512 o' -> o_hash o = o_hash o' -> same_origin o o' \/ collision sha512).
  - intros t' B' E.
    pose proof (built_transaction_text t (built_t sha512 t ops b l e)) as (T & D & L).
    pose proof (built_transaction_text t' B') as (T' & D' & L').
    destruct B' as [t' ops' Hc' Ha' H'].
    apply t_exact in e, H'. destruct e as (c & a & Lc & La & ->), H' as (c' & a' & Lc' & La' & ->).
    cbn [t_hash t_content t_auth] in *. unfold digest in *.
    rewrite T, T' in E.
    destruct (bytes_eq_dec (tc_hash c ++ a) (tc_hash c' ++ a')) as [X|X]; [|right; eexists; eexists; split; eassumption].
    apply app_inj_len in X; [|lia]. destruct X as [X ->].
    from_history Lc. from_history Lc'.
    destruct (H _ Hi _ (Hc' _ Hi0) X) as [S|S]; [left|right; exact S].
    assert (h : from_bytes sha512 (tc_hash c ++ a') = from_bytes sha512 (tc_hash c' ++ a')) by (rewrite X; reflexivity).
    rewrite h. constructor. exact S.
  - intros c' B' E. destruct B' as [c' ops' Hr' Ha' Ho' He' H'].
    pose proof e as H0. apply tc_exact in H0, H'.
    destruct H0 as (w & a & o & e0 & t & Lw & La & Lo & Le & Lt & ->), H' as (w' & a' & o' & e0' & t' & Lw' & La' & Lo' & Le' & Lt' & ->).
    cbn [tc_hash] in E. pose proof E as Eh.
    from_history Lw. from_history La. from_history Lo. from_history Le.
    from_history Lw'. from_history La'. from_history Lo'. from_history Le'.
    assert (Dw : digest (ring_hash w)) by (apply built_ring_digest; auto).
    assert (Dw' : digest (ring_hash w')) by (apply built_ring_digest; auto).
    assert (Do : digest (o_hash o)) by (apply built_origin_digest; auto).
    assert (Do' : digest (o_hash o')) by (apply built_origin_digest; auto).
    assert (Da : digest a) by auto. assert (Da' : digest a') by auto.
    assert (De : digest e0) by auto. assert (De' : digest e0') by auto.
    unfold digest in Dw, Dw', Do, Do', Da, Da', De, De'.
    apply bytes_binding in E; try (rewrite !app_length; lia). destruct E as [E|E]; [|right; exact E].
    apply app_inj_len in E; [|lia]. destruct E as [E1 E]. apply app_inj_len in E; [|lia]. destruct E as [-> E].
    apply app_inj_len in E; [|lia]. destruct E as [E3 E]. apply app_inj_len in E; [|lia]. destruct E as [-> E].
    apply itoaZ_inj in E.
    match goal with Ho : forall o, _ -> forall o', _ -> o_hash o = o_hash o' -> _ |- _ =>
      destruct (Ho o ltac:(assumption) o' ltac:(auto) E3) as [S|S] end; [left|right; exact S].
    rewrite Eh. constructor; assumption.
  - intros o' B' E. destruct B' as [o' ops' Hu' Ht' H'].
    apply o_exact in e, H'. destruct e as [(u & L & ->)|(_ & t & L & ->)], H' as [(u' & L' & ->)|(_ & t' & L' & ->)];
      cbn [o_hash] in E; from_history L; from_history L'.
    + left. constructor. exact E.
    + right. apply b in Hi. apply Ht' in Hi0. apply built_unit_text in Hi. apply built_transaction_text in Hi0.
      destruct Hi as (x & Hx & Lx), Hi0 as (Hy & Dy & Ly). rewrite Hx, Hy in E. eapply sha_lengths; [|exact E].
      rewrite app_length. unfold digest in Dy. lia.
    + right. apply b0 in Hi. apply Hu' in Hi0. apply built_unit_text in Hi0. apply built_transaction_text in Hi.
      destruct Hi0 as (x & Hx & Lx), Hi as (Hy & Dy & Ly). rewrite Hx, Hy in E. eapply sha_lengths; [|exact E].
      rewrite app_length. unfold digest in Dy. lia.
    + match goal with Ht : forall t, _ -> forall t', _ -> t_hash t = t_hash t' -> _ |- _ =>
        destruct (Ht t ltac:(assumption) t' ltac:(auto) E) as [S|S] end; [left|right; exact S]. constructor; exact S.
Qed.
End Ancestry.

Lemma gprivate_binding sha512 ops ops' p p' :
  gp_now sha512 (run gp_step gp_init ops) = Ok p -> gp_now sha512 (run gp_step gp_init ops') = Ok p' ->
  digest (gu_hash (gp_unit p)) -> digest (gu_hash (gp_unit p')) -> gp_pk p <> [] -> gp_pk p' <> [] ->
  gp_hash p = gp_hash p' ->
  (gu_hash (gp_unit p) = gu_hash (gp_unit p') /\ gp_pk p = gp_pk p') \/ collision sha512.
Proof.
  intros H H'. apply gp_exact in H, H'. destruct H as (c & a & _ & _ & ->), H' as (c' & a' & _ & _ & ->).
  cbn [gp_unit gp_pk gp_hash]. unfold digest. intros D1 D2 Ha Ha' E.
  assert (length a <> 0) by (destruct a; [contradiction|discriminate]).
  assert (length a' <> 0) by (destruct a'; [contradiction|discriminate]).
  apply bytes_binding in E; try (rewrite !app_length; lia). destruct E as [E|E]; [left|right; exact E].
  apply app_inj_len in E; [exact E|lia].
Qed.

(* ---- peers ---- *)
Lemma occurs_at_prefix sep s i : occurs_at sep s i <-> i <= length s /\ has_prefix sep (skipn i s) = true.
Proof.
  split.
  - intros (a & b & -> & <-). split; [rewrite app_length; lia|].
    rewrite skipn_app, skipn_all, Nat.sub_diag. cbn [app skipn]. apply has_prefix_app.
  - intros (L & H). apply has_prefix_spec in H. destruct H as (r & E).
    exists (firstn i s), r. split; [rewrite <- E; symmetry; apply firstn_skipn | apply firstn_length_le; exact L].
Qed.
Lemma no_occurs sep s n : n <= length s ->
  (forall i, i < n -> ~ occurs_at sep s i) <-> (forall i, i < n -> has_prefix sep (skipn i s) = false).
Proof.
  intros L. split; intros H i Hi.
  - specialize (H i Hi). rewrite occurs_at_prefix in H. destruct (has_prefix _ _); [|reflexivity]. exfalso; apply H; split; [lia|reflexivity].
  - rewrite occurs_at_prefix, (H i Hi). intros [_ X]; discriminate.
Qed.

(* the first piece of a split *)
Lemma split_go_inv sep s : sep <> [] -> forall cur x rest, split_go sep 0 cur s = x :: rest ->
  exists p, x = rev cur ++ p /\
    ((rest = [] /\ s = p /\ forall i, i < length s -> has_prefix sep (skipn i s) = false) \/
     (exists r, s = p ++ sep ++ r /\ (forall i, i < length p -> has_prefix sep (skipn i s) = false) /\ rest = split_go sep 0 [] r)).
Proof.
  intros Hs. induction s as [|c s IH]; intros cur x rest.
  - cbn [split_go]. intros E; injection E as <- <-. exists []. rewrite app_nil_r. split; [reflexivity|]. left.
    repeat split. intros i Hi; cbn in Hi; lia.
  - cbn [split_go]. destruct (has_prefix sep (c :: s)) eqn:P.
    + intros E; injection E as <- <-. exists []. rewrite app_nil_r. split; [reflexivity|]. right.
      apply has_prefix_spec in P. destruct P as (r & Er). exists r. split; [exact Er|]. split; [intros i Hi; cbn in Hi; lia|].
      destruct sep as [|y sep]; [contradiction|]. cbn [app length] in *. injection Er as -> ->.
      replace (S (length sep) - 1) with (length sep) by lia.
      rewrite split_go_skip by (rewrite app_length; lia). rewrite skipn_app, skipn_all, Nat.sub_diag. reflexivity.
    + intros E. destruct (IH _ _ _ E) as (p & -> & Hp). exists (c :: p). cbn [rev]. rewrite <- app_assoc. split; [reflexivity|].
      destruct Hp as [(-> & -> & Hn)|(r & -> & Hn & ->)].
      * left. repeat split. intros [|i] Hi; [exact P | apply (Hn i); cbn in Hi; lia].
      * right. exists r. repeat split. intros [|i] Hi; [exact P | apply (Hn i); cbn in Hi; lia].
Qed.

Lemma split_two sep s h t : sep <> [] ->
  (strsplit sep s = [h; t] <->
   s = h ++ sep ++ t /\ (forall i, i < length h -> ~ occurs_at sep s i) /\ (forall i, i < length t -> ~ occurs_at sep t i)).
Proof.
  intros Hs. unfold strsplit. split.
  - intros E. destruct (split_go_inv _ _ Hs _ _ _ E) as (p & -> & [(X & _)|(r & -> & Hn & X)]); [discriminate|].
    cbn [rev app]. symmetry in X. destruct (split_go_inv _ _ Hs _ _ _ X) as (q & -> & [(_ & -> & Hq)|(r' & -> & _ & Y)]).
    + cbn [rev app]. split; [reflexivity|]. split; apply no_occurs; try assumption; try rewrite app_length; lia.
    + exfalso. unfold strsplit in Y. destruct r'; cbn [split_go] in Y; [discriminate|]. 
      match type of Y with [] = ?z => assert (Z : z <> []) end; [|congruence].
      destruct (has_prefix sep (b :: r')); [discriminate|].
      clear. intros H. revert H. generalize [b]. induction r' as [|d r' IH]; intros cur; cbn [split_go]; [discriminate|].
      destruct (has_prefix _ _); [discriminate|apply IH].
  - intros (-> & H1 & H2). 
    pose proof (proj1 (no_occurs sep (h ++ sep ++ t) (length h) ltac:(rewrite app_length; lia)) H1) as H1'.
    pose proof (proj1 (no_occurs sep t (length t) ltac:(lia)) H2) as H2'.
    rewrite split_go_first by assumption. rewrite split_go_none by assumption. cbn [rev app]. rewrite app_nil_r, rev_involutive. reflexivity.
Qed.

Lemma peer_exact d ops s p : d <> [] -> ~ In PNow ops -> last_p_string ops = Some s -> s <> [] ->
  (p_now (run p_step (p_init d) ops) = Ok p <->
   exists h t z, s = h ++ d ++ t /\ (forall i, i < length h -> ~ occurs_at d s i) /\ (forall i, i < length t -> ~ occurs_at d t i) /\
     h <> [] /\ atoi t = Some z /\ p = {| p_host := h; p_port := to_uint64 z; p_delim := d |}).
Proof.
  intros Hd Hn Hl Hs. rewrite p_run, Hl by assumption. unfold p_now, p_parse. cbn [pb_str pb_delim pb_host pb_port].
  destruct s as [|c s]; [contradiction|]. split.
  - destruct (strsplit d (c :: s)) as [|h [|t [|x l]]] eqn:E; try discriminate.
    destruct (atoi t) as [z|] eqn:A; [|discriminate]. cbn [pb_host pb_port pb_delim].
    destruct h as [|y h]; [discriminate|]. intros X; injection X as <-.
    apply split_two in E; [|assumption]. destruct E as (E1 & E2 & E3).
    exists (y :: h), t, z. repeat split; try assumption. discriminate.
  - intros (h & t & z & E1 & E2 & E3 & Hh & A & ->).
    assert (E : strsplit d (c :: s) = [h; t]) by (apply split_two; auto). rewrite E, A. cbn [pb_host pb_port pb_delim].
    destruct h; [contradiction|]. reflexivity.
Qed.
Lemma peer_total d ops : (exists p, p_now (run p_step (p_init d) ops) = Ok p) \/ p_now (run p_step (p_init d) ops) = Err.
Proof.
  unfold p_now. destruct (p_parse _); [|auto]. destruct (pb_host _); [auto|]. destruct (pb_port _); eauto.
Qed.
Lemma peer_host_port d ops p : ~ In PNow ops -> last_p_string ops = None \/ last_p_string ops = Some [] ->
  (p_now (run p_step (p_init d) ops) = Ok p <->
   exists h n, last_p_host ops = Some h /\ h <> [] /\ last_p_port ops = Some n /\ p = {| p_host := h; p_port := n; p_delim := d |}).
Proof.
  intros Hn Hs. rewrite p_run by assumption.
  replace (match last_p_string ops with Some v => v | None => [] end) with (@nil byte) by (destruct Hs as [-> | ->]; reflexivity).
  unfold p_now, p_parse. cbn [pb_str pb_delim pb_host pb_port]. split.
  - destruct (last_p_host ops) as [[|c h]|]; try discriminate. destruct (last_p_port ops) as [n|]; [|discriminate].
    intros X; injection X as <-. exists (c :: h), n. repeat split. discriminate.
  - intros (h & n & -> & Hh & -> & ->). destruct h; [contradiction|]. reflexivity.
Qed.

Lemma peer_round_trip d h n x : In x d -> is_digit x = false -> h <> [] -> (forall i, i < length h -> ~ occurs_at d (h ++ d) i) ->
  (n < 2 ^ 63)%N ->
  p_now (run p_step (p_init d) [PWithString (peer_string {| p_host := h; p_port := n; p_delim := d |})])
    = Ok {| p_host := h; p_port := n; p_delim := d |}.
Proof.
  intros Hx Hdig Hh Hocc Hn. unfold peer_string. cbn [p_host p_port p_delim].
  apply (peer_exact _ _ (h ++ d ++ itoa n)).
  - intros ->. destruct Hx.
  - intros [X|[]]; discriminate.
  - reflexivity.
  - destruct h; [contradiction|discriminate].
  - exists h, (itoa n), (Z.of_N n). split; [reflexivity|]. split; [|split; [|split; [assumption|split]]].
    + intros i Hi (a & b & E & La). apply (Hocc i Hi). rewrite (app_assoc h d) in E.
      assert (L : length d <= length (h ++ d) - i) by (rewrite app_length; lia).
      exists a, (firstn (length (h ++ d) - i - length d) b). split; [|exact La].
      apply (f_equal (firstn (length (h ++ d)))) in E. rewrite firstn_app, firstn_all, Nat.sub_diag in E. cbn [firstn] in E.
      rewrite app_nil_r in E. rewrite E at 1. rewrite firstn_app, La.
      rewrite (firstn_all2 a) by (rewrite app_length; lia). f_equal.
      rewrite firstn_app. rewrite (firstn_all2 d) by lia. reflexivity.
    + intros i Hi (a & b & E & La). pose proof (itoa_digits n) as D. rewrite forallb_forall in D.
      rewrite (D x) in Hdig; [discriminate|]. rewrite E. apply in_or_app; right. apply in_or_app; left. exact Hx.
    + apply atoi_itoa. exact Hn.
    + rewrite to_uint64_of_N; [reflexivity|]. lia.
Qed.
Lemma peer_round_trip1 x h n : is_digit x = false -> h <> [] -> ~ In x h -> (n < 2 ^ 63)%N ->
  p_now (run p_step (p_init [x]) [PWithString (peer_string {| p_host := h; p_port := n; p_delim := [x] |})])
    = Ok {| p_host := h; p_port := n; p_delim := [x] |}.
Proof.
  intros Hd Hh Hi Hn. apply (peer_round_trip [x] h n x); auto; [left; reflexivity|].
  intros i Hlt (a & b & E & La). apply Hi. subst i.
  assert (Hh' : h = a ++ skipn (length a) h).
  { rewrite <- (firstn_skipn (length a) h) at 1. f_equal. apply (f_equal (firstn (length a))) in E.
    rewrite !firstn_app, firstn_all in E. replace (length a - length h) with 0 in E by lia. rewrite Nat.sub_diag in E.
    cbn [firstn] in E. rewrite !app_nil_r in E. exact E. }
  rewrite Hh' in E. rewrite <- app_assoc in E. apply app_inv_head in E.
  destruct (skipn (length a) h) as [|y r] eqn:S.
  - rewrite Hh', app_nil_r in Hlt. lia.
  - cbn [app] in E. injection E as -> _. eapply skipn_in. exact S.
Qed.

Lemma peer_big_port d h n x : In x d -> is_digit x = false -> h <> [] -> (forall i, i < length h -> ~ occurs_at d (h ++ d) i) ->
  (2 ^ 63 <= n)%N ->
  p_now (run p_step (p_init d) [PWithString (peer_string {| p_host := h; p_port := n; p_delim := d |})]) = Err.
Proof.
  intros Hx Hdig Hh Hocc Hn.
  destruct (peer_total d [PWithString (peer_string {| p_host := h; p_port := n; p_delim := d |})]) as [(p & E)|E]; [exfalso|exact E].
  assert (Hd : d <> []) by (intros ->; destruct Hx).
  apply (peer_exact _ _ (h ++ d ++ itoa n)) in E; [| assumption | intros [X|[]]; discriminate | reflexivity | destruct h; [contradiction|discriminate]].
  destruct E as (h' & t & z & E & H1 & H2 & _ & A & _).
  (* both cuts are the first occurrence *)
  assert (Lh : length h = length h').
  { destruct (Nat.lt_trichotomy (length h) (length h')) as [L|[L|L]]; [|exact L|].
    - exfalso. apply (H1 _ L). exists h, (itoa n). split; reflexivity.
    - exfalso. apply (Hocc _ L). exists h', (firstn (length h - length h') t). split; [|reflexivity].
      apply (f_equal (firstn (length (h ++ d)))) in E. rewrite (app_assoc h d), firstn_app, firstn_all, Nat.sub_diag in E.
      cbn [firstn] in E. rewrite app_nil_r in E. rewrite E at 1. rewrite !firstn_app, app_length.
      rewrite (firstn_all2 h') by lia. rewrite (firstn_all2 d) by lia. do 3 f_equal. lia. }
  apply app_inj_len in E; [|exact Lh]. destruct E as [<- E]. apply app_inv_head in E. subst t.
  rewrite atoi_digits, parse_itoa in A by apply itoa_digits.
  destruct (N.ltb_spec n (2 ^ 63)); [lia | discriminate].
Qed.

Lemma receipts_share sha512 ops ops' r r' :
  rc_now sha512 (run rc_step rc_init ops) = Ok r -> rc_now sha512 (run rc_step rc_init ops') = Ok r' ->
  rc_hash r = rc_hash r' /\ rc_hash r = from_bytes sha512 [].
Proof. intros H H'. apply rc_exact in H, H'. destruct H as (? & ? & _ & _ & ->), H' as (? & ? & _ & _ & ->). split; reflexivity. Qed.
Lemma privates_share sha512 ops ops' p p' :
  tp_now sha512 (run tp_step tp_init ops) = Ok p -> tp_now sha512 (run tp_step tp_init ops') = Ok p' ->
  tp_hash p = tp_hash p' /\ tp_hash p = from_bytes sha512 [].
Proof. intros H H'. apply tp_exact in H, H'. destruct H as (? & ? & _ & _ & ->), H' as (? & ? & _ & _ & ->). split; reflexivity. Qed.
Lemma private_receipt_share sha512 ops ops' p r :
  tp_now sha512 (run tp_step tp_init ops) = Ok p -> rc_now sha512 (run rc_step rc_init ops') = Ok r -> tp_hash p = rc_hash r.
Proof. intros H H'. apply tp_exact in H. apply rc_exact in H'. destruct H as (? & ? & _ & _ & ->), H' as (? & ? & _ & _ & ->). reflexivity. Qed.
Lemma private_lists_share sha512 ops ops' l l' :
  list_now sha512 tp_hash (run list_step None ops) = Ok l -> list_now sha512 tp_hash (run list_step None ops') = Ok l' ->
  (forall p, In p (snd l ++ snd l') -> exists ops, tp_now sha512 (run tp_step tp_init ops) = Ok p) ->
  length (snd l) = length (snd l') -> fst l = fst l'.
Proof.
  intros H H'. apply list_exact in H, H'. destruct H as (x & _ & _ & ->), H' as (x' & _ & _ & ->). cbn [fst snd].
  intros Hp L. assert (G : forall p, In p (x ++ x') -> tp_hash p = from_bytes sha512 []).
  { intros p Hi. destruct (Hp p Hi) as (o & Ho). apply tp_exact in Ho. destruct Ho as (? & ? & _ & _ & ->). reflexivity. }
  clear Hp. do 2 f_equal. revert x' L G. induction x as [|p x IH]; intros [|p' x'] L G; try discriminate; [reflexivity|].
  cbn [map]. rewrite (G p), (G p'); [f_equal; apply IH| |]; try (cbn in L; lia); try (cbn; auto; fail).
  - intros q Hq. apply G. cbn. apply in_app_or in Hq. destruct Hq; [right; apply in_or_app; auto | right; apply in_or_app; right; right; assumption].
  - cbn. right. apply in_or_app. right. left. reflexivity.
Qed.

(* an example for the ancestry theorem, with a 65-byte authorization *)
Lemma ancestry_example : exists t t0, built_transaction toy_sha t /\ tc_origin (t_content t) = OTransaction t0.
Proof.
  pose (dd := fun c => repeat c 64 : bytes).
  pose (rops := [RWithList (Some [dd "k"%byte])]).
  destruct (ring_now toy_sha 1 1 (run ring_step None rops)) as [r| | |] eqn:R; try discriminate R.
  pose (uops := [UWithAmount 1; UWithNonce (bs "n"); UActivatedOn 0; UCreatedOn 0]).
  destruct (uc_now toy_sha (run uc_step uc_init uops)) as [uc| | |] eqn:U; try discriminate U.
  pose (gops := [GUWithContent (Some uc); GUWithOwner (Some r)]).
  destruct (gu_now toy_sha (run gu_step gu_init gops)) as [gu| | |] eqn:G; try discriminate G.
  assert (BR : built_ring toy_sha r).
  { exists 1%N, 1%N, rops. split; [|exact R]. intros l [E|[]]. injection E as <-. repeat constructor. }
  assert (BU : built_unit toy_sha gu).
  { exists gops. split; [|split; [|exact G]].
    - intros c [E|[E|[]]]; [injection E as <-|discriminate]. exists uops. exact U.
    - intros c [E|[E|[]]]; [discriminate|injection E as <-]. exact BR. }
  pose (cops := fun o => [TCWithOwner (Some r); TCWithAmount (dd "a"%byte); TCWithOrigin (Some o); TCWithExternal (dd "e"%byte); TCCreatedOn 0]).
  assert (BC : forall o, built_origin toy_sha o -> exists c, built_content toy_sha c /\ tc_origin c = o).
  { intros o Bo. eexists. split; [|shelve]. apply (built_c toy_sha _ (cops o)); [| | | |apply tc_exact; do 5 eexists; repeat split].
    - intros x [E|[E|[E|[E|[E|[]]]]]]; try discriminate. injection E as <-. exact BR.
    - intros x [E|[E|[E|[E|[E|[]]]]]]; try discriminate. injection E as <-. reflexivity.
    - intros x [E|[E|[E|[E|[E|[]]]]]]; try discriminate. injection E as <-. exact Bo.
    - intros x [E|[E|[E|[E|[E|[]]]]]]; try discriminate. injection E as <-. reflexivity.
    Unshelve. reflexivity. }
  assert (BT : forall o, built_origin toy_sha o -> exists t, built_transaction toy_sha t /\ tc_origin (t_content t) = o).
  { intros o Bo. destruct (BC o Bo) as (c & Bc & Ec). 
    exists (Transaction (from_bytes toy_sha (tc_hash c ++ repeat "s"%byte 65)) c (repeat "s"%byte 65)). split; [|exact Ec].
    apply (built_t toy_sha _ [TWithContent (Some c); TWithAuthorization (Some (repeat "s"%byte 65))]).
    - intros x [E|[E|[]]]; try discriminate. injection E as <-. exact Bc.
    - intros x [E|[E|[]]]; try discriminate. injection E as <-. apply Nat.ltb_lt. reflexivity.
    - apply t_exact. do 2 eexists. repeat split. }
  assert (B0 : built_origin toy_sha (OGenesis gu)).
  { apply (built_o toy_sha _ [OWithGenesis (Some gu)]).
    - intros x [E|[]]. injection E as <-. exact BU.
    - intros x [E|[]]. discriminate.
    - reflexivity. }
  destruct (BT _ B0) as (t0 & Bt0 & _).
  assert (B1 : built_origin toy_sha (OTransaction t0)).
  { apply (built_o toy_sha _ [OWithTransaction (Some t0)]).
    - intros x [E|[]]. discriminate.
    - intros x [E|[]]. injection E as <-. exact Bt0.
    - reflexivity. }
  destruct (BT _ B1) as (t & Bt & Et). exists t, t0. split; assumption.
Qed.

Lemma secret_binding_full sha512 ops ops' x x' :
  s_now sha512 (run s_step s_init ops) = Ok x -> s_now sha512 (run s_step s_init ops') = Ok x' ->
  digest (t_hash (s_public x)) -> digest (t_hash (s_public x')) ->
  opt_digest (option_map s_hash (s_origin x)) -> opt_digest (option_map s_hash (s_origin x')) ->
  opt_digest (option_map fst (s_sides x)) -> opt_digest (option_map fst (s_sides x')) ->
  s_amount x = s_amount x' -> length (s_nonce x) = length (s_nonce x') ->
  (s_origin x = None <-> s_origin x' = None) ->
  s_hash x = s_hash x' ->
  (t_hash (s_public x) = t_hash (s_public x') /\ s_nonce x = s_nonce x' /\
   option_map s_hash (s_origin x) = option_map s_hash (s_origin x') /\
   option_map fst (s_sides x) = option_map fst (s_sides x')) \/ collision sha512.
Proof.
  intros H H'. apply s_exact in H, H'. destruct H as (n & v & p & _ & _ & _ & Hv & _ & ->), H' as (n' & v' & p' & _ & _ & _ & Hv' & _ & ->).
  cbn [s_hash s_public s_origin s_sides s_amount s_nonce].
  set (O := last_s_origin_of ops). set (O' := last_s_origin_of ops').
  set (S := last_s_sides_of ops). set (S' := last_s_sides_of ops').
  unfold digest. intros D D' DO DO' DS DS' <- Lv HO E.
  assert (length v <> 0) by (destruct v; [contradiction|discriminate]).
  apply bytes_binding in E; try (rewrite !app_length; lia). destruct E as [E|E]; [left|right; exact E].
  pose proof (f_equal (@length byte) E) as K. rewrite !app_length in K.
  unfold opt_digest, digest in *.
  apply app_inj_len in E; [|lia]. destruct E as [E1 E]. apply app_inv_head in E.
  apply app_inj_len in E; [|lia]. destruct E as [E2 E].
  destruct O as [o|], O' as [o'|]; try (exfalso; destruct HO as [H1 H2]; (discriminate (H1 eq_refl) || discriminate (H2 eq_refl)));
  destruct S as [s|], S' as [s'|]; cbn [option_map length] in *; try (exfalso; lia).
  all: try (apply app_inj_len in E; [|lia]; destruct E as [E3 E]).
  all: cbn [app] in *; repeat split; congruence.
Qed.
