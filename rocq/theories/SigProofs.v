(* SigProofs.v - proofs about SigModel *)
From Coq Require Import Strings.String Strings.Byte Field_theory Field Lia.
From Verif Require Import GoLemmas HashModel HashSpec HashProofs Base64 SigModel SigSpec.

Lemma toy_laws : curve_laws toy_suite.
Proof.
  unshelve refine {| szero := (f0 : scalar toy_suite); sadd := f5add; sopp := f5opp; sinv := f5inv |}; cbn.
  - constructor; [constructor| | |]; cbn; try (intros [] [] []; reflexivity);
      try (intros [] []; reflexivity); try (intros []; reflexivity).
    + discriminate.
    + intros [] H; try reflexivity; contradiction H; reflexivity.
  - intros [] []; reflexivity.
  - intros [] []; reflexivity.
  - intros [] []; reflexivity.
  - intros [] []; vm_compute; congruence.
  - intros [] []; vm_compute; split; congruence.
  - intros [] []; vm_compute; split; congruence.
Qed.
Lemma toy_codec : codec_laws toy_suite.
Proof. constructor; cbn; try (intros []; reflexivity). Qed.

(* ---------- upd ---------- *)
Lemma upd_length {A} (l : list A) i v : length (upd l i v) = length l.
Proof. revert i; induction l; destruct i; cbn; auto. Qed.
Lemma upd_same {A} (l : list A) i v : i < length l -> nth_error (upd l i v) i = Some v.
Proof. revert i; induction l; destruct i; cbn; intros; try lia; auto. apply IHl; lia. Qed.
Lemma upd_other {A} (l : list A) i j v : i <> j -> nth_error (upd l i v) j = nth_error l j.
Proof. revert i j; induction l; destruct i, j; cbn; intros; try congruence; auto. Qed.

Section S.
Variable C : suite.
Variable L : curve_laws C.
Notation G := (base C).
Let F := law_field C L.
Add Field scalar_field : F.

Lemma create_signature_inv rnd r s sg : create_signature C rnd r s = Ok sg ->
  sg = {| sig_r := r; sig_s := s |}.
Proof. unfold create_signature. destruct (sig_verify _ _ _); cbn; congruence. Qed.

Lemma sig_verify_true rnd r s :
  multiple_of_base C r -> challenge C rnd r <> szero L ->
  sig_verify C rnd {| sig_r := r; sig_s := s |} = true.
Proof.
  intros [a ->] He. unfold sig_verify, sig_public_key; cbn [sig_r sig_s].
  change (create_hash C (rnd ++ pstr C (pmul C a G))) with (challenge C rnd (pmul C a G)).
  set (e := challenge _ _ _) in *. rewrite (law_psub C L), !(law_pmul C L), (law_psub C L).
  apply (law_peqb C L). f_equal. field. exact He.
Qed.

Lemma sign_total rnd x m :
  challenge C rnd (pmul C (gen_k C x m) G) <> szero L -> exists sg, sign C rnd x m = Ok sg.
Proof.
  intros H. unfold sign, create_signature. rewrite sig_verify_true; cbn; eauto.
  eexists; reflexivity.
Qed.

Lemma sign_recovers rnd x m sg : sign C rnd x m = Ok sg ->
  challenge C m (sig_r sg) <> szero L -> sig_public_key C sg m = public_key C x.
Proof.
  intros H. apply create_signature_inv in H. subst sg. unfold sig_public_key, public_key; cbn [sig_r sig_s].
  set (k := gen_k C x m). intros He.
  change (create_hash C (m ++ pstr C (pmul C k G))) with (challenge C m (pmul C k G)).
  set (e := challenge _ _ _) in *. rewrite (law_psub C L), (law_pmul C L). f_equal. field. exact He.
Qed.

Lemma sig_public_key_unique sg m p :
  multiple_of_base C (sig_r sg) -> multiple_of_base C p ->
  challenge C m (sig_r sg) <> szero L ->
  padd C (pmul C (sig_s sg) G) (pmul C (challenge C m (sig_r sg)) p) = sig_r sg <->
  p = sig_public_key C sg m.
Proof.
  intros [a Ha] [b ->] He. unfold sig_public_key.
  change (create_hash C (m ++ pstr C (sig_r sg))) with (challenge C m (sig_r sg)).
  set (e := challenge _ _ _) in *. rewrite Ha. set (s := sig_s sg).
  rewrite (law_psub C L), !(law_pmul C L), (law_padd C L). split; intros H.
  - apply (law_inj C L) in H. f_equal. rewrite <- H. field. exact He.
  - apply (law_inj C L) in H. f_equal. rewrite H. field. exact He.
Qed.

(* ---------- ring ---------- *)
Lemma signer_index_some ring pk j i : signer_index_from C j ring pk = Some i ->
  j <= i /\ nth_error ring (i - j) = Some pk.
Proof.
  revert j. induction ring as [|p ring IH]; cbn; [discriminate|]. intros j.
  destruct (peqb C p pk) eqn:E.
  - intros [= <-]. rewrite Nat.sub_diag. apply (law_peqb C L) in E. subst. auto.
  - intros H. apply IH in H. destruct H as [H1 H2]. split; [lia|].
    replace (i - j) with (S (i - S j)) by lia. exact H2.
Qed.
Lemma signer_index_none ring pk j : signer_index_from C j ring pk = None <-> ~ In pk ring.
Proof.
  revert j. induction ring as [|p ring IH]; cbn; [intuition|]. intros j.
  destruct (peqb C p pk) eqn:E.
  - apply (law_peqb C L) in E. subst. split; [discriminate|]. intuition.
  - rewrite IH. assert (p <> pk) by (intros ->; rewrite (proj2 (law_peqb C L pk pk) eq_refl) in E; discriminate).
    intuition.
Qed.

Section Loop.
Variables (x : scalar C) (msg : bytes) (ring : list (point C)) (signer : nat).
Let n := length ring.
Hypothesis Hsigner : signer < n.
Let pos t := (signer + 1 + t) mod n.
Let sv i := gen_k C x (msg ++ itoa (N.of_nat i)).
Let kk := gen_k C x msg.

Fixpoint E (t : nat) : scalar C :=
  match t with
  | O => challenge C msg (pmul C kk G)
  | S t => challenge C msg (padd C (pmul C (sv (pos t)) G) (pmul C (E t) (nth (pos t) ring G)))
  end.

Lemma pos_lt t : pos t < n.
Proof. apply Nat.mod_upper_bound. lia. Qed.
Lemma pos_S t : pos (S t) = (pos t + 1) mod n.
Proof. unfold pos. rewrite Nat.add_mod_idemp_l by lia. f_equal. lia. Qed.
Lemma pos_val t : t < n -> pos t = if signer + 1 + t <? n then signer + 1 + t else signer + 1 + t - n.
Proof.
  intros. unfold pos. destruct (signer + 1 + t <? n) eqn:Q.
  - apply Nat.ltb_lt in Q. apply Nat.mod_small. lia.
  - apply Nat.ltb_ge in Q. replace (signer + 1 + t) with ((signer + 1 + t - n) + 1 * n) at 1 by lia.
    rewrite Nat.mod_add by lia. apply Nat.mod_small. lia.
Qed.
Lemma pos_inj t u : t < n -> u < n -> pos t = pos u -> t = u.
Proof.
  intros Ht Hu. rewrite !pos_val by assumption.
  destruct (signer + 1 + t <? n) eqn:Q, (signer + 1 + u <? n) eqn:R;
    rewrite ?Nat.ltb_lt, ?Nat.ltb_ge in *; lia.
Qed.
Lemma pos_last : pos (n - 1) = signer.
Proof. rewrite pos_val by lia. destruct (_ <? n) eqn:Q; rewrite ?Nat.ltb_lt, ?Nat.ltb_ge in *; lia. Qed.
Lemma pos_onto i : i < n -> exists t, t < n /\ pos t = i.
Proof.
  intros. destruct (Nat.le_gt_cases i signer).
  - exists (n + i - signer - 1). split; [lia|]. rewrite pos_val by lia.
    destruct (_ <? n) eqn:Q; rewrite ?Nat.ltb_lt, ?Nat.ltb_ge in *; lia.
  - exists (i - signer - 1). split; [lia|]. rewrite pos_val by lia.
    destruct (_ <? n) eqn:Q; rewrite ?Nat.ltb_lt, ?Nat.ltb_ge in *; lia.
Qed.

Definition filled t (es ss : list (option (scalar C))) : Prop :=
  length es = n /\ length ss = n /\
  (forall u, u <= t -> nth_error es (pos u) = Some (Some (E u))) /\
  (forall u, u < t -> nth_error ss (pos u) = Some (Some (sv (pos u)))).

Lemma ring_loop_ok fuel t es ss : t < n -> n - 1 <= t + fuel -> filled t es ss ->
  exists es' ss', ring_loop C fuel x msg ring signer (pos t) es ss = Ok (es', ss') /\ filled (n - 1) es' ss'.
Proof.
  revert t es ss. induction fuel as [|fuel IH]; intros t es ss Ht Hf Hfill.
  - assert (t = n - 1) by lia. subst t. cbn [ring_loop]. rewrite pos_last, Nat.eqb_refl. eauto.
  - destruct (Nat.eq_dec t (n - 1)) as [->|Hne].
    { cbn [ring_loop]. rewrite pos_last, Nat.eqb_refl. eauto. }
    cbn [ring_loop]. destruct (pos t =? signer) eqn:Q.
    { apply Nat.eqb_eq in Q. rewrite <- pos_last in Q. apply pos_inj in Q; lia. }
    destruct Hfill as (L1 & L2 & H1 & H2).
    rewrite (H1 t) by lia. pose proof (pos_lt t) as Hp.
    destruct (nth_error ring (pos t)) as [p|] eqn:Ep.
    2:{ apply nth_error_None in Ep. fold n in Ep. lia. }
    fold n. rewrite <- pos_S. apply IH; [lia|lia|].
    split; [rewrite upd_length; exact L1|]. split; [rewrite upd_length; exact L2|]. split.
    + intros u Hu. destruct (Nat.eq_dec u (S t)) as [->|Hu'].
      * rewrite upd_same by (rewrite L1; apply pos_lt). do 2 f_equal. cbn [E].
        rewrite (nth_error_nth ring (pos t) G Ep). reflexivity.
      * rewrite upd_other by (intros He; apply pos_inj in He; lia). apply H1; lia.
    + intros u Hu. destruct (Nat.eq_dec u t) as [->|Hu'].
      * rewrite upd_same by (rewrite L2; apply pos_lt). reflexivity.
      * rewrite upd_other by (intros He; apply pos_inj in He; lia). apply H2; lia.
Qed.
End Loop.

(* what RingSign produces: the chain of challenges [es] it went through *)
Definition ring_trace x msg ring signer (rs : ring_signature C) (es : nat -> scalar C) : Prop :=
  rs_ring rs = ring /\ length (rs_s rs) = length ring /\
  rs_e rs = es 0 /\ es (length ring) = es 0 /\
  ring_chain C msg ring (rs_s rs) (es 0) es /\
  nth_error (rs_s rs) signer = Some (Some (ssub C (gen_k C x msg) (smul C (es signer) x))) /\
  (forall i, i < length ring -> i <> signer ->
     nth_error (rs_s rs) i = Some (Some (gen_k C x (msg ++ itoa (N.of_nat i))))) /\
  es (S signer) = challenge C msg (pmul C (gen_k C x msg) G).

Lemma ring_sign_trace x msg ring signer :
  signer_index_from C 0 ring (public_key C x) = Some signer ->
  exists rs es, ring_sign C x msg ring = Ok rs /\ ring_trace x msg ring signer rs es.
Proof.
  intros Hs. unfold ring_sign. rewrite Hs.
  destruct (signer_index_some _ _ _ _ Hs) as [_ Hp]. rewrite Nat.sub_0_r in Hp.
  set (n := length ring).
  assert (Hn : signer < n) by (apply nth_error_Some; congruence).
  set (E0 := E x msg ring signer). set (k := gen_k C x msg).
  set (pos := fun t => (signer + 1 + t) mod n).
  assert (P0 : (signer + 1) mod n = pos 0) by (unfold pos; f_equal; lia).
  rewrite P0.
  destruct (ring_loop_ok x msg ring signer Hn n 0
    (upd (repeat None n) (pos 0) (Some (create_hash C (msg ++ pstr C (pmul C k G)))))
    (repeat None n)) as (es' & ss' & Hl & (L1 & L2 & H1 & H2)).
  { fold n. lia. } { fold n. lia. }
  { split; [rewrite upd_length, repeat_length; reflexivity|]. split; [apply repeat_length|]. split.
    - intros u Hu. replace u with 0 by lia. fold n. fold (pos 0).
      rewrite upd_same; [reflexivity|]. rewrite repeat_length. apply (pos_lt x msg ring signer Hn).
    - intros; lia. }
  fold n in Hl, L1, L2, H1, H2. fold (pos 0) in Hl. rewrite Hl. cbn [bind].
  change (forall u, u <= n - 1 -> nth_error es' (pos u) = Some (Some (E0 u))) in H1.
  change (forall u, u < n - 1 -> nth_error ss' (pos u) = Some (Some (gen_k C x (msg ++ itoa (N.of_nat (pos u)))))) in H2.
  assert (Hes : forall i, i < n -> exists e, nth_error es' i = Some (Some e)).
  { intros i Hi. destruct (pos_onto x msg ring signer Hn i Hi) as (t & Ht & <-). fold n in Ht.
    eexists. apply H1. lia. }
  destruct (Hes signer Hn) as [es_s Hess]. destruct (Hes 0) as [e0 He0]; [lia|].
  rewrite Hess, He0.
  set (f := fun i => match nth_error es' (i mod n) with Some (Some e) => e | _ => szero L end).
  eexists. exists f. split; [reflexivity|]. unfold ring_trace; cbn [rs_ring rs_s rs_e]. fold n.
  assert (Fpos : forall u, u < n -> f (pos u) = E0 u).
  { intros u Hu. unfold f. rewrite (Nat.mod_small (pos u)) by apply (pos_lt x msg ring signer Hn). rewrite H1 by lia. reflexivity. }
  assert (Fs : forall i, i < n -> f (S i) = f ((i + 1) mod n)).
  { intros i Hi. unfold f. rewrite (Nat.mod_mod (i + 1)) by lia. rewrite (Nat.add_comm i 1). reflexivity. }
  assert (F0 : f 0 = e0) by (unfold f; rewrite Nat.mod_0_l by lia; rewrite He0; reflexivity).
  assert (Fn : f n = f 0) by (unfold f; rewrite Nat.mod_same, Nat.mod_0_l by lia; reflexivity).
  assert (Fsg : f signer = es_s) by (unfold f; rewrite Nat.mod_small by lia; rewrite Hess; reflexivity).
  assert (SS1 : nth_error (upd ss' signer (Some (ssub C k (smul C es_s x)))) signer
      = Some (Some (ssub C k (smul C (f signer) x)))).
  { rewrite upd_same by lia. rewrite Fsg. reflexivity. }
  assert (SS2 : forall i, i < n -> i <> signer ->
      nth_error (upd ss' signer (Some (ssub C k (smul C es_s x)))) i
      = Some (Some (gen_k C x (msg ++ itoa (N.of_nat i))))).
  { intros i Hi Hne. rewrite upd_other by auto. destruct (pos_onto x msg ring signer Hn i Hi) as (t & Ht & Hpt).
    fold n in Ht, Hpt. rewrite <- Hpt. apply H2.
    assert (t <> n - 1); [|lia]. intros ->. apply Hne. rewrite <- Hpt. apply (pos_last x msg ring signer Hn). }
  assert (SE : f (S signer) = challenge C msg (pmul C k G)).
  { rewrite Fs by lia. rewrite P0, Fpos by lia. reflexivity. }
  split; [reflexivity|]. split; [rewrite upd_length; lia|]. split; [congruence|]. split; [exact Fn|].
  split; [|auto].
  split; [reflexivity|]. intros i p Hip.
  assert (Hi : i < n) by (apply nth_error_Some; congruence).
  destruct (Nat.eq_dec i signer) as [->|Hne].
  - eexists. split; [exact SS1|]. rewrite SE. rewrite Hp in Hip. injection Hip as <-.
    unfold public_key. rewrite (law_pmul C L), (law_padd C L). do 2 f_equal. ring.
  - eexists. split; [apply SS2; auto|]. rewrite Fs by lia.
    destruct (pos_onto x msg ring signer Hn i Hi) as (t & Ht & Hpt). fold n in Ht, Hpt. rewrite <- Hpt.
    assert (t <> n - 1). { intros ->. apply Hne. rewrite <- Hpt. apply (pos_last x msg ring signer Hn). }
    assert (PS : (pos t + 1) mod n = pos (S t)) by (symmetry; exact (pos_S x msg ring signer Hn t)).
    change ((signer + 1 + t) mod n) with (pos t) in *.
    rewrite PS. rewrite !Fpos by lia.
    change (E0 (S t)) with (challenge C msg (padd C (pmul C (gen_k C x (msg ++ itoa (N.of_nat (pos t)))) G)
      (pmul C (E0 t) (nth (pos t) ring G)))).
    rewrite Hpt. rewrite (nth_error_nth ring i G Hip). reflexivity.
Qed.

Lemma ring_verify_loop_chain msg ring : forall ss e es,
  ring_chain C msg ring ss e es -> ring_verify_loop C msg ring ss e = Ok (es (length ring)).
Proof.
  induction ring as [|p ring IH]; intros ss e es [H0 H].
  - cbn. congruence.
  - cbn [ring_verify_loop length]. destruct (H 0 p eq_refl) as (s & Hs & He).
    destruct ss as [|o ss]; cbn in Hs; [discriminate|]. injection Hs as ->.
    rewrite (IH ss _ (fun i => es (S i))); [reflexivity|]. split.
    + rewrite He, H0. reflexivity.
    + intros i q Hq. exact (H (S i) q Hq).
Qed.

Lemma ring_verify_loop_inv msg ring : forall ss e e',
  ring_verify_loop C msg ring ss e = Ok e' ->
  exists es, ring_chain C msg ring ss e es /\ es (length ring) = e'.
Proof.
  induction ring as [|p ring IH]; intros ss e e'; cbn [ring_verify_loop].
  - intros [= <-]. exists (fun _ => e). split; [|reflexivity]. split; [reflexivity|]. intros [|i] q; discriminate.
  - destruct ss as [|[s|] ss]; try discriminate. intros H. apply IH in H. destruct H as (es & [H0 H1] & H2).
    exists (fun i => match i with O => e | S i => es i end). split; [|exact H2]. split; [reflexivity|].
    intros [|i] q Hq.
    + injection Hq as <-. exists s. split; [reflexivity|]. exact H0.
    + exact (H1 i q Hq).
Qed.

Lemma ring_verify_loop_not_ok msg ring : forall ss e,
  ring_verify_loop C msg ring ss e = Panic <-> exists i, i < length ring /\
    (nth_error ss i = None \/ nth_error ss i = Some None).
Proof.
  induction ring as [|p ring IH]; intros ss e; cbn [ring_verify_loop length].
  - split; [discriminate|]. intros (i & Hi & _); lia.
  - destruct ss as [|[s|] ss].
    + split; [intros _; exists 0; split; [lia|]; left; reflexivity|reflexivity].
    + rewrite IH. split.
      * intros (i & Hi & Hn). exists (S i). split; [lia|exact Hn].
      * intros ([|i] & Hi & Hn); cbn in Hn; [destruct Hn; discriminate|]. exists i. split; [lia|exact Hn].
    + split; [intros _; exists 0; split; [lia|]; right; reflexivity|reflexivity].
Qed.

Lemma ring_sign_complete x msg ring : In (public_key C x) ring ->
  exists rs, ring_sign C x msg ring = Ok rs /\ rs_ring rs = ring /\
    length (rs_s rs) = length ring /\ ring_verify C rs msg = Ok true.
Proof.
  intros Hin. destruct (signer_index_from C 0 ring (public_key C x)) as [i|] eqn:Q.
  2:{ apply signer_index_none in Q. contradiction. }
  destruct (ring_sign_trace x msg ring i Q) as (rs & es & Hr & (T1 & T2 & T3 & T4 & T5 & _)).
  exists rs. split; [exact Hr|]. split; [exact T1|]. split; [exact T2|].
  unfold ring_verify. rewrite T1, T3. rewrite (ring_verify_loop_chain _ _ _ _ _ T5). cbn [bind].
  f_equal. apply (law_seqb C L). congruence.
Qed.

Lemma ring_sign_err x msg ring : ring_sign C x msg ring = Err <-> ~ In (public_key C x) ring.
Proof.
  split.
  - intros H Hin. destruct (ring_sign_complete x msg ring Hin) as (rs & Hr & _). congruence.
  - intros H. unfold ring_sign. rewrite (proj2 (signer_index_none ring (public_key C x) 0) H). reflexivity.
Qed.

Lemma ring_verify_meaning rs msg :
  ring_verify C rs msg = Ok true <->
  exists es, ring_chain C msg (rs_ring rs) (rs_s rs) (rs_e rs) es /\ es (length (rs_ring rs)) = rs_e rs.
Proof.
  unfold ring_verify. split.
  - destruct (ring_verify_loop _ _ _ _ _) as [e| | |] eqn:Q; cbn; try discriminate.
    intros [= H]. apply (law_seqb C L) in H. apply ring_verify_loop_inv in Q.
    destruct Q as (es & H1 & H2). exists es. split; [exact H1|congruence].
  - intros (es & H1 & H2). rewrite (ring_verify_loop_chain _ _ _ _ _ H1). cbn. f_equal. apply (law_seqb C L). congruence.
Qed.

Lemma ring_verify_false rs msg :
  ring_verify C rs msg = Ok false <->
  exists es, ring_chain C msg (rs_ring rs) (rs_s rs) (rs_e rs) es /\ es (length (rs_ring rs)) <> rs_e rs.
Proof.
  unfold ring_verify. split.
  - destruct (ring_verify_loop _ _ _ _ _) as [e| | |] eqn:Q; cbn; try discriminate.
    intros [= H]. apply ring_verify_loop_inv in Q.
    destruct Q as (es & H1 & H2). exists es. split; [exact H1|]. intros He.
    rewrite (proj2 (law_seqb C L (rs_e rs) e)) in H; congruence.
  - intros (es & H1 & H2). rewrite (ring_verify_loop_chain _ _ _ _ _ H1). cbn. f_equal.
    destruct (seqb C _ _) eqn:Q; [|reflexivity]. apply (law_seqb C L) in Q. congruence.
Qed.

Lemma ring_verify_panic rs msg :
  ring_verify C rs msg = Panic <-> exists i, i < length (rs_ring rs) /\
    (nth_error (rs_s rs) i = None \/ nth_error (rs_s rs) i = Some None).
Proof.
  unfold ring_verify. rewrite <- (ring_verify_loop_not_ok msg (rs_ring rs) (rs_s rs) (rs_e rs)).
  destruct (ring_verify_loop _ _ _ _ _); cbn; split; congruence.
Qed.

Lemma ring_verify_loop_surplus msg ring : forall ss extra e, length ss = length ring ->
  ring_verify_loop C msg ring (ss ++ extra) e = ring_verify_loop C msg ring ss e.
Proof.
  induction ring as [|p ring IH]; intros [|s ss] extra e; cbn; try discriminate; auto.
  intros [= H]. destruct s; [|reflexivity]. apply IH; exact H.
Qed.
Lemma ring_verify_surplus ring ss extra e msg : length ss = length ring ->
  ring_verify C {| rs_ring := ring; rs_s := ss ++ extra; rs_e := e |} msg =
  ring_verify C {| rs_ring := ring; rs_s := ss; rs_e := e |} msg.
Proof. intros H. unfold ring_verify; cbn [rs_ring rs_s rs_e]. rewrite ring_verify_loop_surplus by exact H. reflexivity. Qed.

Lemma ring_verify_empty ss e msg :
  ring_verify C {| rs_ring := []; rs_s := ss; rs_e := e |} msg = Ok true.
Proof. unfold ring_verify; cbn. f_equal. apply (law_seqb C L). reflexivity. Qed.

(* ---------- leaks ---------- *)
Lemma field_nz_sub a b : a <> b -> ssub C a b <> szero L.
Proof. intros H He. apply H. transitivity (sadd L (ssub C a b) b); [ring|]. rewrite He. ring. Qed.

Lemma ring_chain_unique msg ring : forall ss e es es',
  ring_chain C msg ring ss e es -> ring_chain C msg ring ss e es' ->
  forall i, i <= length ring -> es i = es' i.
Proof.
  intros ss e es es' [H0 H] [H0' H'] i. induction i as [|i IH]; intros Hi; [congruence|].
  destruct (nth_error ring i) as [p|] eqn:Q.
  2:{ apply nth_error_None in Q. lia. }
  destruct (H i p Q) as (s & A & B). destruct (H' i p Q) as (s' & A' & B').
  assert (s = s') by congruence. subst. rewrite B, B', IH by lia. reflexivity.
Qed.

Lemma nonce_reuse rnd x m ring sg rs es signer :
  sign C rnd x m = Ok sg -> ring_sign C x m ring = Ok rs ->
  signer_index_from C 0 ring (public_key C x) = Some signer ->
  ring_chain C m ring (rs_s rs) (rs_e rs) es ->
  es signer <> challenge C m (sig_r sg) ->
  exists s', nth_error (rs_s rs) signer = Some (Some s') /\
    x = sdiv C (ssub C s' (sig_s sg)) (ssub C (challenge C m (sig_r sg)) (es signer)).
Proof.
  intros Hs Hr Hi Hc Hne.
  destruct (ring_sign_trace x m ring signer Hi) as (rs' & es' & Hr' & (T1 & T2 & T3 & T4 & T5 & T6 & T7 & T8)).
  assert (rs' = rs) by congruence. subst rs'. rewrite T3 in Hc.
  destruct (signer_index_some _ _ _ _ Hi) as [_ Hp]. rewrite Nat.sub_0_r in Hp.
  assert (Hn : signer < length ring) by (apply nth_error_Some; congruence).
  rewrite (ring_chain_unique _ _ _ _ _ _ Hc T5 signer) in * by lia.
  eexists. split; [exact T6|]. apply create_signature_inv in Hs. subst sg. cbn [sig_r sig_s] in *.
  change (create_hash C (m ++ pstr C (pmul C (gen_k C x m) G))) with (challenge C m (pmul C (gen_k C x m) G)).
  set (k := gen_k C x m) in *. set (e := challenge C m (pmul C k G)) in *.
  field. apply field_nz_sub. auto.
Qed.

Lemma signer_visible rnd x m ring sg rs es signer :
  sign C rnd x m = Ok sg -> ring_sign C x m ring = Ok rs ->
  signer_index_from C 0 ring (public_key C x) = Some signer ->
  ring_chain C m ring (rs_s rs) (rs_e rs) es ->
  es (S signer) = challenge C m (sig_r sg).
Proof.
  intros Hs Hr Hi Hc.
  destruct (ring_sign_trace x m ring signer Hi) as (rs' & es' & Hr' & (T1 & T2 & T3 & T4 & T5 & T6 & T7 & T8)).
  assert (rs' = rs) by congruence. subst rs'. rewrite T3 in Hc.
  destruct (signer_index_some _ _ _ _ Hi) as [_ Hp]. rewrite Nat.sub_0_r in Hp.
  assert (Hn : signer < length ring) by (apply nth_error_Some; congruence).
  rewrite (ring_chain_unique _ _ _ _ _ _ Hc T5 (S signer)) by lia.
  apply create_signature_inv in Hs. subst sg. exact T8.
Qed.

Lemma decoy_is_nonce rnd x m ring rs signer i sg :
  ring_sign C x m ring = Ok rs ->
  signer_index_from C 0 ring (public_key C x) = Some signer ->
  i < length ring -> i <> signer ->
  sign C rnd x (m ++ itoa (N.of_nat i)) = Ok sg ->
  challenge C (m ++ itoa (N.of_nat i)) (sig_r sg) <> szero L ->
  exists si, nth_error (rs_s rs) i = Some (Some si) /\
    x = sdiv C (ssub C si (sig_s sg)) (challenge C (m ++ itoa (N.of_nat i)) (sig_r sg)).
Proof.
  intros Hr Hi Hlt Hne Hs He.
  destruct (ring_sign_trace x m ring signer Hi) as (rs' & es' & Hr' & (T1 & T2 & T3 & T4 & T5 & T6 & T7 & T8)).
  assert (rs' = rs) by congruence. subst rs'.
  eexists. split; [apply T7; auto|]. apply create_signature_inv in Hs. subst sg. cbn [sig_r sig_s] in *.
  set (m' := m ++ itoa (N.of_nat i)) in *.
  change (create_hash C (m' ++ pstr C (pmul C (gen_k C x m') G))) with (challenge C m' (pmul C (gen_k C x m') G)).
  set (k := gen_k C x m') in *. set (e := challenge C m' (pmul C k G)) in *. field. exact He.
Qed.
End S.

Lemma signer_index_first C (L : curve_laws C) ring pk i :
  signer_index_from C 0 ring pk = Some i <->
  nth_error ring i = Some pk /\ forall j, j < i -> nth_error ring j <> Some pk.
Proof.
  assert (H : forall ring k i, signer_index_from C k ring pk = Some (k + i) <->
    nth_error ring i = Some pk /\ forall j, j < i -> nth_error ring j <> Some pk).
  { clear ring i. induction ring as [|p ring IH]; intros k i; cbn [signer_index_from].
    - split; [discriminate|]. intros [H _]. destruct i; discriminate.
    - destruct (peqb C p pk) eqn:Q.
      + apply (law_peqb C L) in Q. subst p. split.
        * intros [= H]. assert (i = 0) by lia. subst. split; [reflexivity|]. intros; lia.
        * intros [H1 H2]. destruct i as [|i]; [f_equal; lia|]. exfalso. apply (H2 0); [lia|reflexivity].
      + assert (p <> pk) by (intros ->; rewrite (proj2 (law_peqb C L pk pk) eq_refl) in Q; discriminate).
        destruct i as [|i].
        * split.
          -- intros H0. apply (signer_index_some C L) in H0. lia.
          -- intros [[= H1] _]. congruence.
        * replace (k + S i) with (S k + i) by lia. rewrite IH. cbn. split; intros [H1 H2]; (split; [exact H1|]).
          -- intros [|j] Hj; cbn; [congruence|]. apply H2; lia.
          -- intros j Hj. apply (H2 (S j)). lia. }
  exact (H ring 0 i).
Qed.

(* ---------- text forms ---------- *)
Lemma hex_encode_chars s c : In c (hex_encode s) -> c <> "#"%byte /\ c <> "|"%byte.
Proof.
  assert (D : forall n, (n < 16)%N -> hex_digit n <> "#"%byte /\ hex_digit n <> "|"%byte).
  { intros n Hn.
    assert (H : negb (Byte.eqb (hex_digit n) "#") && negb (Byte.eqb (hex_digit n) "|") = true).
    { apply (forall_lt_forallb (fun n => negb (Byte.eqb (hex_digit n) "#") && negb (Byte.eqb (hex_digit n) "|")) 16);
        [vm_compute; reflexivity|exact Hn]. }
    apply andb_prop in H. destruct H as [H1 H2]. split; intros He.
    - rewrite He in H1. discriminate.
    - rewrite He in H2. discriminate. }
  induction s as [|b s IH]; [intros []|]. pose proof (to_N_bound b).
  intros [<-|[<-|Hin]]; [apply D; apply div_lt'; lia|apply D; apply N.mod_lt; lia|auto].
Qed.

Section T.
Variable C : suite.
Variable K : codec_laws C.

Lemma scalar_round_trip s : from_string_to_scalar C (sstr C s) = Ok s.
Proof.
  unfold from_string_to_scalar, sstr. rewrite hex_round_trip, (law_senc_len C K). cbn [Nat.ltb Nat.leb].
  replace (32 <? 32) with false by reflexivity.
  rewrite firstn_all2 by (rewrite (law_senc_len C K); lia). rewrite (law_sdec C K). reflexivity.
Qed.
Lemma point_round_trip p : from_string_to_point C (pstr C p) = Ok p.
Proof. unfold from_string_to_point, pstr. rewrite hex_round_trip, (law_pdec C K). reflexivity. Qed.

Lemma sstr_len s : length (sstr C s) = 64.
Proof. unfold sstr. rewrite hex_encode_length, (law_senc_len C K). reflexivity. Qed.
Lemma pstr_len p : length (pstr C p) = 64.
Proof. unfold pstr. rewrite hex_encode_length, (law_penc_len C K). reflexivity. Qed.

Lemma to_signature_string rnd sg :
  to_signature C rnd (sig_string C sg) = create_signature C rnd (sig_r sg) (sig_s sg).
Proof.
  unfold to_signature, sig_string. rewrite b64_round_trip.
  change (bs "#") with ["#"%byte]. unfold delimiter. change (bs "#") with ["#"%byte].
  rewrite split1_cons by (intros H; apply hex_encode_chars in H; tauto).
  rewrite split1_none by (intros H; apply hex_encode_chars in H; tauto).
  rewrite point_round_trip, scalar_round_trip. reflexivity.
Qed.

Lemma private_key_round_trip x : to_private_key C (private_key_string C x) = Ok x.
Proof. apply scalar_round_trip. Qed.
Lemma public_key_round_trip p : to_public_key C (pstr C p) = Ok p.
Proof. apply point_round_trip. Qed.

Definition delimited {A} (f : A -> bytes) (l : list A) : bytes :=
  concat (map (fun x => f x ++ ["|"%byte]) l).
Lemma split_delimited {A} (f : A -> bytes) l : (forall x, ~ In "|"%byte (f x)) ->
  strsplit ["|"%byte] (delimited f l) = map f l ++ [[]].
Proof.
  intros H. induction l as [|x l IH]; [reflexivity|].
  unfold delimited in *. cbn [map concat]. rewrite <- app_assoc.
  rewrite split1_cons by apply H. rewrite IH. reflexivity.
Qed.
Lemma non_empty_delimited {A} (f : A -> bytes) l : (forall x, f x <> []) ->
  non_empty (map f l ++ [[]]) = map f l.
Proof.
  intros H. unfold non_empty. rewrite filter_app. cbn. rewrite app_nil_r. apply filter_all.
  apply forallb_forall. intros y Hy. apply in_map_iff in Hy. destruct Hy as (x & <- & _).
  specialize (H x). destruct (f x); [congruence|reflexivity].
Qed.
Lemma fold_delimited (l : list (point C)) acc :
  fold_left (fun acc p => acc ++ pstr C p ++ element_delimiter) l acc = acc ++ delimited (pstr C) l.
Proof.
  revert acc. induction l as [|p l IH]; intros acc; cbn [fold_left].
  - unfold delimited; cbn. rewrite app_nil_r. reflexivity.
  - rewrite IH. unfold delimited. cbn [map concat]. rewrite !app_assoc. reflexivity.
Qed.
Lemma scalars_delimited l : scalars_string C (map Some l) = Ok (delimited (sstr C) l).
Proof.
  induction l as [|s l IH]; [reflexivity|]. cbn [map scalars_string]. rewrite IH. cbn [bind].
  unfold delimited. cbn [map concat]. rewrite <- app_assoc. reflexivity.
Qed.
Lemma in_delimited {A} (f : A -> bytes) l c : In c (delimited f l) -> c = "|"%byte \/ exists x, In c (f x).
Proof.
  unfold delimited. intros H. apply in_concat in H. destruct H as (y & Hy & Hc).
  apply in_map_iff in Hy. destruct Hy as (x & <- & _). apply in_app_or in Hc. destruct Hc as [Hc|[<-|[]]]; eauto.
Qed.

Lemma mapM_map_ok {A B} (f : A -> res B) (g : B -> A) l : (forall x, f (g x) = Ok x) -> mapM f (map g l) = Ok l.
Proof. intros H. induction l as [|x l IH]; [reflexivity|]. cbn. rewrite H, IH. reflexivity. Qed.

Lemma ring_string_round_trip ring ss e :
  exists txt, ring_string C {| rs_ring := ring; rs_s := map Some ss; rs_e := e |} = Ok txt /\
    to_ring_signature C txt = Ok {| rs_ring := ring; rs_s := map Some ss; rs_e := e |}.
Proof.
  unfold ring_string; cbn [rs_ring rs_s rs_e]. rewrite scalars_delimited, fold_delimited. cbn [bind app].
  eexists. split; [reflexivity|]. unfold to_ring_signature. rewrite b64_round_trip.
  unfold delimiter, element_delimiter. change (bs "#") with ["#"%byte]. change (bs "|") with ["|"%byte].
  rewrite split1_cons. 2:{ intros H. apply in_delimited in H. destruct H as [H|[x H]]; [discriminate|].
    apply hex_encode_chars in H. tauto. }
  rewrite split1_cons. 2:{ intros H. apply in_delimited in H. destruct H as [H|[x H]]; [discriminate|].
    apply hex_encode_chars in H. tauto. }
  rewrite split1_none by (intros H; apply hex_encode_chars in H; tauto).
  rewrite !split_delimited by (intros x H; apply hex_encode_chars in H; tauto).
  rewrite !non_empty_delimited.
  2:{ intros x H. pose proof (sstr_len x). rewrite H in H0. discriminate. }
  2:{ intros x H. pose proof (pstr_len x). rewrite H in H0. discriminate. }
  rewrite (mapM_map_ok (from_string_to_point C) (pstr C)) by apply point_round_trip.
  cbn [bind]. rewrite (mapM_map_ok (from_string_to_scalar C) (sstr C)) by apply scalar_round_trip.
  cbn [bind]. rewrite scalar_round_trip. reflexivity.
Qed.

(* ---------- C14 ---------- *)
Variable sha512 : bytes -> bytes.
Lemma pstr_hash p : from_string sha512 (pstr C p) = Ok (from_bytes sha512 (penc C p)).
Proof. unfold from_string, pstr. rewrite hex_round_trip. reflexivity. Qed.

Lemma compare_hashes_spec ring : forall hashes, length hashes = length ring ->
  compare_hashes C sha512 ring hashes =
  if list_eq_dec bytes_eq_dec hashes (map (fun p => from_bytes sha512 (penc C p)) ring) then Ok true else Err.
Proof.
  induction ring as [|p ring IH]; intros [|h hashes]; try discriminate.
  - intros _. reflexivity.
  - intros [= Hl]. cbn [compare_hashes map]. rewrite pstr_hash. cbn [bind]. unfold hash_compare.
    destruct (bytes_eqb (from_bytes sha512 (penc C p)) h) eqn:Q; cbn [negb].
    + apply bytes_eqb_eq in Q. subst h. rewrite IH by exact Hl.
      destruct (list_eq_dec _ hashes _) as [->|Hne]; destruct (list_eq_dec _ _ _) as [He|He]; try reflexivity.
      * contradiction He; reflexivity.
      * injection He as He. contradiction.
    + apply bytes_eqb_neq in Q. destruct (list_eq_dec _ _ _) as [He|He]; [|reflexivity].
      injection He as He1 He2. congruence.
Qed.

Lemma to_verification_true rs msg hashes :
  to_verification C sha512 rs msg hashes = Ok true <->
  ring_verify C rs msg = Ok true /\ hashes = map (fun p => from_bytes sha512 (penc C p)) (rs_ring rs).
Proof.
  unfold to_verification. destruct (ring_verify C rs msg) as [[]| | |]; cbn [bind negb];
    try (split; [discriminate|intros [? _]; discriminate]).
  destruct (length hashes =? length (rs_ring rs)) eqn:Q; cbn [negb].
  - apply Nat.eqb_eq in Q. rewrite compare_hashes_spec by exact Q.
    destruct (list_eq_dec _ _ _); split; intuition; discriminate.
  - apply Nat.eqb_neq in Q. split; [discriminate|]. intros [_ ->]. rewrite map_length in Q. congruence.
Qed.

Lemma to_verification_err rs msg hashes :
  to_verification C sha512 rs msg hashes = Err <->
  ring_verify C rs msg = Ok false \/
  (ring_verify C rs msg = Ok true /\ hashes <> map (fun p => from_bytes sha512 (penc C p)) (rs_ring rs)).
Proof.
  assert (V : ring_verify C rs msg <> Err).
  { unfold ring_verify. assert (H : forall ring ss e, ring_verify_loop C msg ring ss e <> Err).
    { induction ring as [|p r IH]; intros [|[s|] ss] e; cbn; try discriminate. apply IH. }
    specialize (H (rs_ring rs) (rs_s rs) (rs_e rs)). destruct (ring_verify_loop _ _ _ _ _); cbn; congruence. }
  unfold to_verification. destruct (ring_verify C rs msg) as [[]| | |]; cbn [bind negb];
    try (split; [discriminate|intros [?|[? _]]; discriminate]).
  - destruct (length hashes =? length (rs_ring rs)) eqn:Q; cbn [negb].
    + apply Nat.eqb_eq in Q. rewrite compare_hashes_spec by exact Q.
      destruct (list_eq_dec _ _ _).
      * split; [discriminate|]. intros [?|[_ ?]]; [discriminate|contradiction].
      * split; [intros _; right; auto|reflexivity].
    + apply Nat.eqb_neq in Q. split; [intros _; right; split; [reflexivity|]|reflexivity].
      intros ->. rewrite map_length in Q. congruence.
  - split; [auto|reflexivity].
  - contradiction V; reflexivity.
Qed.

Lemma to_verification_binds_ring rs rs' msg msg' hashes :
  to_verification C sha512 rs msg hashes = Ok true ->
  to_verification C sha512 rs' msg' hashes = Ok true ->
  rs_ring rs = rs_ring rs' \/ collision sha512.
Proof.
  rewrite !to_verification_true. intros [_ ->] [_ H]. revert H.
  generalize (rs_ring rs), (rs_ring rs'). induction l as [|p l IH]; intros [|q l']; try discriminate; auto.
  cbn [map]. intros [= H1 H2]. unfold from_bytes in H1. rewrite !(law_penc_len C K) in H1. cbn in H1.
  destruct (bytes_eq_dec (penc C p) (penc C q)) as [He|He].
  - assert (p = q) by (assert (Some p = Some q) by (rewrite <- !(law_pdec C K); congruence); congruence).
    subst q. destruct (IH _ H2) as [->|]; auto.
  - right. exists (penc C p), (penc C q). auto.
Qed.
End T.
