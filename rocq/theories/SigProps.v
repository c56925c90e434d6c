(* SigProps.v - property theorems C09-C14, C49, C50:
   domain/cryptography/keys/signature.  [C] is the elliptic curve library,
   [curve_laws]/[codec_laws] (SigSpec.v) what is assumed of it. *)
From Coq Require Import Strings.String Strings.Byte.
From Verif Require Import GoLemmas HashModel HashSpec HashProofs SigModel SigSpec SigProofs SigProofs2.

(* the hypotheses on the curve are satisfiable *)
Example curve_laws_satisfiable : exists C, inhabited (curve_laws C) /\ codec_laws C.
Proof. exists toy_suite. split; [exact (inhabits toy_laws) | exact toy_codec]. Qed.

(* ---- C09 ---- *)
(* Sign succeeds unless the challenge of the random check message is zero *)
Theorem C09_sign_succeeds : forall C (L : curve_laws C) rnd x m,
  challenge C rnd (pmul C (gen_k C x m) (base C)) <> szero L ->
  exists sg, sign C rnd x m = Ok sg.
Proof. exact sign_total. Qed.
Print Assumptions C09_sign_succeeds.

Theorem C09_public_key_recovered : forall C (L : curve_laws C) rnd x m sg,
  sign C rnd x m = Ok sg ->
  challenge C m (sig_r sg) <> szero L ->
  sig_public_key C sg m = public_key C x.
Proof. exact sign_recovers. Qed.
Print Assumptions C09_public_key_recovered.

Theorem C09_public_key_unique : forall C (L : curve_laws C) sg m p,
  multiple_of_base C (sig_r sg) -> multiple_of_base C p ->
  challenge C m (sig_r sg) <> szero L ->
  padd C (pmul C (sig_s sg) (base C)) (pmul C (challenge C m (sig_r sg)) p) = sig_r sg <->
  p = sig_public_key C sg m.
Proof. exact sig_public_key_unique. Qed.
Print Assumptions C09_public_key_unique.

Example C09_example : exists sg, sign toy_suite (bs "2") f3 (bs "hello") = Ok sg /\
  challenge toy_suite (bs "hello") (sig_r sg) <> f0 /\
  sig_public_key toy_suite sg (bs "hello") = public_key toy_suite f3.
Proof. eexists. split; [vm_compute; reflexivity|]. split; [vm_compute; discriminate | vm_compute; reflexivity]. Qed.

(* ---- C10 ---- *)
(* whatever r and s are, Verify answers true *)
Theorem C10_verify_rejects_forgery_refuted : forall C (L : curve_laws C) rnd r s,
  multiple_of_base C r -> challenge C rnd r <> szero L ->
  sig_verify C rnd {| sig_r := r; sig_s := s |} = true.
Proof. exact sig_verify_true. Qed.
Print Assumptions C10_verify_rejects_forgery_refuted.

Example C10_example : multiple_of_base toy_suite f3 /\ challenge toy_suite (bs "12") f3 <> f0.
Proof. split; [exists f4; reflexivity | vm_compute; discriminate]. Qed.

(* ---- C11 ---- *)
Theorem C11_ring_sign_verifies : forall C, curve_laws C -> forall x msg ring,
  In (public_key C x) ring ->
  exists rs, ring_sign C x msg ring = Ok rs /\ rs_ring rs = ring /\
    length (rs_s rs) = length ring /\ ring_verify C rs msg = Ok true.
Proof. exact ring_sign_complete. Qed.
Print Assumptions C11_ring_sign_verifies.

Theorem C11_ring_sign_outsider : forall C, curve_laws C -> forall x msg ring,
  ring_sign C x msg ring = Err <-> ~ In (public_key C x) ring.
Proof. exact ring_sign_err. Qed.
Print Assumptions C11_ring_sign_outsider.

Example C11_example : In (public_key toy_suite f3) [f4; f2; public_key toy_suite f3; f1; public_key toy_suite f3].
Proof. cbn. auto. Qed.

(* ---- C12 ---- *)
Theorem C12_verify_true_iff_chain_closes : forall C, curve_laws C -> forall rs msg,
  ring_verify C rs msg = Ok true <->
  exists es, ring_chain C msg (rs_ring rs) (rs_s rs) (rs_e rs) es /\
             es (length (rs_ring rs)) = rs_e rs.
Proof. exact ring_verify_meaning. Qed.
Print Assumptions C12_verify_true_iff_chain_closes.

Theorem C12_verify_false_iff_chain_open : forall C, curve_laws C -> forall rs msg,
  ring_verify C rs msg = Ok false <->
  exists es, ring_chain C msg (rs_ring rs) (rs_s rs) (rs_e rs) es /\
             es (length (rs_ring rs)) <> rs_e rs.
Proof. exact ring_verify_false. Qed.
Print Assumptions C12_verify_false_iff_chain_open.

Theorem C12_verify_panics_iff_scalar_missing : forall C rs msg,
  ring_verify C rs msg = Panic <-> exists i, i < length (rs_ring rs) /\
    (nth_error (rs_s rs) i = None \/ nth_error (rs_s rs) i = Some None).
Proof. exact ring_verify_panic. Qed.
Print Assumptions C12_verify_panics_iff_scalar_missing.

Theorem C12_verify_ignores_surplus : forall C ring ss extra e msg, length ss = length ring ->
  ring_verify C {| rs_ring := ring; rs_s := ss ++ extra; rs_e := e |} msg =
  ring_verify C {| rs_ring := ring; rs_s := ss; rs_e := e |} msg.
Proof. exact ring_verify_surplus. Qed.
Print Assumptions C12_verify_ignores_surplus.

Theorem C12_empty_ring_verifies_everything : forall C, curve_laws C -> forall ss e msg,
  ring_verify C {| rs_ring := []; rs_s := ss; rs_e := e |} msg = Ok true.
Proof. exact ring_verify_empty. Qed.
Print Assumptions C12_empty_ring_verifies_everything.

Example C12_example :
  ring_verify toy_suite (Build_ring_signature toy_suite [f1; f2] [Some f1; Some f3] f1) (bs "m") = Ok false /\
  ring_verify toy_suite (Build_ring_signature toy_suite [f1; f2] [Some f1] f1) (bs "m") = Panic.
Proof. split; vm_compute; reflexivity. Qed.

(* ---- C13 ---- *)
Theorem C13_signature_text : forall C (L : curve_laws C), codec_laws C -> forall rnd sg,
  multiple_of_base C (sig_r sg) -> challenge C rnd (sig_r sg) <> szero L ->
  to_signature C rnd (sig_string C sg) = Ok sg.
Proof.
  intros C L K rnd [r s] H1 H2. rewrite (to_signature_string C K). unfold create_signature. cbn [sig_r sig_s] in *.
  rewrite (sig_verify_true C L) by assumption. reflexivity.
Qed.
Print Assumptions C13_signature_text.

Theorem C13_ring_signature_text : forall C, codec_laws C -> forall ring ss e,
  exists txt, ring_string C {| rs_ring := ring; rs_s := map Some ss; rs_e := e |} = Ok txt /\
    to_ring_signature C txt = Ok {| rs_ring := ring; rs_s := map Some ss; rs_e := e |}.
Proof. exact ring_string_round_trip. Qed.
Print Assumptions C13_ring_signature_text.

Theorem C13_private_key_text : forall C, codec_laws C -> forall x,
  to_private_key C (private_key_string C x) = Ok x.
Proof. exact private_key_round_trip. Qed.
Print Assumptions C13_private_key_text.

Theorem C13_public_key_text : forall C, codec_laws C -> forall p,
  to_public_key C (pstr C p) = Ok p.
Proof. exact public_key_round_trip. Qed.
Print Assumptions C13_public_key_text.

(* which texts are accepted, and that the others give an error *)
Theorem C13_scalar_text_exactly :
  forall C s,
  (forall x, to_private_key C s = Ok x <-> exists b, hex_decode s = Some b /\ 32 <= length b /\ x = sdec C (firstn 32 b)) /\
  (to_private_key C s = Err \/ exists x, to_private_key C s = Ok x).
Proof. exact @to_scalar_exact. Qed.
Print Assumptions C13_scalar_text_exactly.

Theorem C13_point_text_exactly :
  forall C s,
  (forall p, to_public_key C s = Ok p <-> exists b, hex_decode s = Some b /\ pdec C b = Some p) /\
  (to_public_key C s = Err \/ exists x, to_public_key C s = Ok x).
Proof. exact @to_point_exact. Qed.
Print Assumptions C13_point_text_exactly.

Theorem C13_signature_text_exactly :
  forall C rnd txt,
  (forall sg, to_signature C rnd txt = Ok sg <->
    exists a b, b64_decode txt = Some (a ++ bs "#" ++ b) /\ ~ In "#"%byte a /\ ~ In "#"%byte b /\
      to_public_key C a = Ok (sig_r sg) /\ to_private_key C b = Ok (sig_s sg) /\ sig_verify C rnd sg = true) /\
  (to_signature C rnd txt = Err \/ exists sg, to_signature C rnd txt = Ok sg).
Proof. exact @signature_text_exact. Qed.
Print Assumptions C13_signature_text_exactly.

Theorem C13_ring_signature_text_exactly :
  forall C txt,
  (forall rs, to_ring_signature C txt = Ok rs <->
    exists a b c la lb ss, b64_decode txt = Some (a ++ bs "#" ++ b ++ bs "#" ++ c) /\ ~ In "#"%byte a /\ ~ In "#"%byte b /\ ~ In "#"%byte c /\
      pieces a la /\ Forall2 (fun s p => to_public_key C s = Ok p) la (rs_ring rs) /\
      pieces b lb /\ Forall2 (fun s x => to_private_key C s = Ok x) lb ss /\ rs_s rs = map Some ss /\ to_private_key C c = Ok (rs_e rs)) /\
  (to_ring_signature C txt = Err \/ exists rs, to_ring_signature C txt = Ok rs).
Proof. exact @ring_text_exact. Qed.
Print Assumptions C13_ring_signature_text_exactly.

Example C13_example : exists txt,
  ring_string toy_suite (Build_ring_signature toy_suite [f1; f2; f1] [Some f1; Some f3] f4) = Ok txt /\
  length txt = 524.
Proof. eexists. split; vm_compute; reflexivity. Qed.

(* ---- C14 ---- *)
Theorem C14_accepts_exactly : forall C sha512 rs msg hashes,
  to_verification C sha512 rs msg hashes = Ok true <->
  ring_verify C rs msg = Ok true /\
  hashes = map (fun p => from_bytes sha512 (penc C p)) (rs_ring rs).
Proof. exact to_verification_true. Qed.
Print Assumptions C14_accepts_exactly.

Theorem C14_rejects_exactly : forall C sha512 rs msg hashes,
  to_verification C sha512 rs msg hashes = Err <->
  ring_verify C rs msg = Ok false \/
  (ring_verify C rs msg = Ok true /\
   hashes <> map (fun p => from_bytes sha512 (penc C p)) (rs_ring rs)).
Proof. exact to_verification_err. Qed.
Print Assumptions C14_rejects_exactly.

Theorem C14_hashes_bind_the_ring : forall C, codec_laws C -> forall sha512 rs rs' msg msg' hashes,
  to_verification C sha512 rs msg hashes = Ok true ->
  to_verification C sha512 rs' msg' hashes = Ok true ->
  rs_ring rs = rs_ring rs' \/ collision sha512.
Proof. exact to_verification_binds_ring. Qed.
Print Assumptions C14_hashes_bind_the_ring.

Example C14_example : exists rs,
  ring_sign toy_suite f3 (bs "vote") [f4; public_key toy_suite f3] = Ok rs /\
  to_verification toy_suite toy_sha rs (bs "vote")
    (map (fun p => from_bytes toy_sha (penc toy_suite p)) [f4; public_key toy_suite f3]) = Ok true.
Proof. eexists. split; vm_compute; reflexivity. Qed.

(* ---- C49 ---- *)
(* Sign(m) and RingSign(m) of the same key together reveal it: everything on the
   right hand side is computed from the two published signatures *)
Theorem C49_same_message_reveals_key : forall C, curve_laws C -> forall rnd x m ring sg rs es signer,
  sign C rnd x m = Ok sg -> ring_sign C x m ring = Ok rs ->
  nth_error ring signer = Some (public_key C x) ->
  (forall j, j < signer -> nth_error ring j <> Some (public_key C x)) ->
  ring_chain C m ring (rs_s rs) (rs_e rs) es ->
  es signer <> challenge C m (sig_r sg) ->
  exists s, nth_error (rs_s rs) signer = Some (Some s) /\
    x = sdiv C (ssub C s (sig_s sg)) (ssub C (challenge C m (sig_r sg)) (es signer)).
Proof.
  intros C L rnd x m ring sg rs es signer H1 H2 H3 H4. apply (nonce_reuse C L rnd x m ring sg rs es signer H1 H2).
  apply signer_index_first; auto.
Qed.
Print Assumptions C49_same_message_reveals_key.

(* and even without it the signer's position in the ring is visible *)
Theorem C49_same_message_reveals_signer : forall C, curve_laws C -> forall rnd x m ring sg rs es signer,
  sign C rnd x m = Ok sg -> ring_sign C x m ring = Ok rs ->
  nth_error ring signer = Some (public_key C x) ->
  (forall j, j < signer -> nth_error ring j <> Some (public_key C x)) ->
  ring_chain C m ring (rs_s rs) (rs_e rs) es ->
  es (S signer) = challenge C m (sig_r sg).
Proof.
  intros C L rnd x m ring sg rs es signer H1 H2 H3 H4. apply (signer_visible C L rnd x m ring sg rs es signer H1 H2).
  apply signer_index_first; auto.
Qed.
Print Assumptions C49_same_message_reveals_signer.

Example C49_example : exists sg rs,
  sign toy_suite (bs "2") f3 (bs "b") = Ok sg /\
  ring_sign toy_suite f3 (bs "b") [f2; public_key toy_suite f3; f4] = Ok rs /\
  exists es, ring_chain toy_suite (bs "b") [f2; public_key toy_suite f3; f4] (rs_s rs) (rs_e rs) es /\
    es 1 <> challenge toy_suite (bs "b") (sig_r sg).
Proof.
  do 2 eexists. split; [vm_compute; reflexivity|]. split; [vm_compute; reflexivity|].
  cbn [rs_s rs_e sig_r].
  match goal with |- exists es, ring_chain _ ?m ?ring ?ss ?e es /\ _ =>
    destruct (ring_verify_loop_inv toy_suite m ring ss e (ltac:(let r := eval vm_compute in
      (match ring_verify_loop toy_suite m ring ss e with Ok v => v | _ => f0 end) in exact r)))
      as (es & H1 & H2); [vm_compute; reflexivity|] end.
  exists es. split; [exact H1|]. destruct H1 as [H0 H1].
  destruct (H1 0 f2 eq_refl) as (s & Hs & He). cbn in Hs. injection Hs as <-. rewrite He, H0.
  vm_compute. discriminate.
Qed.

(* ---- C50 ---- *)
(* the filler value published for ring member i when signing m is the secret
   nonce of Sign(m followed by the digits of i) *)
Theorem C50_ring_filler_reveals_key : forall C (L : curve_laws C) rnd x m ring rs signer i sg,
  ring_sign C x m ring = Ok rs ->
  nth_error ring signer = Some (public_key C x) ->
  (forall j, j < signer -> nth_error ring j <> Some (public_key C x)) ->
  i < length ring -> i <> signer ->
  sign C rnd x (m ++ itoa (N.of_nat i)) = Ok sg ->
  challenge C (m ++ itoa (N.of_nat i)) (sig_r sg) <> szero L ->
  exists si, nth_error (rs_s rs) i = Some (Some si) /\
    x = sdiv C (ssub C si (sig_s sg)) (challenge C (m ++ itoa (N.of_nat i)) (sig_r sg)).
Proof.
  intros C L rnd x m ring rs signer i sg H1 H2 H3. apply (decoy_is_nonce C L rnd x m ring rs signer i sg H1).
  apply signer_index_first; auto.
Qed.
Print Assumptions C50_ring_filler_reveals_key.

Example C50_example : exists rs sg,
  ring_sign toy_suite f3 (bs "pay1") [f2; public_key toy_suite f3; f4] = Ok rs /\
  sign toy_suite (bs "2") f3 (bs "pay1" ++ itoa 0) = Ok sg /\
  challenge toy_suite (bs "pay1" ++ itoa 0) (sig_r sg) <> f0.
Proof. do 2 eexists. split; [vm_compute; reflexivity|]. split; [vm_compute; reflexivity | vm_compute; discriminate]. Qed.
