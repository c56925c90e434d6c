(* KeyProps.v - property theorem C103: RSA keys. *)
From Coq Require Import Strings.String Strings.Byte Lia.
From Verif Require Import Go GoLemmas HashModel Base64 DomainModel KeyModel KeySpec B64Spec B64Proofs B64Props.
Open Scope list_scope.

Lemma run_snoc {S O} (step : S -> O -> S) s l o : run step s (l ++ [o]) = step (run step s l) o.
Proof. unfold run. rewrite fold_left_app. reflexivity. Qed.
Lemma last_private_run R l k : last_private R l k -> run (kb_step R) None l = k.
Proof. induction 1 as [|l|l k|l k _ IH]; [reflexivity|rewrite run_snoc; reflexivity|rewrite run_snoc; reflexivity|rewrite run_snoc, IH; reflexivity]. Qed.
Lemma last_private_ex R l : exists k, last_private R l k.
Proof. induction l as [|o l (k & H)] using rev_ind; [eexists; constructor|]. destruct o; eexists; constructor. exact H. Qed.
Lemma last_public_run R l k : last_public R l k -> run (pkb_step R) None l = k.
Proof. induction 1 as [|l|l k|l k _ IH]; [reflexivity|rewrite run_snoc; reflexivity|rewrite run_snoc; reflexivity|rewrite run_snoc, IH; reflexivity]. Qed.
Lemma last_public_ex R l : exists k, last_public R l k.
Proof. induction l as [|o l (k & H)] using rev_ind; [eexists; constructor|]. destruct o; eexists; constructor. exact H. Qed.

(* the builders: a key was given since Create, and it is in the object with its public half *)
Theorem C103_private_key_built_exactly :
  forall R other ops,
  (forall k, kb_now R other (run (kb_step R) None ops) = Ok k <-> last_private R ops (Some (kp_key k)) /\ kp_public k = rsa_half R (kp_key k)) /\
  (kb_now R other (run (kb_step R) None ops) = Err <-> last_private R ops None) /\ kb_now R other (run (kb_step R) None ops) <> Panic.
Proof.
  intros R other ops. destruct (last_private_ex R ops) as (x & Hx). assert (E := last_private_run R ops x Hx). rewrite E.
  assert (U : forall y, last_private R ops y -> x = y) by (intros y Hy; apply last_private_run in Hy; congruence). split; [|split].
  - intros [k p]. cbn [kp_key kp_public]. destruct x as [x|]; cbn; split.
    + intros H. injection H as <- <-. auto.
    + intros [H ->]. apply U in H. congruence.
    + discriminate.
    + intros [H _]. apply U in H. discriminate.
  - destruct x; cbn; split; intros H; [discriminate|apply U in H; discriminate|exact Hx|reflexivity].
  - destruct x; discriminate.
Qed.
Print Assumptions C103_private_key_built_exactly.
Theorem C103_public_key_built_exactly :
  forall R ops,
  (forall p, pkb_now R (run (pkb_step R) None ops) = Ok p <-> last_public R ops (Some p)) /\
  (pkb_now R (run (pkb_step R) None ops) = Err <-> last_public R ops None) /\ pkb_now R (run (pkb_step R) None ops) <> Panic.
Proof.
  intros R ops. destruct (last_public_ex R ops) as (x & Hx). assert (E := last_public_run R ops x Hx). rewrite E.
  assert (U : forall y, last_public R ops y -> x = y) by (intros y Hy; apply last_public_run in Hy; congruence). split; [|split].
  - intros p. destruct x as [x|]; cbn; split; intros H; [injection H as ->; exact Hx|apply U in H; congruence|discriminate|apply U in H; discriminate].
  - destruct x; cbn; split; intros H; [discriminate|apply U in H; discriminate|exact Hx|reflexivity].
  - destruct x; discriminate.
Qed.
Print Assumptions C103_public_key_built_exactly.

(* the factory: the generated key with its public half; an error exactly when none is generated *)
Theorem C103_factory_exactly :
  forall R bits rnd before,
  (forall k, factory_create R bits rnd before = Ok k <-> rsa_generate R rnd bits = Some (kp_key k) /\ kp_public k = rsa_half R (kp_key k)) /\
  (factory_create R bits rnd before = Err <-> rsa_generate R rnd bits = None) /\ factory_create R bits rnd before <> Panic.
Proof.
  intros R bits rnd before. unfold factory_create. destruct (rsa_generate R rnd bits) as [g|]; cbn; (split; [|split]).
  - intros [k p]. cbn. split; [intros H; injection H as <- <-; auto|intros [H ->]; congruence].
  - split; discriminate.
  - discriminate.
  - intros k. split; [discriminate|intros [H _]; discriminate].
  - split; reflexivity.
  - discriminate.
Qed.
Print Assumptions C103_factory_exactly.

(* the adapters: the outcome depends on the text only, whatever was converted before, and is
   the key written there; a text that is not base64, or parses as no key, is an error *)
Theorem C103_private_text_exactly :
  forall R history txt,
  (forall k, fst (key_from_encoded R (adapter_after R None history) txt) = Ok k <->
     exists t d, unbroken txt t /\ coded (fun _ => True) t d /\ rsa_parse R d = Some (kp_key k) /\ kp_public k = rsa_half R (kp_key k)) /\
  (fst (key_from_encoded R (adapter_after R None history) txt) = Err \/ exists k, fst (key_from_encoded R (adapter_after R None history) txt) = Ok k).
Proof.
  intros R history txt. generalize (adapter_after R None history). intros s. unfold key_from_encoded, key_from_bytes. destruct (b64_decode txt) as [b|] eqn:E.
  - assert (X := E). apply C102_base64_accepted_exactly in X. destruct X as (t & U & C). destruct (rsa_parse R b) as [g|] eqn:P; cbn.
    + split; [|right; eexists; reflexivity]. intros [k p]. cbn. split.
      * intros H. injection H as <- <-. exists t, b. auto.
      * intros (t' & d & U' & C' & P' & ->). assert (Y : b64_decode txt = Some d) by (apply C102_base64_accepted_exactly; exists t'; auto). congruence.
    + split; [|left; reflexivity]. intros k. split; [discriminate|]. intros (t' & d & U' & C' & P' & _). assert (Y : b64_decode txt = Some d) by (apply C102_base64_accepted_exactly; exists t'; auto). congruence.
  - cbn. split; [|left; reflexivity]. intros k. split; [discriminate|]. intros (t' & d & U' & C' & P' & _). assert (Y : b64_decode txt = Some d) by (apply C102_base64_accepted_exactly; exists t'; auto). congruence.
Qed.
Print Assumptions C103_private_text_exactly.
Theorem C103_public_text_exactly :
  forall R other txt,
  (forall p, pub_from_encoded R other txt = Ok p <-> exists t d, unbroken txt t /\ coded (fun _ => True) t d /\ rsa_parse_public R d = Some p) /\
  (pub_from_encoded R other txt = Err \/ exists p, pub_from_encoded R other txt = Ok p).
Proof.
  intros R other txt. unfold pub_from_encoded, pub_from_bytes. destruct (b64_decode txt) as [b|] eqn:E.
  - assert (X := E). apply C102_base64_accepted_exactly in X. destruct X as (t & U & C). destruct (rsa_parse_public R b) as [g|] eqn:P; cbn.
    + split; [|right; eexists; reflexivity]. intros p. split.
      * intros H. injection H as <-. exists t, b. auto.
      * intros (t' & d & U' & C' & P'). assert (Y : b64_decode txt = Some d) by (apply C102_base64_accepted_exactly; exists t'; auto). congruence.
    + split; [|left; reflexivity]. intros p. split; [discriminate|]. intros (t' & d & U' & C' & P'). assert (Y : b64_decode txt = Some d) by (apply C102_base64_accepted_exactly; exists t'; auto). congruence.
  - split; [|left; reflexivity]. intros p. split; [discriminate|]. intros (t' & d & U' & C' & P'). assert (Y : b64_decode txt = Some d) by (apply C102_base64_accepted_exactly; exists t'; auto). congruence.
Qed.
Print Assumptions C103_public_text_exactly.

(* both halves travel as text; a message that fits, encrypted for the one, is decrypted by the other *)
Theorem C103_text_keys_work_together :
  forall R, rsa_laws R -> forall other ops k rnd history other' m,
  kb_now R other (run (kb_step R) None ops) = Ok k ->
  exists k' p', fst (key_from_encoded R (adapter_after R None history) (key_to_encoded R k)) = Ok k' /\
    pub_from_encoded R other' (pub_to_encoded R (kp_public k)) = Ok p' /\ k' = k /\ p' = kp_public k /\
    (length m + 66 <= rsa_size R p' -> exists c, pub_encrypt R rnd p' m = Ok c /\ priv_decrypt R k' c = Ok m) /\
    (rsa_size R p' < length m + 66 -> pub_encrypt R rnd p' m = Err) /\
    (forall c m', priv_decrypt R k' c = Ok m' <-> rsa_decrypt R (kp_key k) c = Some m') /\
    (forall c, rsa_decrypt R (kp_key k) c = None -> priv_decrypt R k' c = Err).
Proof.
  intros R L other ops k rnd history other' m Hk. apply C103_private_key_built_exactly in Hk. destruct Hk as [_ E]. exists k, (kp_public k).
  generalize (adapter_after R None history). intros s. destruct k as [k p]. cbn in E. subst p. unfold key_from_encoded, key_to_encoded, key_to_bytes, key_from_bytes, pub_from_encoded, pub_to_encoded, pub_to_bytes, pub_from_bytes. cbn [kp_key kp_public].
  rewrite !b64_round_trip, (law_private R L), (law_public R L). split; [reflexivity|]. split; [reflexivity|]. split; [reflexivity|]. split; [reflexivity|]. unfold pub_encrypt, priv_decrypt. cbn [kp_key].
  assert (D : (forall c m', match rsa_decrypt R k c with None => Err | Some m => Ok m end = Ok m' <-> rsa_decrypt R k c = Some m') /\
    (forall c, rsa_decrypt R k c = None -> match rsa_decrypt R k c with None => Err | Some m => Ok m end = Err)).
  { split; [|intros c ->; reflexivity]. intros c m'. destruct (rsa_decrypt R k c); split; congruence. }
  destruct (Nat.ltb_spec (rsa_size R (rsa_half R k)) (length m + 2 * 32 + 2)) as [Lt|Ge].
  - split; [intros H; exfalso; lia|]. split; [reflexivity|exact D].
  - split; [|split; [intros H; exfalso; lia|exact D]]. intros H. eexists. split; [reflexivity|]. rewrite (law_decrypt R L) by exact H. reflexivity.
Qed.
Print Assumptions C103_text_keys_work_together.

(* equal hashes of public keys are equal keys, unless SHA-512 collides or a key is written in 64 bytes *)
Theorem C103_public_hash_binds :
  forall R sha512, rsa_laws R ->
  forall p q, length (pub_to_bytes R p) <> 64 -> length (pub_to_bytes R q) <> 64 -> pub_to_hash R sha512 p = pub_to_hash R sha512 q ->
  p = q \/ (rsa_write_public R p <> rsa_write_public R q /\ sha512 (rsa_write_public R p) = sha512 (rsa_write_public R q)).
Proof.
  intros R sha L p q Np Nq H. unfold pub_to_hash, from_bytes in H. apply Nat.eqb_neq in Np, Nq. rewrite Np, Nq in H. unfold pub_to_bytes in H.
  destruct (list_eq_dec Byte.byte_eq_dec (rsa_write_public R p) (rsa_write_public R q)) as [E|N]; [left|right; auto].
  assert (A := law_public R L p). assert (B := law_public R L q). rewrite E in A. congruence.
Qed.
Print Assumptions C103_public_hash_binds.

(* ---- a case: a library that satisfies the laws ---- *)
Definition toy_rsa : rsa := {|
  rsa_private := bytes; rsa_public := bytes; rsa_half := fun k => rev k; rsa_generate := fun rnd bits => if (bits <? 12)%N then None else Some rnd;
  rsa_size := fun _ => 70; rsa_encrypt := fun _ p m => p ++ m; rsa_decrypt := fun k c => if bytes_eqb (firstn (length k) c) (rev k) then Some (skipn (length k) c) else None;
  rsa_write := fun k => k; rsa_parse := fun b => Some b; rsa_write_public := fun k => k; rsa_parse_public := fun b => Some b |}.
Lemma toy_rsa_laws : rsa_laws toy_rsa.
Proof.
  constructor; cbn; try reflexivity. intros _ k m _. assert (E : length k = length (rev k)) by (symmetry; apply rev_length). rewrite E. rewrite firstn_app, Nat.sub_diag, firstn_all, app_nil_r, skipn_app, Nat.sub_diag, skipn_all. cbn. rewrite (proj2 (bytes_eqb_eq _ _) eq_refl). reflexivity.
Qed.
Example C103_case :
  (exists k, factory_create toy_rsa 2048 (bs "abc") None = Ok k /\ kp_public k = bs "cba") /\ factory_create toy_rsa 8 (bs "abc") None = Err /\
  (exists k, kb_now toy_rsa None (run (kb_step toy_rsa) None [KbWithPK toy_rsa (bs "abc"); KbNow toy_rsa]) = Ok k /\
   exists c, pub_encrypt toy_rsa [] (kp_public k) (bs "hey") = Ok c /\ priv_decrypt toy_rsa k c = Ok (bs "hey")) /\
  pub_encrypt toy_rsa [] (bs "cba") (bs "hello") = Err.
Proof. repeat split; try (eexists; split; [reflexivity|]); try reflexivity. eexists. split; reflexivity. Qed.
