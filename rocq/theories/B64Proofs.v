(* B64Proofs.v - proofs for B64Props.v. *)
From Coq Require Import Strings.String Strings.Byte Lia.
From Verif Require Import Go GoLemmas Base64 B64Spec.
Open Scope list_scope.

Definition opt_is (o : option N) (n : nat) : bool := match o with Some m => N.eqb m (N.of_nat n) | None => false end.
Definition nth_is (c : byte) (n : nat) : bool := match nth_error alphabet n with Some d => Byte.eqb c d | None => false end.
Lemma digit_check : forall c, forallb (fun n => Bool.eqb (opt_is (b64_val c) n) (nth_is c n)) (seq 0 64) && match b64_val c with Some m => (m <? 64)%N | None => true end = true.
Proof. intros c. destruct c; vm_compute; reflexivity. Qed.
Lemma digit_val c n : digit c n <-> b64_val c = Some (N.of_nat n).
Proof.
  assert (K := digit_check c). apply andb_prop in K. destruct K as [K1 K2]. rewrite forallb_forall in K1. unfold digit. split.
  - intros H. assert (L : n < 64) by (change 64 with (length alphabet); apply nth_error_Some; congruence). assert (Q := K1 n (proj2 (in_seq 64 0 n) (conj (Nat.le_0_l n) L))). apply Bool.eqb_prop in Q. unfold nth_is in Q. rewrite H in Q.
    assert (Byte.eqb c c = true) as R by (apply Byte.byte_dec_lb; reflexivity). rewrite R in Q. unfold opt_is in Q. destruct (b64_val c); [|discriminate Q]. apply N.eqb_eq in Q. congruence.
  - intros H. rewrite H in K2. apply N.ltb_lt in K2. assert (L : n < 64) by lia. assert (Q := K1 n (proj2 (in_seq 64 0 n) (conj (Nat.le_0_l n) L))). apply Bool.eqb_prop in Q. unfold opt_is in Q. rewrite H, N.eqb_refl in Q. unfold nth_is in Q. destruct (nth_error alphabet n); [|discriminate Q]. symmetry in Q. apply Byte.byte_dec_bl in Q. congruence.
Qed.
Lemma val_digit c m : b64_val c = Some m -> digit c (N.to_nat m) /\ (m < 64)%N.
Proof. intros H. split; [apply digit_val; rewrite N2Nat.id; exact H|]. assert (K := digit_check c). apply andb_prop in K. destruct K as [_ K]. rewrite H in K. apply N.ltb_lt, K. Qed.
Lemma pad_no n : ~ digit "="%byte n.
Proof. intros H. apply digit_val in H. discriminate H. Qed.
Lemma number_lt b : number b < 256.
Proof. unfold number. assert (K := to_N_bound b). lia. Qed.
Lemma number_byte n : (n < 256)%N -> number (byte_of_N n) = N.to_nat n.
Proof. intros H. unfold number. rewrite to_of_N; [reflexivity|exact H]. Qed.
Lemma number_inj a b : number a = number b -> a = b.
Proof. unfold number. intros H. apply N2Nat.inj in H. rewrite <- (byte_of_to_N a), <- (byte_of_to_N b), H. reflexivity. Qed.
Ltac Zify.zify_post_hook ::= Z.to_euclidean_division_equations.
Lemma n1 x y : (x < 64)%N -> (y < 64)%N -> number (b64_byte1 x y) = N.to_nat x * 4 + N.to_nat y / 16.
Proof. intros. unfold b64_byte1. rewrite number_byte by lia. lia. Qed.
Lemma n2 y z : (y < 64)%N -> (z < 64)%N -> number (b64_byte2 y z) = (N.to_nat y mod 16) * 16 + N.to_nat z / 4.
Proof. intros. unfold b64_byte2. rewrite number_byte by lia. lia. Qed.
Lemma n3 z w : (z < 64)%N -> (w < 64)%N -> number (b64_byte3 z w) = (N.to_nat z mod 4) * 64 + N.to_nat w.
Proof. intros. unfold b64_byte3. rewrite number_byte by lia. lia. Qed.
Lemma one_iff x y b : (x < 64)%N -> (y < 64)%N -> (exists e, N.to_nat x * 64 + N.to_nat y = number b * 16 + e /\ e < 16) <-> b = b64_byte1 x y.
Proof.
  intros Hx Hy. split.
  - intros (e & H & L). apply number_inj. rewrite n1 by assumption. lia.
  - intros ->. rewrite n1 by assumption. exists (N.to_nat y mod 16). lia.
Qed.
Lemma two_iff x y z a b : (x < 64)%N -> (y < 64)%N -> (z < 64)%N -> (exists e, (N.to_nat x * 64 + N.to_nat y) * 64 + N.to_nat z = (number a * 256 + number b) * 4 + e /\ e < 4) <-> a = b64_byte1 x y /\ b = b64_byte2 y z.
Proof.
  intros Hx Hy Hz. assert (A := number_lt a). assert (B := number_lt b). split.
  - intros (e & H & L). split; apply number_inj; [rewrite n1 by assumption|rewrite n2 by assumption]; lia.
  - intros [-> ->]. rewrite n1, n2 by assumption. exists (N.to_nat z mod 4). lia.
Qed.
Lemma three_iff x y z w a b c : (x < 64)%N -> (y < 64)%N -> (z < 64)%N -> (w < 64)%N -> ((N.to_nat x * 64 + N.to_nat y) * 64 + N.to_nat z) * 64 + N.to_nat w = (number a * 256 + number b) * 256 + number c <-> a = b64_byte1 x y /\ b = b64_byte2 y z /\ c = b64_byte3 z w.
Proof.
  intros Hx Hy Hz Hw. assert (A := number_lt a). assert (B := number_lt b). assert (C := number_lt c). split.
  - intros H. repeat split; apply number_inj; [rewrite n1 by assumption|rewrite n2 by assumption|rewrite n3 by assumption]; lia.
  - intros (-> & -> & ->). rewrite n1, n2, n3 by assumption. lia.
Qed.
Lemma digit_fun c n m : digit c n -> b64_val c = Some m -> n = N.to_nat m.
Proof. intros H E. apply digit_val in H. rewrite E in H. injection H as ->. lia. Qed.
Lemma eqb_pad c : Byte.eqb c "="%byte = true <-> c = "="%byte.
Proof. split; [apply Byte.byte_dec_bl|apply Byte.byte_dec_lb]. Qed.
Lemma go_coded : forall s d, b64_decode_go s = Some d -> coded (fun _ => True) s d.
Proof.
  fix IH 1. intros [|c1 [|c2 [|c3 [|c4 r]]]] d H; try discriminate H; [injection H as <-; constructor|].
  cbn [b64_decode_go] in H. destruct (b64_val c1) as [x|] eqn:E1; [|discriminate H]. destruct (b64_val c2) as [y|] eqn:E2; [|discriminate H]. apply val_digit in E1, E2. destruct E1 as [D1 L1], E2 as [D2 L2].
  destruct (b64_val c3) as [z|] eqn:E3.
  - apply val_digit in E3. destruct E3 as [D3 L3]. destruct (b64_val c4) as [w|] eqn:E4.
    + apply val_digit in E4. destruct E4 as [D4 L4]. destruct (b64_decode_go r) as [t|] eqn:Er; [|discriminate H]. injection H as <-. apply (cd_three _ c1 c2 c3 c4 _ _ _ _ _ _ _ r t D1 D2 D3 D4); [|apply IH, Er]. apply three_iff; auto.
    + destruct (Byte.eqb c4 "="%byte) eqn:Ep; [|discriminate H]. apply eqb_pad in Ep. subst c4. destruct r; [|discriminate H]. injection H as <-. destruct (proj2 (two_iff x y z _ _ L1 L2 L3) (conj eq_refl eq_refl)) as (e & He & Le). apply (cd_two _ c1 c2 c3 _ _ _ _ _ e D1 D2 D3 He Le I).
  - destruct (Byte.eqb c3 "="%byte && Byte.eqb c4 "="%byte) eqn:Ep; [|discriminate H]. apply andb_prop in Ep. destruct Ep as [P1 P2]. apply eqb_pad in P1, P2. subst c3 c4. destruct r; [|discriminate H]. injection H as <-. destruct (proj2 (one_iff x y _ L1 L2) eq_refl) as (e & He & Le). apply (cd_one _ c1 c2 _ _ _ e D1 D2 He Le I).
Qed.
Lemma coded_go spare s d : coded spare s d -> b64_decode_go s = Some d.
Proof.
  assert (P : b64_val "="%byte = None) by reflexivity. assert (Q : Byte.eqb "=" "=" = true) by reflexivity.
  induction 1 as [|c1 c2 n1 n2 b e D1 D2 H L _|c1 c2 c3 n1 n2 n3 a b e D1 D2 D3 H L _|c1 c2 c3 c4 n1 n2 n3 n4 a b c s d D1 D2 D3 D4 H _ IH]; [reflexivity| | |].
  - apply digit_val in D1, D2. destruct (val_digit _ _ D1) as [_ L1], (val_digit _ _ D2) as [_ L2]. cbn [b64_decode_go]. rewrite D1, D2, P, Q. cbn [andb]. do 2 f_equal. symmetry. apply one_iff; [assumption..|]. exists e. rewrite !Nat2N.id. auto.
  - apply digit_val in D1, D2, D3. destruct (val_digit _ _ D1) as [_ L1], (val_digit _ _ D2) as [_ L2], (val_digit _ _ D3) as [_ L3]. cbn [b64_decode_go]. rewrite D1, D2, D3, P, Q. destruct (proj1 (two_iff _ _ _ a b L1 L2 L3)) as [-> ->]; [|reflexivity]. exists e. rewrite !Nat2N.id. auto.
  - apply digit_val in D1, D2, D3, D4. destruct (val_digit _ _ D1) as [_ L1], (val_digit _ _ D2) as [_ L2], (val_digit _ _ D3) as [_ L3], (val_digit _ _ D4) as [_ L4]. cbn [b64_decode_go]. rewrite D1, D2, D3, D4, IH. destruct (proj1 (three_iff _ _ _ _ a b c L1 L2 L3 L4)) as (-> & -> & ->); [|reflexivity]. rewrite !Nat2N.id. exact H.
Qed.
Lemma unbroken_filter s t : unbroken s t <-> t = filter not_newline s.
Proof.
  assert (K : forall c, not_newline c = true <-> c <> x0d /\ c <> x0a) by (intros c; destruct c; cbn; split; try discriminate; try (intros _; split; discriminate); intros [A B]; congruence).
  split.
  - induction 1 as [|c s t H _ IH|c s t A B _ IH]; [reflexivity| |]; cbn [filter]; destruct (not_newline c) eqn:E; [apply K in E; tauto|exact IH|congruence|exfalso; assert (not_newline c = true) by (apply K; auto); congruence].
  - intros ->. induction s as [|c s IH]; [constructor|]. cbn [filter]. destruct (not_newline c) eqn:E; [apply K in E; apply ub_keep; tauto|apply ub_break; [|exact IH]]. destruct c; try discriminate E; auto.
Qed.
Lemma digit_char n : (n < 64)%N -> digit (b64_char n) (N.to_nat n).
Proof. intros H. apply digit_val. rewrite N2Nat.id. apply b64_val_char, H. Qed.
Lemma encode_coded : forall d, coded (fun e => e = 0) (b64_encode d) d.
Proof.
  fix IH 1. intros [|a [|b [|c r]]]; [constructor| | |]; cbn [b64_encode]; assert (A := to_N_bound a); try assert (B := to_N_bound b); try assert (C := to_N_bound c).
  - eapply (cd_one _ _ _ _ _ a 0); try apply digit_char; try lia. unfold number. lia.
  - eapply (cd_two _ _ _ _ _ _ _ a b 0); try apply digit_char; try lia. unfold number. lia.
  - eapply cd_three; try apply digit_char; try apply IH; try lia. unfold number. lia.
Qed.
Lemma digit_one c c' n : digit c n -> digit c' n -> c = c'.
Proof. unfold digit. congruence. Qed.
Lemma digit_lt c n : digit c n -> n < 64.
Proof. intros H. apply digit_val in H. apply val_digit in H. lia. Qed.
Lemma coded_one_text s d : coded (fun e => e = 0) s d -> forall s', coded (fun e => e = 0) s' d -> s = s'.
Proof.
  induction 1 as [|c1 c2 n1 n2 b e D1 D2 H L S|c1 c2 c3 n1 n2 n3 a b e D1 D2 D3 H L S|c1 c2 c3 c4 n1 n2 n3 n4 a b c s d D1 D2 D3 D4 H _ IH]; intros s' H'; inversion H' as [|c1' c2' m1 m2 b' e' D1' D2' Hq L' S'|c1' c2' c3' m1 m2 m3 a' b' e' D1' D2' D3' Hq L' S'|c1' c2' c3' c4' m1 m2 m3 m4 a' b' c' t d' D1' D2' D3' D4' Hq R']; subst.
  - reflexivity.
  - assert (A1 := digit_lt _ _ D1). assert (A2 := digit_lt _ _ D2). assert (B1 := digit_lt _ _ D1'). assert (B2 := digit_lt _ _ D2'). assert (n1 = m1) by lia. assert (n2 = m2) by lia. subst. rewrite (digit_one _ _ _ D1 D1'), (digit_one _ _ _ D2 D2'). reflexivity.
  - assert (A1 := digit_lt _ _ D1). assert (A2 := digit_lt _ _ D2). assert (A3 := digit_lt _ _ D3). assert (B1 := digit_lt _ _ D1'). assert (B2 := digit_lt _ _ D2'). assert (B3 := digit_lt _ _ D3'). assert (n1 = m1) by lia. assert (n2 = m2) by lia. assert (n3 = m3) by lia. subst. rewrite (digit_one _ _ _ D1 D1'), (digit_one _ _ _ D2 D2'), (digit_one _ _ _ D3 D3'). reflexivity.
  - assert (A1 := digit_lt _ _ D1). assert (A2 := digit_lt _ _ D2). assert (A3 := digit_lt _ _ D3). assert (A4 := digit_lt _ _ D4). assert (B1 := digit_lt _ _ D1'). assert (B2 := digit_lt _ _ D2'). assert (B3 := digit_lt _ _ D3'). assert (B4 := digit_lt _ _ D4'). assert (n1 = m1) by lia. assert (n2 = m2) by lia. assert (n3 = m3) by lia. assert (n4 = m4) by lia. subst. rewrite (digit_one _ _ _ D1 D1'), (digit_one _ _ _ D2 D2'), (digit_one _ _ _ D3 D3'), (digit_one _ _ _ D4 D4'), (IH _ R'). reflexivity.
Qed.

(* ---- hexadecimal ---- *)
Definition hex_nth (l : bytes) (c : byte) (n : nat) : bool := match nth_error l n with Some d => Byte.eqb c d | None => false end.
Lemma hex_nth_iff l c n : hex_nth l c n = true <-> nth_error l n = Some c.
Proof. unfold hex_nth. destruct (nth_error l n) as [d|]; [|split; discriminate]. split; [intros H; apply Byte.byte_dec_bl in H; congruence|intros [= ->]; apply Byte.byte_dec_lb; reflexivity]. Qed.
Lemma hex_check : forall c, forallb (fun n => Bool.eqb (opt_is (unhex c) n) (hex_nth hex_small c n || hex_nth hex_capital c n)) (seq 0 16) && match unhex c with Some m => (m <? 16)%N | None => true end = true.
Proof. intros c. destruct c; vm_compute; reflexivity. Qed.
Lemma hex_is_val c n : hex_is c n <-> unhex c = Some (N.of_nat n).
Proof.
  assert (K := hex_check c). apply andb_prop in K. destruct K as [K1 K2]. rewrite forallb_forall in K1.
  assert (B : hex_is c n <-> hex_nth hex_small c n || hex_nth hex_capital c n = true) by (unfold hex_is; rewrite Bool.orb_true_iff, !hex_nth_iff; reflexivity). rewrite B. split.
  - intros H. assert (L : n < 16). { apply B in H. destruct H as [H|H]; [change 16 with (length hex_small)|change 16 with (length hex_capital)]; apply nth_error_Some; congruence. }
    assert (Q := K1 n (proj2 (in_seq 16 0 n) (conj (Nat.le_0_l n) L))). apply Bool.eqb_prop in Q. rewrite H in Q. unfold opt_is in Q. destruct (unhex c); [|discriminate Q]. apply N.eqb_eq in Q. congruence.
  - intros H. rewrite H in K2. apply N.ltb_lt in K2. assert (L : n < 16) by lia. assert (Q := K1 n (proj2 (in_seq 16 0 n) (conj (Nat.le_0_l n) L))). apply Bool.eqb_prop in Q. unfold opt_is in Q. rewrite H, N.eqb_refl in Q. symmetry. exact Q.
Qed.
Lemma unhex_is c m : unhex c = Some m -> hex_is c (N.to_nat m) /\ (m < 16)%N.
Proof. intros H. split; [apply hex_is_val; rewrite N2Nat.id; exact H|]. assert (K := hex_check c). apply andb_prop in K. destruct K as [_ K]. rewrite H in K. apply N.ltb_lt, K. Qed.
Lemma hex_hexed : forall s d, hex_decode s = Some d <-> hexed hex_is s d.
Proof.
  intros s d. split.
  - revert s d. fix IH 1. intros [|c1 [|c2 r]] d H; [injection H as <-; constructor|discriminate H|]. cbn [hex_decode] in H. destruct (unhex c1) as [x|] eqn:E1; [|discriminate H]. destruct (unhex c2) as [y|] eqn:E2; [|discriminate H]. destruct (hex_decode r) as [t|] eqn:Er; [|discriminate H]. injection H as <-. apply unhex_is in E1, E2. destruct E1 as [D1 L1], E2 as [D2 L2]. eapply hx_byte; [exact D1|exact D2| |apply IH, Er]. clear IH. match goal with |- context [byte_of_N (?k + y)] => change k with (16 * x)%N end. rewrite number_byte by lia. lia.
  - induction 1 as [|c1 c2 n1 n2 b s d D1 D2 E _ IH]; [reflexivity|]. apply hex_is_val in D1, D2. change (hex_decode (c1 :: c2 :: s)) with (match unhex c1, unhex c2, hex_decode s with Some x, Some y, Some t => Some (byte_of_N (16 * x + y) :: t) | _, _, _ => None end). rewrite D1, D2, IH. do 2 f_equal. apply unhex_is in D1, D2. destruct D1 as [_ D1], D2 as [_ D2]. apply number_inj. rewrite number_byte by lia. lia.
Qed.
Lemma hex_digit_small n : (n < 16)%N -> nth_error hex_small (N.to_nat n) = Some (hex_digit n).
Proof. intros H. apply hex_nth_iff. apply (forall_lt_forallb (fun n => hex_nth hex_small (hex_digit n) (N.to_nat n)) 16); [vm_compute; reflexivity|exact H]. Qed.
Lemma encode_hexed d : hexed (fun c n => nth_error hex_small n = Some c) (hex_encode d) d.
Proof.
  induction d as [|b d IH]; [constructor|]. cbn [hex_encode]. assert (B := to_N_bound b). eapply hx_byte; [apply hex_digit_small; lia|apply hex_digit_small; lia|unfold number; lia|exact IH].
Qed.
Lemma hexed_one_text s d : hexed (fun c n => nth_error hex_small n = Some c) s d -> forall s', hexed (fun c n => nth_error hex_small n = Some c) s' d -> s = s'.
Proof.
  assert (L : forall (c : byte) n, nth_error hex_small n = Some c -> n < 16) by (intros c n H; change 16 with (length hex_small); apply nth_error_Some; congruence).
  induction 1 as [|c1 c2 n1 n2 b s d D1 D2 E _ IH]; intros s' H'; inversion H' as [|k1 k2 m1 m2 b' t d' D1' D2' E' R']; subst; [reflexivity|].
  assert (A1 := L _ _ D1). assert (A2 := L _ _ D2). assert (B1 := L _ _ D1'). assert (B2 := L _ _ D2'). assert (n1 = m1) by lia. assert (n2 = m2) by lia. subst. rewrite (IH _ R'). congruence.
Qed.
