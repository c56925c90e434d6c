(* Digits.v - lengths of decimal texts. *)
From Coq Require Import Strings.String Strings.Byte Lia Decimal DecimalN DecimalFacts.
From Verif Require Import GoLemmas.
Local Open Scope N_scope.
Lemma of_uint_acc_lower d : forall acc, N.pos acc * 10 ^ N.of_nat (length (uint_bytes d)) <= N.pos (Pos.of_uint_acc d acc).
Proof.
  induction d as [|d IH|d IH|d IH|d IH|d IH|d IH|d IH|d IH|d IH|d IH]; intros acc; cbn [Pos.of_uint_acc uint_bytes length];
    [cbn; lia | ..];
    rewrite Nat2N.inj_succ, N.pow_succ_r';
    (match goal with |- context [Pos.of_uint_acc _ ?a] => specialize (IH a) end);
    (eapply N.le_trans; [|exact IH]);
    rewrite N.mul_assoc; apply N.mul_le_mono_r; lia.
Qed.

Lemma to_uint_norm n : unorm (N.to_uint n) = N.to_uint n.
Proof. rewrite <- DecimalN.Unsigned.to_of, DecimalN.Unsigned.of_to. reflexivity. Qed.

Lemma unorm_cases d : unorm d = d -> d = D0 Nil \/ nzhead d = d.
Proof. unfold unorm. destruct (nzhead d) eqn:E; intros H; auto. Qed.
Lemma nzhead_len d : (length (uint_bytes (nzhead d)) <= length (uint_bytes d))%nat.
Proof. induction d; cbn; lia. Qed.

Lemma itoa_length n k : n < 10 ^ N.of_nat k -> (0 < k)%nat -> (length (itoa n) <= k)%nat.
Proof.
  intros H Hk. unfold itoa. rewrite <- (DecimalN.Unsigned.of_to n) in H.
  destruct (unorm_cases _ (to_uint_norm n)) as [E|E].
  - rewrite E. cbn. lia.
  - destruct (N.to_uint n) as [|d|d|d|d|d|d|d|d|d|d]; [cbn; lia| | ..].
    { cbn [nzhead] in E. pose proof (nzhead_len d) as L. rewrite E in L. cbn in L. lia. }
    all: cbn [uint_bytes length]; cbn [N.of_uint Pos.of_uint] in H;
      match type of H with N.pos (Pos.of_uint_acc ?x ?a) < _ =>
        pose proof (of_uint_acc_lower x a) as L;
        assert (P : 10 ^ N.of_nat (length (uint_bytes x)) < 10 ^ N.of_nat k) by lia end;
      apply N.pow_lt_mono_r_iff in P; lia.
Qed.

Lemma itoaZ_length z : (- 2 ^ 63 <= z < 2 ^ 63)%Z -> (1 <= length (itoaZ z) <= 20)%nat.
Proof.
  intros H. assert (P : forall n, n <= 2 ^ 63 -> (1 <= length (itoa n) <= 19)%nat).
  { intros n Hn. split.
    - pose proof (uint_bytes_nonempty n). destruct (itoa n); [contradiction|cbn; lia].
    - apply itoa_length; [|lia]. eapply N.le_lt_trans; [exact Hn|]. reflexivity. }
  destruct z as [|p|p]; cbn [itoaZ].
  - cbn. lia.
  - specialize (P (Z.to_N (Z.pos p))). cbn [Z.to_N] in *. assert (length (itoa (N.pos p)) <= 19)%nat by (apply P; lia). 
    specialize (P ltac:(lia)). lia.
  - cbn [length]. specialize (P (N.pos p) ltac:(lia)). lia.
Qed.
Lemma to_int64_range n : (- 2 ^ 63 <= to_int64 n < 2 ^ 63)%Z.
Proof.
  unfold to_int64. pose proof (N.mod_lt n (2^64) ltac:(discriminate)) as H.
  destruct (N.ltb_spec (n mod 2^64) (2^63)); lia.
Qed.
Lemma to_int64_inj a b : a < 2 ^ 64 -> b < 2 ^ 64 -> to_int64 a = to_int64 b -> a = b.
Proof.
  intros Ha Hb. unfold to_int64. rewrite !N.mod_small by assumption.
  destruct (N.ltb_spec a (2^63)), (N.ltb_spec b (2^63)); lia.
Qed.
