(* Base64.v - encoding/base64 StdEncoding as used by
   domain/cryptography/encryption.go:40,45, keys/signature/signature.go:70,
   ringsignature.go:64, adapter.go:20, ringsignature_adapter.go:27 (an external
   library: its documented behaviour is modelled), with its round-trip lemma. *)
From Coq Require Import Strings.String Strings.Byte Lia.
From Verif Require Import GoLemmas.

(* the standard alphabet *)
Definition b64_char (n : N) : byte :=
  byte_of_N (if (n <? 26) then 65 + n
             else if (n <? 52) then 71 + n
             else if (n <? 62) then n - 4
             else if (n =? 62) then 43 else 47)%N.
Definition b64_val (b : byte) : option N :=
  let n := Byte.to_N b in
  if ((65 <=? n) && (n <=? 90))%N then Some (n - 65)%N
  else if ((97 <=? n) && (n <=? 122))%N then Some (n - 71)%N
  else if ((48 <=? n) && (n <=? 57))%N then Some (n + 4)%N
  else if (n =? 43)%N then Some 62%N
  else if (n =? 47)%N then Some 63%N
  else None.

(* EncodeToString: three bytes to four characters, '=' padding *)
Fixpoint b64_encode (s : bytes) : bytes :=
  match s with
  | a :: b :: c :: r =>
    let x := Byte.to_N a in let y := Byte.to_N b in let z := Byte.to_N c in
    b64_char (x / 4) :: b64_char (x mod 4 * 16 + y / 16)
      :: b64_char (y mod 16 * 4 + z / 64) :: b64_char (z mod 64) :: b64_encode r
  | [a; b] =>
    let x := Byte.to_N a in let y := Byte.to_N b in
    [b64_char (x / 4); b64_char (x mod 4 * 16 + y / 16); b64_char (y mod 16 * 4); "="%byte]
  | [a] =>
    let x := Byte.to_N a in
    [b64_char (x / 4); b64_char (x mod 4 * 16); "="%byte; "="%byte]
  | [] => []
  end%N.

(* one byte out of two sextets and so on; trailing bits are ignored (the
   decoder is not Strict) *)
Definition b64_byte1 (x y : N) : byte := byte_of_N ((x * 4 + y / 16) mod 256).
Definition b64_byte2 (y z : N) : byte := byte_of_N ((y * 16 + z / 4) mod 256).
Definition b64_byte3 (z w : N) : byte := byte_of_N ((z * 64 + w) mod 256).

(* DecodeString on text without '\r' and '\n' *)
Fixpoint b64_decode_go (s : bytes) : option bytes :=
  match s with
  | [] => Some []
  | a :: b :: c :: d :: r =>
    match b64_val a, b64_val b with
    | Some x, Some y =>
      match b64_val c with
      | Some z =>
        match b64_val d with
        | Some w =>
          match b64_decode_go r with
          | Some t => Some (b64_byte1 x y :: b64_byte2 y z :: b64_byte3 z w :: t)
          | None => None
          end
        | None =>
          if Byte.eqb d "="%byte then match r with [] => Some [b64_byte1 x y; b64_byte2 y z] | _ => None end
          else None
        end
      | None =>
        if Byte.eqb c "="%byte && Byte.eqb d "="%byte
        then match r with [] => Some [b64_byte1 x y] | _ => None end
        else None
      end
    | _, _ => None
    end
  | _ => None
  end.

(* DecodeString: '\r' and '\n' are skipped wherever they occur *)
Definition not_newline (b : byte) : bool := negb (Byte.eqb b x0d || Byte.eqb b x0a).
Definition b64_decode (s : bytes) : option bytes := b64_decode_go (filter not_newline s).

Lemma N_lt_cases (P : N -> Prop) (n : nat) :
  (forall k, k < n -> P (N.of_nat k)) -> forall x, (x < N.of_nat n)%N -> P x.
Proof. intros H x Hx. rewrite <- (N2Nat.id x). apply H. lia. Qed.

Lemma forall_lt_forallb (f : N -> bool) n :
  forallb (fun k => f (N.of_nat k)) (seq 0 n) = true ->
  forall x, (x < N.of_nat n)%N -> f x = true.
Proof.
  intros H. apply N_lt_cases. intros k Hk. rewrite forallb_forall in H.
  apply (H k). apply in_seq. lia.
Qed.

Lemma b64_val_char n : (n < 64)%N -> b64_val (b64_char n) = Some n.
Proof.
  intros Hn.
  assert (H : (match b64_val (b64_char n) with Some m => N.eqb m n | None => false end) = true).
  { apply (forall_lt_forallb (fun n => match b64_val (b64_char n) with Some m => N.eqb m n | None => false end) 64).
    - vm_compute. reflexivity.
    - exact Hn. }
  destruct (b64_val (b64_char n)); [|discriminate]. f_equal. apply N.eqb_eq. exact H.
Qed.

Lemma b64_char_not_newline n : (n < 64)%N -> not_newline (b64_char n) = true.
Proof.
  apply (forall_lt_forallb (fun n => not_newline (b64_char n)) 64). vm_compute. reflexivity.
Qed.

Lemma div_lt' a b c : (b <> 0 -> a < b * c -> a / b < c)%N.
Proof. intros. apply N.div_lt_upper_bound; lia. Qed.

Lemma byte1_ok x y : (y < 256)%N -> b64_byte1 (Byte.to_N x / 4) (Byte.to_N x mod 4 * 16 + y / 16) = x.
Proof.
  intros Hy. unfold b64_byte1. rewrite <- (byte_of_to_N x) at 3. f_equal.
  pose proof (to_N_bound x). set (n := Byte.to_N x) in *.
  assert (y / 16 < 16)%N by (apply div_lt'; lia).
  rewrite N.div_add_l by lia. rewrite (N.div_small (y/16)) by lia. rewrite N.add_0_r.
  pose proof (N.div_mod n 4). rewrite N.mul_comm. rewrite <- N.div_mod by lia. apply N.mod_small; lia.
Qed.
Lemma byte1_ok0 x : b64_byte1 (Byte.to_N x / 4) (Byte.to_N x mod 4 * 16) = x.
Proof. pose proof (byte1_ok x 0). rewrite N.div_0_l, N.add_0_r in H by lia. apply H. lia. Qed.
Lemma byte2_ok k y z : (k < 4)%N -> (z < 256)%N ->
  b64_byte2 (k * 16 + Byte.to_N y / 16) (Byte.to_N y mod 16 * 4 + z / 64) = y.
Proof.
  intros Hk Hz. unfold b64_byte2. rewrite <- (byte_of_to_N y) at 3. f_equal.
  pose proof (to_N_bound y). set (n := Byte.to_N y) in *.
  assert (z / 64 < 4)%N by (apply div_lt'; lia).
  rewrite N.div_add_l by lia. rewrite (N.div_small (z/64)) by lia. rewrite N.add_0_r.
  replace ((k * 16 + n / 16) * 16 + n mod 16)%N with (n + k * 256)%N.
  - rewrite N.mod_add by lia. apply N.mod_small; lia.
  - pose proof (N.div_mod n 16). lia.
Qed.
Lemma byte2_ok0 k y : (k < 4)%N -> b64_byte2 (k * 16 + Byte.to_N y / 16) (Byte.to_N y mod 16 * 4) = y.
Proof. intros Hk. pose proof (byte2_ok k y 0 Hk). rewrite N.div_0_l, N.add_0_r in H by lia. apply H. lia. Qed.
Lemma byte3_ok k z : (k < 16)%N -> b64_byte3 (k * 4 + Byte.to_N z / 64) (Byte.to_N z mod 64) = z.
Proof.
  intros Hk. unfold b64_byte3. rewrite <- (byte_of_to_N z) at 3. f_equal.
  pose proof (to_N_bound z). set (n := Byte.to_N z) in *.
  replace ((k * 4 + n / 64) * 64 + n mod 64)%N with (n + k * 256)%N.
  - rewrite N.mod_add by lia. apply N.mod_small; lia.
  - pose proof (N.div_mod n 64). lia.
Qed.

Lemma b64_chars_enc s : forallb not_newline (b64_encode s) = true.
Proof.
  revert s. fix IH 1. intros [|a [|b [|c r]]].
  - reflexivity.
  - cbn [b64_encode forallb]. pose proof (to_N_bound a).
    rewrite !b64_char_not_newline; [reflexivity|..].
    + pose proof (N.mod_lt (Byte.to_N a) 4). lia.
    + apply div_lt'; lia.
  - cbn [b64_encode forallb]. pose proof (to_N_bound a). pose proof (to_N_bound b).
    assert (Byte.to_N b / 16 < 16)%N by (apply div_lt'; lia).
    pose proof (N.mod_lt (Byte.to_N a) 4). pose proof (N.mod_lt (Byte.to_N b) 16).
    rewrite !b64_char_not_newline; [reflexivity|..]; try lia.
  - cbn [b64_encode forallb]. pose proof (to_N_bound a). pose proof (to_N_bound b). pose proof (to_N_bound c).
    assert (Byte.to_N b / 16 < 16)%N by (apply div_lt'; lia).
    assert (Byte.to_N c / 64 < 4)%N by (apply div_lt'; lia).
    pose proof (N.mod_lt (Byte.to_N a) 4). pose proof (N.mod_lt (Byte.to_N b) 16). pose proof (N.mod_lt (Byte.to_N c) 64).
    rewrite !b64_char_not_newline; [rewrite (IH r); reflexivity|..]; try lia.
Qed.

Lemma b64_decode_go_encode s : b64_decode_go (b64_encode s) = Some s.
Proof.
  revert s. fix IH 1. intros [|a [|b [|c r]]].
  - reflexivity.
  - cbn [b64_encode b64_decode_go]. pose proof (to_N_bound a).
    pose proof (N.mod_lt (Byte.to_N a) 4).
    rewrite !b64_val_char by first [lia | apply div_lt'; lia].
    cbn [b64_val]. change (b64_val "="%byte) with (@None N). cbn iota.
    change (Byte.eqb "=" "=" && Byte.eqb "=" "=") with true. cbn iota.
    rewrite byte1_ok0. reflexivity.
  - cbn [b64_encode b64_decode_go]. pose proof (to_N_bound a). pose proof (to_N_bound b).
    assert (Byte.to_N b / 16 < 16)%N by (apply div_lt'; lia).
    pose proof (N.mod_lt (Byte.to_N a) 4). pose proof (N.mod_lt (Byte.to_N b) 16).
    rewrite !b64_val_char by first [lia | apply div_lt'; lia].
    change (b64_val "="%byte) with (@None N). cbn iota.
    change (Byte.eqb "=" "=") with true. cbn iota.
    rewrite byte1_ok, byte2_ok0 by lia. reflexivity.
  - cbn [b64_encode b64_decode_go]. pose proof (to_N_bound a). pose proof (to_N_bound b). pose proof (to_N_bound c).
    assert (Byte.to_N b / 16 < 16)%N by (apply div_lt'; lia).
    assert (Byte.to_N c / 64 < 4)%N by (apply div_lt'; lia).
    pose proof (N.mod_lt (Byte.to_N a) 4). pose proof (N.mod_lt (Byte.to_N b) 16). pose proof (N.mod_lt (Byte.to_N c) 64).
    rewrite !b64_val_char by first [lia | apply div_lt'; lia].
    rewrite (IH r). rewrite byte1_ok, byte2_ok, byte3_ok by lia. reflexivity.
Qed.

Lemma filter_all {A} (f : A -> bool) l : forallb f l = true -> filter f l = l.
Proof. induction l as [|x l IH]; cbn; [reflexivity|]. destruct (f x); cbn; [|discriminate]. intros; f_equal; auto. Qed.

Lemma b64_round_trip s : b64_decode (b64_encode s) = Some s.
Proof. unfold b64_decode. rewrite filter_all by apply b64_chars_enc. apply b64_decode_go_encode. Qed.
