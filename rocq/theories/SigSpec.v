(* SigSpec.v - what is assumed of the curve, and the vocabulary of the
   signature properties. *)
From Coq Require Import Strings.String Strings.Byte Field_theory.
From Verif Require Import SigModel.

(* The scalars form a field and the multiples of the base point are a copy of
   its additive group.  Nothing is assumed of points that are not multiples of
   the base point (curve25519 has such points). *)
Record curve_laws (C : suite) := {
  szero : scalar C;
  sadd : scalar C -> scalar C -> scalar C;
  sopp : scalar C -> scalar C;
  sinv : scalar C -> scalar C;
  law_field : field_theory szero (sone C) sadd (smul C) (ssub C) sopp (sdiv C) sinv eq;
  law_pmul : forall a b, pmul C a (pmul C b (base C)) = pmul C (smul C a b) (base C);
  law_padd : forall a b, padd C (pmul C a (base C)) (pmul C b (base C)) = pmul C (sadd a b) (base C);
  law_psub : forall a b, psub C (pmul C a (base C)) (pmul C b (base C)) = pmul C (ssub C a b) (base C);
  law_inj : forall a b, pmul C a (base C) = pmul C b (base C) -> a = b;
  law_seqb : forall a b, seqb C a b = true <-> a = b;
  law_peqb : forall a b, peqb C a b = true <-> a = b
}.
Arguments szero {C}.
Arguments sadd {C}.

(* encodings have 32 bytes and can be read back *)
Record codec_laws (C : suite) : Prop := {
  law_senc_len : forall s, length (senc C s) = 32;
  law_sdec : forall s, sdec C (senc C s) = s;
  law_penc_len : forall p, length (penc C p) = 32;
  law_pdec : forall p, pdec C (penc C p) = Some p
}.

(* p is a multiple of the base point *)
Definition multiple_of_base (C : suite) (p : point C) : Prop :=
  exists a, p = pmul C a (base C).

(* H(msg || p) *)
Definition challenge (C : suite) (msg : bytes) (p : point C) : scalar C :=
  hash_scalar C (msg ++ hex_encode (penc C p)).

(* e_0, e_1, ..., e_n with e_0 = e and e_{i+1} = H(msg || s_i.G + e_i.P_i) *)
Definition ring_chain (C : suite) (msg : bytes) (ring : list (point C))
    (ss : list (option (scalar C))) (e : scalar C) (es : nat -> scalar C) : Prop :=
  es 0 = e /\
  forall i p, nth_error ring i = Some p ->
    exists s, nth_error ss i = Some (Some s) /\
      es (S i) = challenge C msg (padd C (pmul C s (base C)) (pmul C (es i) p)).

(* the non-empty pieces of a list text *)
Definition pieces (s : bytes) (l : list bytes) : Prop :=
  exists all, s = join (bs "|") all /\ all <> [] /\ (forall p, In p all -> ~ In "|"%byte p) /\ l = filter (fun p => negb (match p with [] => true | _ => false end)) all.

(* ---- a curve on which the assumptions hold: GF(5), points = scalars ---- *)
Inductive f5 := f0 | f1 | f2 | f3 | f4.
Definition f5n (a : f5) : nat := match a with f0 => 0 | f1 => 1 | f2 => 2 | f3 => 3 | f4 => 4 end.
Definition nf5 (n : nat) : f5 :=
  match n mod 5 with 0 => f0 | 1 => f1 | 2 => f2 | 3 => f3 | _ => f4 end.
Definition f5add a b := nf5 (f5n a + f5n b).
Definition f5mul a b := nf5 (f5n a * f5n b).
Definition f5opp a := nf5 (5 - f5n a).
Definition f5sub a b := f5add a (f5opp b).
Definition f5inv a := f5mul a (f5mul a a).
Definition f5div a b := f5mul a (f5inv b).
Definition f5eqb a b := f5n a =? f5n b.
Definition f5enc (a : f5) : bytes := byte_of_N (N.of_nat (f5n a)) :: repeat x00 31.
Definition f5dec (b : bytes) : f5 := match b with [] => f0 | c :: _ => nf5 (N.to_nat (Byte.to_N c)) end.
Definition toy_hash (b : bytes) : f5 :=
  nf5 (fold_left (fun acc c => (3 * acc + N.to_nat (Byte.to_N c) + 1) mod 5) b 1).
Definition toy_suite : suite := {|
  scalar := f5; point := f5;
  ssub := f5sub; smul := f5mul; sdiv := f5div; sone := f1; seqb := f5eqb;
  base := f2; pmul := f5mul; padd := f5add; psub := f5sub; peqb := f5eqb;
  hash_scalar := toy_hash; senc := f5enc; sdec := f5dec; penc := f5enc;
  pdec := fun b => if length b =? 32 then Some (f5dec b) else None |}.
