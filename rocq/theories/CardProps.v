(* CardProps.v - property theorems C28-C30: cardinalities.
   CardSpec.v defines denotes (the set of amounts), interval, card_text (the grammar). *)
From Coq Require Import Strings.String Strings.Byte.
From Verif Require Import GoLemmas DomainModel DomainSpec CardModel CardSpec Utf8Spec TrimProofs CardProofs.

(* ---- C28 meaning ---- *)
Theorem C28_is_valid_exactly_denoted :
  forall c n,
  is_valid c n = true <-> denotes c n.
Proof. exact @is_valid_denotes. Qed.
Print Assumptions C28_is_valid_exactly_denoted.

Theorem C28_delimiter_is_the_interval :
  forall c n,
  interval (delimiter c) n <-> denotes c n.
Proof. exact @delimiter_interval. Qed.
Print Assumptions C28_delimiter_is_the_interval.

Theorem C28_specific_is_valid :
  forall s n,
  specific_is_valid s n = true <-> denotes (CSpecific s) n.
Proof. exact @specific_is_valid_denotes. Qed.
Print Assumptions C28_specific_is_valid.

(* precedence of the builder flags *)
Theorem C28_builder_exactly :
  forall ops c,
  cb_now (run cb_step cb_init ops) = Ok c <->
  match c with
  | COptional => cb_called op_optional ops
  | CMandatory => cb_called op_mandatory ops /\ ~ cb_called op_optional ops
  | CNonZero => cb_called op_nonzero ops /\ ~ cb_called op_optional ops /\ ~ cb_called op_mandatory ops
  | CZero => cb_called op_zero ops /\ ~ cb_called op_optional ops /\ ~ cb_called op_mandatory ops /\ ~ cb_called op_nonzero ops
  | CSpecific s => last_cb_specific ops = Some s /\ ~ cb_called op_optional ops /\ ~ cb_called op_mandatory ops
                   /\ ~ cb_called op_nonzero ops /\ ~ cb_called op_zero ops
  end.
Proof. exact @cb_exact. Qed.
Print Assumptions C28_builder_exactly.

Theorem C28_specific_builder_exactly :
  forall ops s,
  sp_now (run sp_step sp_init ops) = Ok s <->
  match s with
  | SAmount n => last_sp_amount ops = Some n /\ (0 < n)%N
  | SRange min max => last_sp_amount ops = None /\ last_sp_range ops = Some (min, max)
  end.
Proof. exact @sp_exact. Qed.
Print Assumptions C28_specific_builder_exactly.

Theorem C28_range_builder_never_fails :
  forall ops r,
  rg_now (run rg_step rg_init ops) = Ok r <->
  r = (match last_rg_min ops with Some n => n | None => 0%N end, last_rg_max ops).
Proof. exact @rg_exact. Qed.
Print Assumptions C28_range_builder_never_fails.

(* a range with minimum above maximum is built, and no amount satisfies it *)
Theorem C28_satisfiable_refuted :
  exists ops rops r s c,
  rg_now (run rg_step rg_init rops) = Ok r /\ sp_now (run sp_step sp_init [SPWithRange (Some r)]) = Ok s /\
  ops = [CBWithSpecific (Some s)] /\ cb_now (run cb_step cb_init ops) = Ok c /\ forall n, is_valid c n = false.
Proof. exact @empty_range_built. Qed.
Print Assumptions C28_satisfiable_refuted.

Example C28_example : is_valid (CSpecific (SRange 2 (Some 4%N))) 4 = true /\ is_valid (CSpecific (SRange 2 (Some 4%N))) 5 = false
  /\ is_valid CNonZero 0 = false /\ is_valid COptional 1 = true /\ is_valid COptional 2 = false.
Proof. repeat split. Qed.
Example C28_example_builder : cb_now (run cb_step cb_init [CBIsZeroMultiple; CBIsNonZeroMultiple; CBNow]) = Ok CNonZero
  /\ cb_now (run cb_step cb_init [CBIsZeroMultiple; CBCreate]) = Err.
Proof. split; reflexivity. Qed.

(* ---- C29 round trip ---- *)
Theorem C29_text_round_trip :
  forall c,
  c <> CMandatory -> c <> CSpecific (SAmount 0) -> below (2 ^ 63) c ->
  exists t, to_pattern_string c = Ok t /\ to_cardinality t = Ok c.
Proof. exact @card_round_trip. Qed.
Print Assumptions C29_text_round_trip.

Theorem C29_mandatory_text_panics : to_pattern_string CMandatory = Panic.
Proof. reflexivity. Qed.
Print Assumptions C29_mandatory_text_panics.

(* no builder makes {0}, but its text is not accepted back *)
Theorem C29_zero_amount_round_trip_refuted :
  to_pattern_string (CSpecific (SAmount 0)) = Ok (bs "{0}") /\ to_cardinality (bs "{0}") = Err.
Proof. exact @card_zero_amount. Qed.
Print Assumptions C29_zero_amount_round_trip_refuted.

Example C29_example : below (2 ^ 63) (CSpecific (SRange 2 (Some 40%N))) /\
  to_pattern_string (CSpecific (SRange 2 (Some 40%N))) = Ok (bs "{2,40}") /\
  to_pattern_string (CSpecific (SRange 2 None)) = Ok (bs "{2,}").
Proof. repeat split. Qed.

(* ---- C30 grammar ---- *)
Theorem C30_accepts_exactly_the_grammar :
  forall s c,
  to_cardinality s = Ok c <-> cardinality_text s c.
Proof. exact @to_cardinality_exact. Qed.
Print Assumptions C30_accepts_exactly_the_grammar.
(* white space is that of Unicode, and what is trimmed is not ambiguous *)
Theorem C30_trimmed_is_unique : forall s t t', trimmed s t -> trimmed s t' -> t = t'.
Proof. intros s t t' H H'. apply trim_space_iff in H, H'. congruence. Qed.
Print Assumptions C30_trimmed_is_unique.
(* the specific part alone, of a text without white space around it *)
Theorem C30_specific_exactly : forall t s, trimmed t t -> (to_specific t = Ok s <-> specific_text t s).
Proof. exact to_specific_exact. Qed.
Print Assumptions C30_specific_exactly.

(* never a panic *)
Theorem C30_otherwise_error :
  forall s,
  to_cardinality s = Err \/ exists c, to_cardinality s = Ok c.
Proof. exact @to_cardinality_total. Qed.
Print Assumptions C30_otherwise_error.

Theorem C30_negative_rejected_refuted :
  to_cardinality (bs "{-1}") = Ok (CSpecific (SAmount (2 ^ 64 - 1))).
Proof. exact @card_negative. Qed.
Print Assumptions C30_negative_rejected_refuted.

(* ToSpecific alone does not accept leading spaces before the brace *)
Theorem C30_specific_trims_refuted :
  to_specific (bs "{3}") = Ok (SAmount 3) /\ to_specific (bs " {3}") = Err.
Proof. exact @to_specific_untrimmed. Qed.
Print Assumptions C30_specific_trims_refuted.

(* a no-break space, an ideographic space, and a byte that is no UTF-8 *)
Example C30_example_wide : map to_cardinality [[xc2; xa0] ++ bs "+" ++ [xe3; x80; x80]; bs "{3," ++ [xe2; x80; x89] ++ bs "5}"; bs "+" ++ [xa0]]
  = [Ok CNonZero; Ok (CSpecific (SRange 3 (Some 5%N))); Err].
Proof. reflexivity. Qed.
Example C30_example : map to_cardinality [bs " + "; bs "{3}"; bs "3"; bs "{3"; bs "3,"; bs "{3, 5 }"; bs "{ 3}"; bs "{,3}"; bs "{1,2,3}"; bs "{0}"; bs ""; bs "{}"]
  = [Ok CNonZero; Ok (CSpecific (SAmount 3)); Ok (CSpecific (SAmount 3)); Ok (CSpecific (SAmount 3)); Ok (CSpecific (SRange 3 None));
     Ok (CSpecific (SRange 3 (Some 5%N))); Err; Err; Err; Err; Err; Err].
Proof. reflexivity. Qed.
