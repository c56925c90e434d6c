(* RuleSpec.v - vocabulary of the rule evaluation and table properties. *)
From Coq Require Import Strings.String Strings.Byte.
From Verif Require Import Go DomainModel DomainSpec CardModel CardSpec PatModel PatSpec RuleModel.

(* [r] describes the reading of the start of [t] by the pattern *)
Definition matches_as (p : pattern) (t : bytes) (r : presult) : Prop :=
  exists xs rest left, choices_read (p_list p) t xs rest left /\ xs <> [] /\
    r_input r = t /\ r_disc r = stamps 0 xs /\ leftover rest left (r_rem r) (r_next r).
(* ... by the first listed pattern that can read it *)
Definition first_here (ps : list pattern) (t : bytes) (r : presult) : Prop :=
  exists before p after, ps = before ++ p :: after /\ matches_as p t r /\ forall q, In q before -> ~ matches_here q t.
(* the text a match took *)
Definition taken (r : presult) : bytes := concat (map d_content (r_disc r)).
(* successive matches, each at the very start of the text left by the previous ones *)
Inductive eats (ps : list pattern) : bytes -> list presult -> bytes -> Prop :=
| eats_nil t : eats ps t [] t
| eats_cons t t' r rs rest : first_here ps t r -> t = taken r ++ t' -> eats ps t' rs rest -> eats ps t (r :: rs) rest.
(* k occurrences are within the upper end of the cardinality / reach it *)
Definition at_most (c : cardinality) (k : nat) : Prop := forall m, snd (delimiter c) = Some m -> (N.of_nat k <= m)%N.
Definition full (c : cardinality) (k : nat) : Prop := exists m, snd (delimiter c) = Some m /\ N.of_nat k = m.
(* the repetition goes on as long as it can *)
Definition stuck (ps : list pattern) (t : bytes) : Prop := t = [] \/ forall p, In p ps -> ~ matches_here p t.
(* the upper end fits in a Go int *)
Definition fits (c : cardinality) : Prop := forall m, snd (delimiter c) = Some m -> (m < 2 ^ 63)%N.
(* the matches of a result as a list *)
Definition found (r : rresult) : list presult := match rr_matches r with Some l => l | None => [] end.
(* c occurs in t, first at offset k *)
Definition first_occurrence (c t : bytes) (k : nat) : Prop := first_offset (is_prefix c) t k.
