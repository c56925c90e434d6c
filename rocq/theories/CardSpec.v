(* CardSpec.v - vocabulary of the cardinality properties. *)
From Coq Require Import Strings.String Strings.Byte.
From Verif Require Import Go DomainModel DomainSpec CardModel Utf8Spec.

(* the set of amounts a cardinality denotes *)
Definition denotes (c : cardinality) (n : N) : Prop :=
  match c with
  | COptional => n = 0 \/ n = 1
  | CMandatory => n = 1
  | CNonZero => n <> 0
  | CZero => True
  | CSpecific (SAmount k) => n = k
  | CSpecific (SRange a (Some b)) => a <= n <= b
  | CSpecific (SRange a None) => a <= n
  end%N.

(* the interval with these ends (None: no upper end) *)
Definition interval (ends : N * option N) (n : N) : Prop :=
  (fst ends <= n)%N /\ match snd ends with Some m => (n <= m)%N | None => True end.

(* the text of an integer, as strconv.Atoi accepts it, and its uint value *)
Definition integer (t : bytes) (n : N) : Prop := exists z, atoi t = Some z /\ n = to_uint64 z.

(* the grammar of specific cardinalities inside the optional braces *)
Inductive card_body : bytes -> specific -> Prop :=
| body_amount t n : integer t n -> n <> 0%N -> card_body t (SAmount n)
| body_from a min sp : integer a min -> white_text sp -> card_body (a ++ bs "," ++ sp) (SRange min None)
| body_range a min b t max : integer a min -> trimmed b t -> integer t max ->
    card_body (a ++ bs "," ++ b) (SRange min (Some max)).
(* with the optional braces *)
Definition specific_text (t : bytes) (s : specific) : Prop :=
  exists l body r, (l = bs "{" \/ l = []) /\ (r = bs "}" \/ r = []) /\ t = l ++ body ++ r /\ card_body body s.
Inductive card_text : bytes -> cardinality -> Prop :=
| text_plus : card_text (bs "+") CNonZero
| text_star : card_text (bs "*") CZero
| text_opt : card_text (bs "?") COptional
| text_specific t s : specific_text t s -> card_text t (CSpecific s).

(* with white space around *)
Definition cardinality_text (s : bytes) (c : cardinality) : Prop := exists t, trimmed s t /\ card_text t c.

(* calls made since the last Create *)
Definition cb_is_create (o : cb_op) : bool := match o with CBCreate => true | _ => false end.
Definition cb_called (f : cb_op -> bool) (ops : list cb_op) : Prop :=
  last_call cb_is_create (fun o => if f o then Some (Some tt) else None) ops = Some tt.
Definition last_cb_specific : list cb_op -> option specific :=
  last_call cb_is_create (fun o => match o with CBWithSpecific v => Some v | _ => None end).
Definition op_optional (o : cb_op) : bool := match o with CBIsOptional => true | _ => false end.
Definition op_mandatory (o : cb_op) : bool := match o with CBIsMandatory => true | _ => false end.
Definition op_nonzero (o : cb_op) : bool := match o with CBIsNonZeroMultiple => true | _ => false end.
Definition op_zero (o : cb_op) : bool := match o with CBIsZeroMultiple => true | _ => false end.

Definition sp_is_create (o : sp_op) : bool := match o with SPCreate => true | _ => false end.
Definition last_sp_amount : list sp_op -> option N :=
  last_call sp_is_create (fun o => match o with SPWithAmount v => Some (Some v) | _ => None end).
Definition last_sp_range : list sp_op -> option (N * option N) :=
  last_call sp_is_create (fun o => match o with SPWithRange v => Some v | _ => None end).
Definition rg_is_create (o : rg_op) : bool := match o with RGCreate => true | _ => false end.
Definition last_rg_min : list rg_op -> option N :=
  last_call rg_is_create (fun o => match o with RGWithMinimum v => Some (Some v) | _ => None end).
Definition last_rg_max : list rg_op -> option N :=
  last_call rg_is_create (fun o => match o with RGWithMaximum v => Some (Some v) | _ => None end).
