(* ParseSpec.v - vocabulary of the event manager's properties. *)
From Coq Require Import Strings.String Strings.Byte.
From Verif Require Import Go RuleModel RootModel RootSpec ParseModel.

(* the outcome of the first event, in order, that does not fail on the root *)
Definition first_success {O} (l : list (event O)) (r : root) (v : value O) : Prop :=
  exists a e b, l = a ++ e :: b /\ Forall (fun x : event O => x r Err) a /\ e r (Ok v).
Definition all_fail {O} (l : list (event O)) (r : root) : Prop := Forall (fun x : event O => x r Err) l.
(* events that never panic and always end *)
Definition tame {O} (evs : events O) : Prop :=
  forall n l e r, mlookup evs n = Some l -> In e l -> (exists v, e r (Ok v) \/ e r Err) /\ ~ e r Panic /\ ~ e r NoFuel.
(* what an event's outcome contributes: a result with one element counts as that
   element, one with several as a list *)
Definition elements {O} (v : value O) : list (value O) :=
  match v with
  | VNil => []
  | VResult [x] => match x with VNil => [] | _ => [x] end
  | VResult l => l
  | _ => [v]
  end.
Definition one {O} (v : value O) : value O :=
  match v with
  | VResult [] => VNil
  | VResult [x] => x
  | VResult l => VList l
  | _ => v
  end.
(* the value of a container for the events registered under a name: its text, or the
   outcome of the events on its root *)
Definition container_value {O} (evs : events O) (name : bytes) (c : container) (v : value O) : Prop :=
  match co_root c with
  | None => v = VText (co_content c)
  | Some r => exists l w, mlookup evs name = Some l /\ first_success l r w /\ v = one w
  end.
