(* AstNotProps.v - property theorems C97: what a parser answers for a root token with a
   not-block.  A call of ToAST is [to_ast channels fuel root can script st], ToMistake is
   [to_mistake can t] (see AstProps.v).  AstNotSpec.v defines opened (the grammar with the
   lines of the not-block beside the others) and line_fits (a line of a list reads some
   text at the start of the script); LexSpec.v line_reads. *)
From Coq Require Import Strings.String Strings.Byte.
From Verif Require Import Go GoLemmas DomainModel DomainSpec CardModel CardSpec PatModel PatSpec RuleModel RuleSpec PathModel PathSpec LexModel LexSpec LexProofs3 LexProps AstModel AstSpec AstProofs AstProofs2 AstProofs3 RootSpec AstNotSpec AstNotProofs.
Open Scope list_scope.

(* the not-block is looked at first: if its best line is valid that is the mistake, with
   the index of that line; otherwise the block decides *)
Theorem C97_not_block_first :
  forall channels root nots fuel script st t,
  (forall p, among channels p -> plain p) -> plain (opened root) -> el_not (pa_element root) = Some nots ->
  fst (to_token channels fuel root script st) = Ok t ->
  match tok_content t with
  | None => exists m, to_mistake false t = Ok (Some m) /\ mi_content m = McNoMatch
  | Some (must, None) => (to_mistake false t = Ok None <-> lm_valid must = true) /\ (lm_valid must = false -> exists m, to_mistake false t = Ok (Some m))
  | Some (must, Some n) =>
    if lm_valid n
    then exists m, to_mistake false t = Ok (Some m) /\ mi_content m = McValidNot (lm_index n) /\ mi_container m = PcToken (el_name (pa_element root)) /\ mi_parents m = []
    else (to_mistake false t = Ok None <-> lm_valid must = true) /\ (lm_valid must = false -> exists m, to_mistake false t = Ok (Some m))
  end.
Proof. intros channels root nots fuel script st t Hc Hr Hn. exact (answer_with_not channels Hc root nots Hr Hn fuel script st t). Qed.
Print Assumptions C97_not_block_first.

(* a tree comes from a line of the block, and a mistake about the not-block names the token
   and a line of the not-block that reads text at the start of the script *)
Theorem C97_answers_with_a_not_block :
  forall channels root nots fuel script st a,
  (forall p, among channels p -> plain p) -> plain (opened root) -> el_not (pa_element root) = Some nots ->
  fst (to_ast channels fuel root false script st) = Ok a ->
  match a with
  | ASuccess x =>
      at_name x = el_name (pa_element root) /\
      exists l rest, nth_error (el_must (pa_element root)) (at_line x) = Some l /\ script = at_discovery x ++ rest /\ at_discovery x <> [] /\ line_reads channels True (pa_deps root) true true l script rest
  | AMistake m =>
      forall i, mi_content m = McValidNot i -> mi_container m = PcToken (el_name (pa_element root)) /\ mi_parents m = [] /\ line_fits channels root nots i script
  end.
Proof. intros channels root nots fuel script st a Hc Hr Hn. exact (parser_with_not channels Hc root nots Hr Hn fuel script st a). Qed.
Print Assumptions C97_answers_with_a_not_block.

(* r: .X --- .Z | .X .Y *)
Definition ex_barred : path :=
  ex_path (Element (bs "r") [[ex_one "x"]] (Some [[ex_one "z"]; [ex_one "x"; ex_one "y"]])) [].
Lemma ex_barred_occurs c : occurs_in (opened ex_barred) c -> c = PRule (ex_rule "x") CMandatory \/ c = PRule (ex_rule "y") CMandatory \/ c = PRule (ex_rule "z") CMandatory.
Proof. induction 1 as [c H|n e c H|e sp k c H IH Hd]; [rules; auto|discriminate|destruct IH as [E|[E|E]]; discriminate]. Qed.
Lemma ex_barred_plain : plain (opened ex_barred).
Proof.
  split.
  - intros e [->|[(n & H)|(sp & k & H)]]; [split; [discriminate|reflexivity]|discriminate|]. apply ex_barred_occurs in H. destruct H as [E|[E|E]]; discriminate.
  - intros c H. apply ex_barred_occurs in H. destruct H as [->|[->| ->]]; apply ex_good_rule; discriminate.
Qed.
Example C97_example :
  plain (opened ex_barred) /\
  (exists m, fst (to_ast (always []) 20 ex_barred false (bs "xy") (lst_init false)) = Ok (AMistake m) /\ mi_content m = McValidNot 1) /\
  (exists a, fst (to_ast (always []) 20 ex_barred false (bs "xx") (lst_init false)) = Ok (ASuccess a) /\ at_discovery a = bs "x" /\ at_line a = 0) /\
  (exists m, fst (to_ast (always []) 20 ex_barred false (bs "q") (lst_init false)) = Ok (AMistake m) /\ exists k n, mi_content m = McCardinality k n).
Proof.
  split; [exact ex_barred_plain|]. split; [|split].
  - eexists. split; [vm_compute; reflexivity|reflexivity].
  - eexists. split; [vm_compute; reflexivity|split; reflexivity].
  - eexists. split; [vm_compute; reflexivity|]. eexists _, _. reflexivity.
Qed.
