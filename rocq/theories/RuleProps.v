(* RuleProps.v - property theorems C35 (rule evaluation) and C36 (tables by name).
   RuleSpec.v defines eats (successive matches), at_most, full, stuck, first_occurrence. *)
From Coq Require Import Strings.String Strings.Byte.
From Verif Require Import GoLemmas DomainModel DomainSpec CardModel CardSpec PatModel PatSpec RuleModel RuleSpec RuleProofs.

(* ---- C35 evaluation of a rule ---- *)
(* the result is the longest run of successive matches the cardinality allows, and nothing else *)
Theorem C35_pattern_rule_exactly :
  forall r script ps c o,
  rule_ok r = true -> rl_content r = RPattern ps c -> fits c ->
  (to_result r script = Ok o <->
   rr_input o = r /\ rr_matches o <> Some [] /\
   exists rest, eats ps script (found o) rest /\ at_most c (length (found o)) /\ (full c (length (found o)) \/ stuck ps rest)).
Proof. exact @pattern_rule_exact. Qed.
Print Assumptions C35_pattern_rule_exactly.

(* no error, panic or endless loop *)
Theorem C35_pattern_rule_always_answers :
  forall r script ps c,
  rule_ok r = true -> rl_content r = RPattern ps c -> fits c -> exists o, to_result r script = Ok o.
Proof. exact @pattern_rule_total. Qed.
Print Assumptions C35_pattern_rule_always_answers.

Theorem C35_pattern_rule_prefix_within_maximum :
  forall r script ps c o,
  rule_ok r = true -> rl_content r = RPattern ps c -> fits c ->
  to_result r script = Ok o -> is_prefix (rr_content o) script /\ at_most c (rr_amount o).
Proof. exact @pattern_rule_prefix. Qed.
Print Assumptions C35_pattern_rule_prefix_within_maximum.

(* the first occurrence anywhere in the script, at most once *)
Theorem C35_constant_rule_exactly :
  forall r script c o,
  rl_content r = RConstant c -> c <> [] ->
  (to_result r script = Ok o <->
   rr_input o = r /\
   ((exists k, first_occurrence c script k /\
       rr_matches o = Some [{| r_input := script; r_disc := [stamp k (c, CGroup {| g_name := c; g_list := [c] |})];
                               r_rem := skipn (length c) script; r_next := None |}]) \/
    ((forall k, k < length script -> ~ is_prefix c (skipn k script)) /\ rr_matches o = None))).
Proof. exact @constant_rule_exact. Qed.
Print Assumptions C35_constant_rule_exactly.

Theorem C35_constant_rule_always_answers :
  forall r script c,
  rl_content r = RConstant c -> c <> [] -> exists o, to_result r script = Ok o.
Proof. exact @constant_rule_total. Qed.
Print Assumptions C35_constant_rule_always_answers.

(* an empty constant is never found (such a rule cannot come from the rule builder) *)
Theorem C35_empty_constant_never_found :
  forall r script o, rl_content r = RConstant [] -> (to_result r script = Ok o <-> rr_input o = r /\ rr_matches o = None).
Proof.
  intros r script o E. unfold to_result. rewrite E. split; [intros [= <-]; split; reflexivity|]. destruct o as [i m]. cbn. intros [-> ->]. reflexivity.
Qed.
Print Assumptions C35_empty_constant_never_found.

(* a constant rule may find its constant past the start: its content is not a prefix *)
Theorem C35_constant_prefix_refuted : exists r script o, rule_ok r = true /\ to_result r script = Ok o /\ ~ is_prefix (rr_content o) script.
Proof.
  exists {| rl_name := bs "R"; rl_code := bs "r"; rl_content := RConstant (bs "b") |}, (bs "ab").
  eexists. split; [reflexivity|]. split; [reflexivity|]. vm_compute. intros [s E]. discriminate.
Qed.
Print Assumptions C35_constant_prefix_refuted.

(* int(max) wraps: a maximum of 2^63 or more allows no match although it denotes a large interval *)
Theorem C35_huge_maximum_matches_nothing :
  forall r script ps c m,
  rl_content r = RPattern ps c -> snd (delimiter c) = Some m -> (2 ^ 63 <= m < 2 ^ 64)%N ->
  to_result r script = Ok {| rr_input := r; rr_matches := None |}.
Proof. exact @huge_maximum. Qed.
Print Assumptions C35_huge_maximum_matches_nothing.

Definition ex_group : group := {| g_name := bs "v"; g_list := [bs "a"; bs "bb"] |}.
Definition ex_pattern : pattern := {| p_name := bs "P"; p_list := [{| ch_serie := {| s_name := bs "S"; s_list := [ex_group] |}; ch_reverse := false |}] |}.
Definition ex_rule (c : cardinality) : rule := {| rl_name := bs "R"; rl_code := bs "r"; rl_content := RPattern [ex_pattern] c |}.
Example C35_example : rule_ok (ex_rule CNonZero) = true /\ fits (CSpecific (SRange 1 (Some 2%N))) /\
  bind (to_result (ex_rule CNonZero) (bs "abbaxa")) (fun o => Ok (rr_content o, rr_amount o)) = Ok (bs "abba", 3) /\
  bind (to_result (ex_rule (CSpecific (SRange 1 (Some 2%N)))) (bs "abbaxa")) (fun o => Ok (rr_content o, rr_amount o)) = Ok (bs "abb", 2) /\
  bind (to_result (ex_rule CNonZero) (bs "xabba")) (fun o => Ok (rr_content o, rr_amount o)) = Ok ([], 0).
Proof. split; [reflexivity|]. split; [intros m E; injection E as <-; reflexivity|]. split; [|split]; vm_compute; reflexivity. Qed.

(* ---- C36 tables ---- *)
(* rules and tokens tables, after any history of calls on their builder *)
Theorem C36_unique_table_built_exactly_when :
  forall A (name : A -> bytes) ops,
  (exists t, unique_table_now name (run list_step None ops) = Ok t) <->
  exists l, last_list ops = Some l /\ l <> [] /\ NoDup (map name l).
Proof. exact @unique_table_built. Qed.
Print Assumptions C36_unique_table_built_exactly_when.

Theorem C36_unique_table_finds_exactly :
  forall A (name : A -> bytes) ops t,
  unique_table_now name (run list_step None ops) = Ok t ->
  last_list ops = Some (table_all t) /\ table_all t <> [] /\ NoDup (map name (table_all t)) /\
  forall k y, table_find t k = Ok y <-> (In y (table_all t) /\ name y = k).
Proof. exact @unique_table_exact. Qed.
Print Assumptions C36_unique_table_finds_exactly.

Theorem C36_unique_table_unknown_name :
  forall A (name : A -> bytes) ops t k,
  unique_table_now name (run list_step None ops) = Ok t ->
  (table_find t k = Err <-> forall y, In y (table_all t) -> name y <> k).
Proof. exact @unique_find_unknown. Qed.
Print Assumptions C36_unique_table_unknown_name.

(* patterns, groups and specifiers tables accept duplicate names *)
Theorem C36_last_wins_table_built_exactly_when :
  forall A (name : A -> bytes) ops,
  (exists t, last_table_now name (run list_step None ops) = Ok t) <-> exists l, last_list ops = Some l /\ l <> [].
Proof. exact @last_table_built. Qed.
Print Assumptions C36_last_wins_table_built_exactly_when.

Theorem C36_last_wins_table_finds_the_last :
  forall A (name : A -> bytes) ops t k y,
  last_table_now name (run list_step None ops) = Ok t ->
  last_list ops = Some (table_all t) /\
  (table_find t k = Ok y <-> exists before after, table_all t = before ++ y :: after /\ name y = k /\ forall z, In z after -> name z <> k).
Proof. exact @last_table_exact. Qed.
Print Assumptions C36_last_wins_table_finds_the_last.

Example C36_example :
  let ops := [LWithList (Some [bs "x"; bs "y"; bs "x"]); LNow; LCreate; LWithList (Some [bs "x"; bs "y"])] in
  (exists t, unique_table_now (fun x : bytes => x) (run list_step None ops) = Ok t /\ table_find t (bs "y") = Ok (bs "y") /\ table_find t (bs "z") = Err) /\
  unique_table_now (fun x : bytes => x) (run list_step None (firstn 1 ops)) = Err /\
  (exists t, last_table_now (fun x : bytes => x) (run list_step None (firstn 1 ops)) = Ok t).
Proof. split; [eexists; repeat split; reflexivity|]. split; [reflexivity|]. eexists. reflexivity. Qed.
