(* PathProps.v - property theorem C42: from declared tokens to element trees.
   PathSpec.v defines unfolds (the tree of a token), below (occurrence in a tree),
   refers / refers_alone, good_table, after_calls (the adapter after earlier ToPath calls). *)
From Coq Require Import Strings.String Strings.Byte.
From Verif Require Import GoLemmas DomainModel DomainSpec CardModel PatModel RuleModel PathModel PathSpec PathProofs.

(* never endless, never a panic; the stack of tokens being expanded is empty again, also after an error *)
Theorem C42_always_answers :
  forall T nf rp ts t,
  good_table T -> Forall (fun t => token_ok t = true) ts -> token_ok t = true ->
  let out := to_path T nf rp (after_calls T nf rp ts) t in
  (fst out = Err \/ exists p, fst out = Ok p) /\ ps_stack (snd out) = [].
Proof. exact @path_always_answers. Qed.
Print Assumptions C42_always_answers.

Theorem C42_history_independent :
  forall T nf rp ts t,
  good_table T -> Forall (fun t => token_ok t = true) ts -> token_ok t = true ->
  fst (to_path T nf rp (after_calls T nf rp ts) t) = fst (to_path T nf rp pstate_init t).
Proof. exact @path_history_independent. Qed.
Print Assumptions C42_history_independent.

Theorem C42_element_is_the_unfolding :
  forall T nf rp ts t p,
  good_table T -> Forall (fun t => token_ok t = true) ts -> token_ok t = true ->
  fst (to_path T nf rp (after_calls T nf rp ts) t) = Ok p -> exists ext, unfolds (table_all T) nf rp [] t (pa_element p) ext.
Proof. exact @path_element_exact. Qed.
Print Assumptions C42_element_is_the_unfolding.

Theorem C42_unfolding_is_unique :
  forall T nf rp t e e' ext ext',
  good_table T -> token_ok t = true ->
  unfolds (table_all T) nf rp [] t e ext -> unfolds (table_all T) nf rp [] t e' ext' -> e = e' /\ ext = ext'.
Proof. exact @unfolding_unique. Qed.
Print Assumptions C42_unfolding_is_unique.

(* an undeclared reference, or a line made only of a reference to its own token, anywhere in the table *)
Theorem C42_fails_exactly_when :
  forall T ts t,
  good_table T -> Forall (fun t => token_ok t = true) ts -> token_ok t = true ->
  (fst (to_path T none none (after_calls T none none ts) t) = Err <->
   (exists u n, (u = t \/ In u (table_all T)) /\ refers u n /\ ~ is_declared (table_all T) n) \/
   (exists u, In u (table_all T) /\ refers_alone u (t_name u))).
Proof. exact @path_fails_exactly. Qed.
Print Assumptions C42_fails_exactly_when.

Theorem C42_no_token_expanded_twice :
  forall T ts t p names c,
  good_table T -> Forall (fun t => token_ok t = true) ts -> token_ok t = true ->
  fst (to_path T none none (after_calls T none none ts) t) = Ok p -> below (pa_element p) names c ->
  NoDup names /\ (forall n, In n names -> is_declared (table_all T) n) /\
  match c with
  | PRec n _ _ => In n names
  | PToken e _ _ => ~ In (el_name e) names /\ is_declared (table_all T) (el_name e)
  | PRule _ _ => True
  | PLines _ => False
  end.
Proof. exact @path_no_repeat. Qed.
Print Assumptions C42_no_token_expanded_twice.

Theorem C42_dependencies_exactly :
  forall T ts t p n e,
  good_table T -> Forall (fun t => token_ok t = true) ts -> token_ok t = true ->
  fst (to_path T none none (after_calls T none none ts) t) = Ok p ->
  (dep_fetch (pa_deps p) n = Ok e <->
   (n = t_name t /\ e = pa_element p) \/
   (n <> t_name t /\ exists u, In u (table_all T) /\ t_name u = n /\ unfolds (table_all T) none none [] u e [])).
Proof. exact @path_fetch. Qed.
Print Assumptions C42_dependencies_exactly.

Theorem C42_recursive_references_resolve :
  forall T ts t p names n specs card,
  good_table T -> Forall (fun t => token_ok t = true) ts -> token_ok t = true ->
  fst (to_path T none none (after_calls T none none ts) t) = Ok p -> below (pa_element p) names (PRec n specs card) ->
  exists e, dep_fetch (pa_deps p) n = Ok e /\ el_name e = n.
Proof. exact @path_rec_resolves. Qed.
Print Assumptions C42_recursive_references_resolve.

Definition ex_ref (n : bytes) : tinstr := TElem {| te_content := TRef {| tr_name := n; tr_specs := None |}; te_card := None |}.
Definition ex_rule : rule := {| rl_name := bs "X"; rl_code := bs "x"; rl_content := RConstant (bs "x") |}.
Definition ex_use : tinstr := TElem {| te_content := TRule ex_rule; te_card := Some CNonZero |}.
Definition ex_table (l : list token) : table token :=
  match unique_table_now t_name (Some l) with Ok t => t | _ => ([], []) end.
(* a: .X+ .b | .X+   b: .a .X+ | .b .a *)
Definition ex_a : token := {| t_name := bs "a"; t_must := [[ex_use; TSwitch; ex_ref (bs "b")]; [ex_use]]; t_not := None |}.
Definition ex_b : token := {| t_name := bs "b"; t_must := [[ex_ref (bs "a"); ex_use]; [ex_ref (bs "b"); ex_ref (bs "a")]]; t_not := None |}.
Example C42_example : good_table (ex_table [ex_a; ex_b]) /\
  match fst (to_path (ex_table [ex_a; ex_b]) none none pstate_init ex_a) with
  | Ok p => below (pa_element p) [bs "b"] (PRec (bs "b") [] CMandatory)
  | _ => False
  end.
Proof.
  split.
  - split; [exists [LWithList (Some [ex_a; ex_b])]; reflexivity|]. repeat constructor.
  - vm_compute. refine (below_deeper _ (Element (bs "b") _ _) _ _ [] _ _ _).
    + left. eexists. split; [left; reflexivity|]. right. right. left. reflexivity.
    + apply below_here. left. eexists. split; [right; left; reflexivity|]. left. reflexivity.
Qed.
(* tokens that can never end are accepted when the recursion is mutual: a: .b   b: .a *)
Theorem C42_endless_recursion_rejected_refuted :
  exists T t p, good_table T /\ In t (table_all T) /\ fst (to_path T none none pstate_init t) = Ok p /\
    (forall u l i, In u (table_all T) -> In l (all_lines u) -> In i l -> exists e r, i = TElem e /\ te_content e = TRef r).
Proof.
  pose (l := [{| t_name := bs "a"; t_must := [[ex_ref (bs "b")]]; t_not := None |}; {| t_name := bs "b"; t_must := [[ex_ref (bs "a")]]; t_not := None |}]).
  exists (ex_table l).
  exists {| t_name := bs "a"; t_must := [[ex_ref (bs "b")]]; t_not := None |}. eexists. split; [|split; [|split; [vm_compute; reflexivity|]]].
  - split; [exists [LWithList (Some l)]; reflexivity|]. repeat constructor.
  - left. reflexivity.
  - intros u x i [<-|[<-|[]]] [<-|[]] [<-|[]]; eexists _, _; split; reflexivity.
Qed.
Print Assumptions C42_endless_recursion_rejected_refuted.
