(* ParseProps.v - property theorems C46 and C67: the event manager.
   Execute, Trigger and the application's Execute are the relations execute, trigger and
   app_execute between their arguments and every possible outcome (ParseModel.v).
   ParseSpec.v defines first_success, all_fail, elements (what an outcome contributes)
   and container_value. *)
From Coq Require Import Strings.String Strings.Byte Sorting.Permutation.
From Verif Require Import Go GoLemmas PatModel RuleModel AstModel RootModel RootSpec RootProofs RootProofs2 RootProps ParseModel ParseSpec ParseProofs.
Open Scope list_scope.

(* ---- C46: Execute ---- *)
Theorem C46_execute_exactly :
  forall O (evs : events O) r o,
  execute evs r o <->
  (exists l v, mlookup evs (ro_name r) = Some l /\ first_success l r v /\ o = match elements v with [] => Err | x => Ok (VResult x) end) \/
  (o = Err /\ (mlookup evs (ro_name r) = None \/ exists l, mlookup evs (ro_name r) = Some l /\ all_fail l r)) \/
  (o = Panic /\ exists l a e b, mlookup evs (ro_name r) = Some l /\ l = a ++ e :: b /\ all_fail a r /\ e r Panic).
Proof. exact @execute_iff. Qed.
Print Assumptions C46_execute_exactly.

Theorem C46_deterministic_events_one_answer :
  forall O (evs : events O) r l v,
  mlookup evs (ro_name r) = Some l -> first_success l r v -> (forall n e, nth_error l n = Some e -> forall o o', e r o -> e r o' -> o = o') -> forall o, execute evs r o -> o = match elements v with [] => Err | x => Ok (VResult x) end.
Proof. exact @execute_single_answer. Qed.
Print Assumptions C46_deterministic_events_one_answer.

Theorem C46_application_returns_the_first :
  forall O (evs : events O) r v,
  app_execute evs r (Ok v) -> exists l w x rest, mlookup evs (ro_name r) = Some l /\ first_success l r w /\ elements w = x :: rest /\ v = x.
Proof. exact @app_first. Qed.
Print Assumptions C46_application_returns_the_first.

(* events: the first fails on everything, the second gives a list, the third is not run *)
Definition ex_failing : event N := fun _ o => o = Err.
Definition ex_constant (v : value N) : event N := fun _ o => o = Ok v.
Definition ex_events : events N := [(bs "r", [ex_failing; ex_constant (VResult [VObj 1%N; VObj 2%N]); ex_constant (VObj 3%N)])].
Example C46_example : execute ex_events ex_root (Ok (VResult [VObj 1%N; VObj 2%N])) /\ forall o, execute ex_events ex_root o -> o = Ok (VResult [VObj 1%N; VObj 2%N]).
Proof.
  assert (F : first_success [ex_failing; ex_constant (VResult [VObj 1%N; VObj 2%N]); ex_constant (VObj 3%N)] ex_root (VResult [VObj 1%N; VObj 2%N])).
  { exists [ex_failing], (ex_constant (VResult [VObj 1%N; VObj 2%N])), [ex_constant (VObj 3%N)]. split; [reflexivity|]. split; [constructor; [reflexivity|constructor]|reflexivity]. }
  split.
  - apply execute_iff. left. eexists _, _. split; [reflexivity|]. split; [exact F|reflexivity].
  - intros o H. apply (execute_single_answer ex_events ex_root _ (VResult [VObj 1%N; VObj 2%N]) eq_refl F); [|exact H]. intros [|[|[|[|n]]]] e E; inversion E; subst; unfold ex_failing, ex_constant; congruence.
Qed.
(* the application's Execute drops all but the first element of a list *)
Theorem C46_application_returns_everything_refuted :
  exists (evs : events N) r, execute evs r (Ok (VResult [VObj 1%N; VObj 2%N])) /\ app_execute evs r (Ok (VObj 1%N)) /\ forall v, app_execute evs r (Ok v) -> v = VObj 1%N.
Proof.
  exists ex_events, ex_root. split; [apply C46_example|]. split; [apply (ae_some ex_events ex_root (Ok (VResult [VObj 1%N; VObj 2%N]))); [discriminate|apply C46_example]|].
  intros v H. inversion H as [|o Ne He E]; subst. apply C46_example in He. subst o. cbn in E. congruence.
Qed.
Print Assumptions C46_application_returns_everything_refuted.
(* an event that succeeds with nil stops the search: later events are not tried *)
Theorem C46_nil_falls_through_refuted :
  exists (evs : events N) r l e, mlookup evs (ro_name r) = Some l /\ In e l /\ e r (Ok (VObj 1%N)) /\ forall o, execute evs r o -> o = Err.
Proof.
  exists [(bs "r", [ex_constant VNil; ex_constant (VObj 1%N)])], ex_root, [ex_constant VNil; ex_constant (VObj 1%N)], (ex_constant (VObj 1%N)). split; [reflexivity|]. split; [right; left; reflexivity|]. split; [reflexivity|].
  intros o H. apply (execute_single_answer [(bs "r", [ex_constant VNil; ex_constant (VObj 1%N)])] ex_root [ex_constant VNil; ex_constant (VObj 1%N)] VNil eq_refl); [|intros [|[|n]] e E; [| |destruct n; discriminate]; inversion E; subst; unfold ex_constant; congruence|exact H]. exists [], (ex_constant VNil), [ex_constant (VObj 1%N)]. split; [reflexivity|]. split; [constructor|reflexivity].
Qed.
Print Assumptions C46_nil_falls_through_refuted.

(* ---- C67: Trigger on the root of a syntax tree ---- *)
Theorem C67_one_value_per_container :
  forall O t s r (evs : events O) name l,
  fst (to_root t s) = Ok (Some r) ->
  trigger evs name r (Ok (VResult l)) <-> exists n, scan_nodes name (ro_nodes r) (SFound (FNode n)) /\ Forall2 (container_value evs name) (no_list n) l.
Proof. exact @trigger_values. Qed.
Print Assumptions C67_one_value_per_container.

Theorem C67_success_is_a_list :
  forall O t s r (evs : events O) name v,
  fst (to_root t s) = Ok (Some r) -> trigger evs name r (Ok v) -> exists l, v = VResult l /\ l <> [].
Proof. exact @trigger_shape. Qed.
Print Assumptions C67_success_is_a_list.

Theorem C67_failure_is_explained :
  forall O t s r (evs : events O) name,
  fst (to_root t s) = Ok (Some r) -> trigger evs name r Err ->
  (forall n, node_in n (ro_nodes r) -> no_name n <> name) \/
  exists n c q, node_in n (ro_nodes r) /\ no_name n = name /\ In c (no_list n) /\ co_root c = Some q /\ (mlookup evs name = None \/ exists l, mlookup evs name = Some l /\ all_fail l q).
Proof. exact @trigger_fails. Qed.
Print Assumptions C67_failure_is_explained.

Definition ex_name_event : event N := fun r o => o = Ok (VText (ro_name r)).
Definition ex_tree2 : atoken := ex_at "r" [ex_group "a" [ex_at "a" [ex_ar "X" "x"]]; ex_group "b" [ex_at "b" [ex_ar "Y" "y"]]; ex_group "a" [ex_at "a" [ex_ar "X" "z"]]].
Example C67_example : exists r, fst (to_root ex_tree2 []) = Ok (Some r) /\ trigger [(bs "a", [ex_name_event])] (bs "a") r (Ok (VResult [VText (bs "a"); VText (bs "a")])).
Proof.
  eexists. split; [vm_compute; reflexivity|]. eapply (trigger_values ex_tree2 []); [vm_compute; reflexivity|]. eexists. split; [eapply sn_order; [apply Permutation_refl|]; apply snl_found; apply (sd_here (bs "a"))|].
  repeat constructor; eexists _, _; (split; [reflexivity|]); (split; [exists [], ex_name_event, []; split; [reflexivity|split; [constructor|reflexivity]]|reflexivity]).
Qed.
(* an event registered under one name can be run on the root of another (see C45) *)
Theorem C67_events_get_roots_of_their_name_refuted :
  exists t r, solid t /\ fst (to_root t []) = Ok (Some r) /\ trigger [(bs "a", [ex_name_event])] (bs "a") r (Ok (VResult [VText (bs "b")])).
Proof.
  exists (ex_at "r" [ex_group "a" [ex_at "a" [ex_ar "X" "x"]]; ex_group "b" [ex_at "b" [ex_ar "Y" "x"]]]). eexists. split; [|split; [vm_compute; reflexivity|]].
  - assert (S : forall n k, bs n <> [] -> bs k <> [] -> solid (ex_at n [ex_ar k "x"])).
    { intros n k Hn Hk. constructor; [exact Hn|discriminate|intros e [<-|[]]; split; [exact Hk|discriminate]|intros m x [I|[]]; discriminate]. }
    constructor; [discriminate|discriminate|intros e [<-|[<-|[]]]; split; discriminate|]. intros n x [I|[I|[]]]; inversion I; subst; apply S; discriminate.
  - eapply (trigger_values (ex_at "r" [ex_group "a" [ex_at "a" [ex_ar "X" "x"]]; ex_group "b" [ex_at "b" [ex_ar "Y" "x"]]]) []); [vm_compute; reflexivity|]. eexists. split; [eapply sn_order; [apply Permutation_refl|]; apply snl_found; apply (sd_here (bs "a"))|].
    repeat constructor; eexists _, _; (split; [reflexivity|]); (split; [exists [], ex_name_event, []; split; [reflexivity|split; [constructor|reflexivity]]|reflexivity]).
Qed.
Print Assumptions C67_events_get_roots_of_their_name_refuted.
