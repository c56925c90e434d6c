From Coq Require Import Strings.String Strings.Byte Lia.
From Verif Require Import Go GoLemmas DomainModel DomainSpec BaseModel BaseSpec.
Open Scope list_scope.
Ltac runs ops := let o := fresh "o" in let IH := fresh "IH" in induction ops as [|o ops IH] using rev_ind; [reflexivity|]; rewrite !fold_left_app; cbn [fold_left]; rewrite IH; destruct o; reflexivity.
Lemma run1 {A} (i : A) ops : after1 i ops = a1 i ops.
Proof. unfold after1, run, a1, latest. runs ops. Qed.
Lemma run2 {A B} (i : A) (j : B) ops : after2 i j ops = (a2 i ops, b2 j ops).
Proof. unfold after2, run, a2, b2, latest. runs ops. Qed.
Lemma run3 {A B C} (i : A) (j : B) (k : C) ops : after3 i j k ops = (a3 i ops, b3 j ops, c3 k ops).
Proof. unfold after3, run, a3, b3, c3, latest. runs ops. Qed.
Lemma run4 {A B C D} (i : A) (j : B) (k : C) (l : D) ops : after4 i j k l ops = (a4 i ops, b4 j ops, c4 k ops, d4 l ops).
Proof. unfold after4, run, a4, b4, c4, d4, latest. runs ops. Qed.
Lemma run5 {A B C D E} (ops : list (op5 (option A) (option B) (option C) (option D) (option E))) : after5 ops = (a5 None ops, b5 None ops, c5 None ops, d5 None ops, e5 None ops).
Proof. unfold after5, run, a5, b5, c5, d5, e5, latest. runs ops. Qed.
Lemma run7 {A B C D E F G} (ops : list (op7 (option A) (option B) (option C) (option D) (option E) (option F) (option G))) : after7 ops = (a7 None ops, b7 None ops, c7 None ops, d7 None ops, e7 None ops, f7 None ops, g7 None ops).
Proof. unfold after7, run, a7, b7, c7, d7, e7, f7, g7, latest. runs ops. Qed.
Lemma builds_ok {X} (r : res X) y (P : X -> Prop) : r = Ok y -> (forall x, x = y <-> P x) -> builds r P.
Proof. intros -> H. split; [|right; eauto]. intros x. rewrite <- H. split; congruence. Qed.
Lemma builds_err {X} (r : res X) (P : X -> Prop) : r = Err -> (forall x, ~ P x) -> builds r P.
Proof. intros -> H. split; [|auto]. intros x. split; [discriminate|]. intros K. destruct (H x K). Qed.

Lemma vb_run ops : no_now ops -> run vb_step vb_init ops = {| vb_typ := last_type ops; vb_element := last_element ops; vb_uint := last_uint ops; vb_int := last_int ops; vb_float := last_float ops; vb_bool := last_bool ops; vb_str := last_string ops |}.
Proof.
  unfold run, last_type, last_element, last_uint, last_int, last_float, last_bool, last_string, latest.
  induction ops as [|o ops IH] using rev_ind; [reflexivity|]. intros N. rewrite !fold_left_app. cbn [fold_left]. rewrite IH by (intros K; apply N; apply in_or_app; auto).
  destruct o; try reflexivity. destruct N. apply in_or_app. right. left. reflexivity.
Qed.
Lemma vb_now_typed b t e : vb_typ b = Some t -> vb_element b = Some e -> vb_now b = (Ok (BValue t e), b).
Proof. intros E1 E2. unfold vb_now. rewrite E1, E2. reflexivity. Qed.
Lemma vb_now_after b v : fst (vb_now b) = Ok v -> vb_typ (snd (vb_now b)) = Some (va_type v) /\ vb_element (snd (vb_now b)) = Some (va_element v).
Proof.
  unfold vb_now. destruct (vb_typ b) as [t|] eqn:Et.
  - destruct (vb_element b) as [e|] eqn:Ee; cbn [fst snd]; [|discriminate]. intros E. inversion E; subst. cbn. auto.
  - destruct (vb_str b), (vb_bool b), (vb_float b), (vb_int b), (vb_uint b); cbn; try discriminate; intros E; inversion E; subst; cbn; auto.
Qed.
Lemma vb_keeps ops : forall b t e, vb_typ b = Some t -> vb_element b = Some e -> Forall keeps ops -> vb_typ (run vb_step b ops) = Some t /\ vb_element (run vb_step b ops) = Some e.
Proof.
  unfold run. induction ops as [|o ops IH]; intros b t e Et Ee F; [auto|]. inversion F; subst. cbn [fold_left]. apply IH; [| |assumption]; destruct o; cbn in *; try contradiction; auto; unfold vb_now; rewrite Et, Ee; cbn; auto.
Qed.
