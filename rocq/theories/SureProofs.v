(* SureProofs.v - the events never panic on the root of a tree, whatever roots its parts share. *)
From Coq Require Import Strings.String Strings.Byte Sorting.Permutation Lia.
From Verif Require Import Go GoLemmas RuleModel RootModel RootSpec RootProofs RootProofs2 ParseModel ParseSpec ParseProofs BaseModel BaseSpec EvtModel EvtSpec EvtProofs EvtProofs2 EvtProofs3 EvtProofs4 EvtProofs5 EvtProofs6.
Open Scope string_scope.
Open Scope list_scope.

Section Main.
Variable bitsize : N.
Variable parse_float : bytes -> N -> option N.
Notation base := (base_events bitsize parse_float).
Notation token := (token bitsize parse_float).
Notation tr r := (fun name => trigger base name r).

(* the containers of a node bear its name; those of a token carry a root, those of a rule none *)
Definition node_ok (k : node) : Prop :=
  no_list k <> [] /\
  (forall c, In c (no_list k) -> co_name c = no_name k /\
     (forall n, no_name k = bs n -> (token n = true -> exists q, co_root c = Some q) /\ (token n = false -> co_root c = None))) /\
  (forall n, no_name k = bs n -> token n = true -> single n = true -> length (no_list k) = 1).
Definition proper (r : root) : Prop := forall k, node_in k (ro_nodes r) -> node_ok k.
Definition called (n : string) (q r : root) : Prop := exists k c, node_in k (ro_nodes r) /\ no_name k = bs n /\ In c (no_list k) /\ co_root c = Some q.

Definition a_bool (v : bvalue) : Prop := (N.land (ty_flag (va_type v)) TypeBoolFlag =? 0)%N = true \/ exists b, va_element v = EBool b.
Definition okay (n : string) (v : val) : Prop :=
  match v with
  | VObj y => kind n y /\ (n = "boolValue" -> forall x, y = OValue x -> a_bool x)
  | VText _ => n = "variableName" \/ token n = false
  | _ => False
  end.
Definition never (n : string) (q : root) : Prop := forall o, execute_events base (bs n) q o -> o <> Panic /\ forall l v, o = Ok (l, v) -> l = None /\ okay n v.

Lemma list_okay n l : (forall c, In c l -> forall o, fetch_or_execute base (bs n) c o -> o <> Panic /\ forall m v, o = Ok (m, v) -> m = None /\ okay n v) ->
  forall o, event_list base (bs n) l o -> o <> Panic /\ forall xs, o = Ok xs -> Forall (okay n) xs /\ length xs = length l.
Proof.
  induction l as [|c l IH]; intros H o Ho.
  - inversion Ho; subst. split; [discriminate|]. intros xs E. injection E as <-. split; [constructor|reflexivity].
  - inversion Ho as [|c' cs m ins o' Fo L|c' cs Fo|c' cs Fo]; subst.
    + destruct (H c (or_introl eq_refl) _ Fo) as [_ K]. destruct (K _ _ eq_refl) as [-> R]. destruct (IH (fun d Hd => H d (or_intror Hd)) _ L) as [P Q]. destruct o' as [xs| | |]; cbn; [|split; [discriminate|intros; discriminate]|congruence|split; [discriminate|intros; discriminate]].
      split; [discriminate|]. intros ys E. injection E as <-. destruct (Q xs eq_refl) as [A B]. split; [constructor; assumption|cbn; congruence].
    + split; [discriminate|intros; discriminate].
    + destruct (H c (or_introl eq_refl) _ Fo) as [K _]. congruence.
Qed.
Lemma proper_named r : proper r -> named (ro_nodes r).
Proof. intros P k Hk c Hc. destruct (P k Hk) as (_ & A & _). apply (A c Hc). Qed.
Definition gives (n : string) (o : res val) : Prop := o <> Panic /\ forall v, o = Ok v -> exists xs, v = VResult xs /\ Forall (okay n) xs /\ xs <> [] /\ (token n = true -> single n = true -> length xs = 1).
Lemma trigger_okay r n : proper r -> (token n = true -> forall q, called n q r -> never n q) -> forall o, trigger base (bs n) r o -> gives n o.
Proof.
  intros P B o H. inversion H as [Hs|Hs E|q o' Hs|k o' Hs L|c o' Hs]; subst.
  - split; [discriminate|intros; discriminate].
  - split; [discriminate|intros; discriminate].
  - destruct (scan_sound _ _ _ Hs).
  - destruct (scan_sound _ _ _ Hs) as [Nk Hk]. cbn in Nk, Hk. first [destruct (P k Hk) as (Ne & A & S)|destruct (P k Nk) as (Ne & A & S)].
    assert (N : no_name k = bs n) by assumption.
    destruct (list_okay n (no_list k)) with (o := o') as [K1 K2]; [|exact L|].
    + intros c Hc o Ho. destruct (A c Hc) as [_ Rt]. destruct (Rt n N) as [R1 R2]. inversion Ho as [E|q' o'' E He]; subst.
      * split; [discriminate|]. intros m v X. injection X as <- <-. split; [reflexivity|]. unfold okay. right. destruct (token n) eqn:Tk; [|reflexivity]. destruct (R1 eq_refl) as (q & Eq). congruence.
      * destruct (token n) eqn:Tk; [|rewrite (R2 eq_refl) in E; discriminate]. apply (B eq_refl q'); [|exact He]. exists k, c. auto.
    + destruct o' as [xs| | |]; cbn; [|split; [discriminate|intros; discriminate]|congruence|split; [discriminate|intros; discriminate]]. destruct (K2 xs eq_refl) as [F Len].
      assert (Nx : xs <> []) by (intros ->; destruct (no_list k); [congruence|discriminate]). destruct xs as [|x xs]; [congruence|]. split; [discriminate|]. intros v E. injection E as <-. exists (x :: xs). split; [reflexivity|]. split; [exact F|]. split; [exact Nx|]. intros Tk Sg. rewrite Len. exact (S n N Tk Sg).
  - exfalso. eapply (proj1 (no_container (bs n))); [exact Hs|apply proper_named; exact P|reflexivity].
Qed.

(* ---- all the outcomes of a program ---- *)
Definition sure {A} (t : bytes -> res val -> Prop) (p : prog A) (P : A -> Prop) : Prop := forall o, runs t p o -> o <> Panic /\ forall a, o = Ok a -> P a.
Lemma sure_ret {A} t (r : res A) (P : A -> Prop) : r <> Panic -> (forall a, r = Ok a -> P a) -> sure t (Ret r) P.
Proof. intros N H o R. inversion R; subst. auto. Qed.
Lemma sure_ok {A} t (a : A) (P : A -> Prop) : P a -> sure t (Ret (Ok a)) P.
Proof. intros H. apply sure_ret; [discriminate|]. intros b E. injection E as <-. exact H. Qed.
Lemma sure_bind {A B} t (p : prog A) (f : A -> prog B) (P : A -> Prop) (Q : B -> Prop) : sure t p P -> (forall a, P a -> sure t (f a) Q) -> sure t (pbind p f) Q.
Proof.
  intros H F o R. apply bind_runs in R. destruct R as [(a & X & Y)|[(X & ->)|[(X & ->)|(X & ->)]]]; destruct (H _ X) as [N K].
  - exact (F a (K a eq_refl) o Y).
  - split; [discriminate|intros; discriminate].
  - congruence.
  - split; [discriminate|intros; discriminate].
Qed.
Definition result (n : string) (v : val) : Prop := exists x l, v = VResult (x :: l) /\ Forall (okay n) (x :: l) /\ (token n = true -> single n = true -> l = []).
Lemma sure_trig (t : bytes -> res val -> Prop) n : (forall o, t (bs n) o -> gives n o) -> sure t (trig n) (result n).
Proof.
  intros H o R. inversion R as [|? ? u ? Ht Hr|? ? Ht|? ? Ht]; subst; destruct (H _ Ht) as (K1 & K2).
  - inversion Hr; subst. split; [discriminate|]. intros a E. injection E as <-. destruct (K2 _ eq_refl) as (xs & -> & F & Ne & S). destruct xs as [|x l]; [congruence|]. exists x, l. split; [reflexivity|]. split; [exact F|]. intros T Sg. specialize (S T Sg). destruct l; [reflexivity|discriminate].
  - split; [discriminate|intros; discriminate].
  - congruence.
Qed.
Lemma sure_asserts {X} t n (f : obj -> option X) v (P : X -> Prop) : okay n v -> (forall v, okay n v -> exists y x, v = VObj y /\ f y = Some x /\ P x) -> sure t (Ret (asserts f v)) P.
Proof. intros R F. destruct (F v R) as (y & x & -> & E & Px). cbn. rewrite E. apply sure_ok. exact Px. Qed.
Lemma sure_get {X} (t : bytes -> res val -> Prop) n (f : obj -> option X) (P : X -> Prop) : (forall o, t (bs n) o -> gives n o) ->
  (forall v, okay n v -> exists y x, v = VObj y /\ f y = Some x /\ P x) -> sure t (get n f) P.
Proof.
  intros H F. eapply sure_bind; [apply sure_trig; exact H|]. intros v (x & l & -> & R & _). inversion R; subst. eapply sure_asserts; eassumption.
Qed.
Lemma sure_text (t : bytes -> res val -> Prop) n : (forall o, t (bs n) o -> gives n o) -> (forall v, okay n v -> exists w, v = VText w) -> sure t (get_text n) (fun _ => True).
Proof.
  intros H F. eapply sure_bind; [apply sure_trig; exact H|]. intros v (x & l & -> & R & _). inversion R as [|? ? Rx]; subst. destruct (F x Rx) as (w & ->). apply sure_ok. exact I.
Qed.
Lemma sure_opt {X} t r n (p : prog X) (P : X -> Prop) : (has r n = true -> sure t p P) -> sure t (opt r n p) (fun o => forall x, o = Some x -> P x).
Proof. intros H. unfold opt. destruct (has r n); [|apply sure_ok; intros; discriminate]. eapply sure_bind; [apply H; reflexivity|]. intros a Pa. apply sure_ok. intros x E. injection E as <-. exact Pa. Qed.
Lemma sure_name (t : bytes -> res val -> Prop) r : (forall o, t (bs "variableName") o -> gives "variableName" o) -> (forall v, okay "variableName" v -> exists w, v = VText w) -> sure t (name_opt r) (fun _ => True).
Proof. intros H F. eapply sure_bind; [apply sure_opt; intros _; apply sure_text; assumption|]. intros a _. apply sure_ok. exact I. Qed.
Lemma mapM_okay {X} n (f : obj -> option X) l : (forall v, okay n v -> exists y x, v = VObj y /\ f y = Some x /\ True) -> Forall (okay n) l -> exists xs, mapM (asserts f) l = Ok xs /\ length xs = length l.
Proof.
  intros F H. induction H as [|v l Hv H (xs & E & Len)]; [exists []; split; reflexivity|]. destruct (F v Hv) as (y & x & -> & Ex & _). exists (x :: xs). cbn. rewrite Ex. cbn. rewrite E. cbn. split; [reflexivity|congruence].
Qed.
Lemma sure_all {X} t n (f : obj -> option X) v : result n v -> (forall v, okay n v -> exists y x, v = VObj y /\ f y = Some x /\ True) -> sure t (Ret (EvtModel.all_of f v)) (fun l => l <> []).
Proof.
  intros (x & l & -> & R & _) F. unfold EvtModel.all_of. cbn [list_of]. destruct (mapM_okay n f (x :: l) F R) as (xs & -> & Len). apply sure_ok. intros ->. discriminate.
Qed.
Lemma sure_commas {X} (t : bytes -> res val -> Prop) r n c (f : obj -> option X) : (forall o, t (bs n) o -> gives n o) -> (forall o, t (bs c) o -> gives c o) ->
  (forall v, okay n v -> exists y x, v = VObj y /\ f y = Some x /\ True) -> (forall v, okay c v -> exists y x, v = VObj y /\ f y = Some x /\ True) ->
  sure t (with_commas r n c f) (fun l => l <> [] /\ (has r c = true -> exists x y m, l = x :: y :: m)).
Proof.
  intros Hn Hc Fn Fc. eapply sure_bind; [apply (sure_get t n f (fun _ => True)); [exact Hn|exact Fn]|]. intros x _. eapply sure_bind.
  - unfold opt. destruct (has r c) eqn:E.
    + eapply (sure_bind _ _ _ (fun l => l <> [])).
      * eapply sure_bind; [apply sure_trig; exact Hc|]. intros v Hv. eapply sure_all; eassumption.
      * intros l Nl. apply (sure_ok t (Some l) (fun o => match o with Some l => l <> [] | None => has r c = false end)). exact Nl.
    + apply sure_ok. exact E.
  - intros [l|] Hl; apply sure_ok; (split; [discriminate|]); intros Hh; [destruct l as [|y l]; [congruence|]; exists x, y, l; reflexivity|congruence].
Qed.
Definition object (n : string) (v : val) : Prop := exists u, unwrap v = (None, u) /\ okay n u.
Lemma sure_now {X} t (f : X -> obj) (r : res X) n : r <> Panic -> (forall x, r = Ok x -> object n (VObj (f x))) -> sure t (now f r) (object n).
Proof. intros N H. unfold now. destruct r as [x| | |]; cbn; [apply sure_ok; apply H; reflexivity|..]; (apply sure_ret; [congruence|intros; discriminate]). Qed.
Lemma sure_forward (t : bytes -> res val -> Prop) n m : (forall o, t (bs n) o -> gives n o) -> token n = true -> single n = true -> (forall v, okay n v -> okay m v) -> sure t (forward n) (object m).
Proof.
  intros H T S W o R. destruct (sure_trig t n H o R) as [N K]. split; [exact N|]. intros a E. destruct (K a E) as (x & l & -> & F & One). rewrite (One T S) in *. inversion F; subst. exists x. split; [reflexivity|apply W; assumption].
Qed.
Lemma event_never n b r : body_of bitsize parse_float (bs n) = Some b -> sure (tr r) (b r) (object n) -> never n r.
Proof.
  intros E H o Ho. apply base_fix in Ho. rewrite E in Ho. destruct Ho as (v & Hr & _ & ->). destruct (H v Hr) as [N K]. destruct v as [v| | |]; cbn; [|split; [discriminate|intros; discriminate]|congruence|split; [discriminate|intros; discriminate]].
  split; [discriminate|]. intros l u X. injection X as X. destruct (K v eq_refl) as (u' & U & Ok'). rewrite U in X. injection X as <- <-. auto.
Qed.

(* ---- the events ---- *)
Definition below (r : root) : Prop := forall n q, token n = true -> called n q r -> never n q.
Lemma tr_gives r n : proper r -> below r -> forall o, tr r (bs n) o -> gives n o.
Proof. intros P B. apply trigger_okay; [exact P|]. intros T q. apply B. exact T. Qed.

(* the two events that count what they find *)
Definition pair (r : root) : Prop := has r "assigneeNames" = true -> forall o, tr r (bs "assigneeNames") o -> o <> Panic /\ forall v, o = Ok v -> exists a b l m, v = VResult (VObj (ONames (a :: b :: l)) :: m).
Definition lone (r : root) : Prop := forall v, tr r (bs "indexValue") (Ok v) -> exists x, v = VResult [x].

Ltac text_no := match goal with R : _ \/ _ |- _ => destruct R as [R|R]; [discriminate R|vm_compute in R; discriminate R] end.
Ltac as_object := let v := fresh "v" in let R := fresh "R" in intros v R; destruct v as [|?|?|?|y]; unfold okay in R; [destruct R|solve [text_no]|destruct R|destruct R|];
  destruct R as [R ?]; destruct y; cbn in R; first [solve [exfalso; intuition discriminate] | eexists; eexists; split; [reflexivity|split; [reflexivity|exact I]]].
Ltac as_a_text := let v := fresh "v" in let R := fresh "R" in intros v R; destruct v as [|?|?|?|y]; unfold okay in R; [destruct R|eexists; reflexivity|destruct R|destruct R|];
  destruct R as [R ?]; destruct y; cbn in R; exfalso; intuition discriminate.
Ltac tk := match goal with G : proper ?r, B : below ?r |- forall o, trigger _ (bs _) ?r o -> _ => exact (tr_gives r _ G B) end.
Ltac calm := unfold program_now, nonempty_now, headervar_now, instruction_now, voidcall_now, direction_now, fordecl_now, forstatement_now, ifdecl_now, assignment_now, assignee_now, afirst_now, aname_now, slice_now, assignables_now, assignable_now, single_now, fetch_now, totalvalue_now, totallist_now, append_now, lvalue_now, delimiter_now, ivalue_now, operation_now, element_now, opcall_now, suffix_now, increment_now, vardecl_now, vardecls_now, type_now; repeat match goal with |- context [match ?x with _ => _ end] => destruct x end; discriminate.
Ltac kinds := intros; cbn [unwrap]; eexists; split; [reflexivity|]; split; [cbn; tauto|intros; discriminate].
Ltac wider := let v := fresh "v" in let R := fresh "R" in intros v R; destruct v as [|?|?|?|y]; unfold okay in R |- *; [destruct R|solve [text_no]|destruct R|destruct R|];
  destruct R as [R ?]; destruct y; cbn in R; try (solve [exfalso; intuition discriminate]); (split; [cbn; tauto|intros; discriminate]).
Ltac step := cbv beta zeta; lazymatch goal with
  | |- sure _ (Ret (Ok _)) (object _) => apply sure_ok; kinds
  | |- sure _ (now _ _) _ => apply sure_now; [solve [calm]|kinds]
  | |- sure _ (forward _) _ => apply sure_forward; [tk|reflexivity|reflexivity|wider]
  | |- sure _ (if ?b then _ else _) _ => destruct b
  | |- sure _ (pbind (get _ _) _) _ => eapply sure_bind; [apply (sure_get _ _ _ (fun _ => True)); [tk|as_object]|intros ? _]
  | |- sure _ (pbind (get_opt _ _ _) _) _ => eapply sure_bind; [apply (sure_opt _ _ _ _ (fun _ => True)); intros _; apply (sure_get _ _ _ (fun _ => True)); [tk|as_object]|intros ? _]
  | |- sure _ (pbind (get_text _) _) _ => eapply sure_bind; [apply sure_text; [tk|as_a_text]|intros ? _]
  | |- sure _ (pbind (name_opt _) _) _ => eapply sure_bind; [apply sure_name; [tk|as_a_text]|intros ? _]
  | |- sure _ (pbind (with_commas _ _ _ _) _) _ => eapply sure_bind; [apply sure_commas; [tk|tk|as_object|as_object]|intros ? [? ?]]
  | |- sure _ (pbind (trig _) _) _ => eapply sure_bind; [apply sure_trig; tk|intros ? ?]
  end.
Ltac first_is := match goal with H : result ?n ?v |- sure _ (pbind (Ret (asserts _ (first_of ?v))) _) _ =>
    let R := fresh "R" in destruct H as (? & ? & -> & R & _); inversion R; subst; cbn [first_of nth]; eapply sure_bind; [apply (sure_asserts _ n _ _ (fun _ => True)); [assumption|as_object]|intros ? _]
  | H : result ?n ?v |- sure _ (pbind (Ret (EvtModel.all_of _ ?v)) _) _ => eapply sure_bind; [eapply sure_all; [exact H|as_object]|intros ? ?]
  end.
Ltac first_text := match goal with H : result ?n ?v |- sure _ (pbind (Ret (as_text (first_of ?v))) _) _ =>
    let R := fresh "R" in destruct H as (u & ? & -> & R & _); inversion R as [|? ? Ru]; subst; cbn [first_of nth]; eapply sure_bind; [apply (sure_ret _ _ (fun _ => True)); [assert (X : forall v, okay n v -> exists w, v = VText w) by as_a_text; destruct (X _ Ru) as (w & ->); discriminate|intros; exact I]|intros ? _]
  end.
Ltac value := unfold vb_now; cbn; first [discriminate|calm].
Ltac plain_ret := eapply sure_bind; [apply (sure_ret _ _ (fun _ => True)); [|intros; exact I]|intros ? _].
Lemma parse_uint_calm w n : parse_uint w n <> Panic.
Proof. unfold parse_uint. calm. Qed.
Lemma parse_neg_calm w n : parse_neg w n <> Panic.
Proof. unfold parse_neg. destruct (64 <? n)%N; [discriminate|]. destruct (parse_digits w); [|discriminate]. cbv zeta. calm. Qed.
Lemma event_sure n r : token n = true -> proper r -> below r -> (n = "forStatement" -> pair r) -> (n = "listElementFetcher" -> lone r) -> never n r.
Proof.
  intros T P B Hp Hl. unfold EvtProofs6.token in T. apply existsb_exists in T. destruct T as (m & I & E). apply String.eqb_eq in E. subst m. cbn [bodies map fst] in I.
  repeat (destruct I as [<-|I]; [eapply event_never; [reflexivity|]; cbn [snd]|]); [..|destruct I].
  all: unfold ev_program, ev_headerVariables, ev_headerVariable, ev_inputOutput, ev_instructions, ev_instruction, ev_voidFuncCalls, ev_logFuncCall, ev_direction, ev_forDeclaration, ev_ifDeclaration,
    ev_ifOperation, ev_assignment, ev_assignee, ev_assigneeNameFirsts, ev_commaAssigneeFirst, ev_assigneeNameFirst, ev_assigneeNames, ev_commaAssigneeName, ev_assigneeName, ev_slice, ev_assignables,
    ev_commaAssignable, ev_assignable, ev_singleAssignable, ev_listFetchElement, ev_listAssignableToAssignables, ev_totalListValue, ev_totalListAssignable, ev_listAppend, ev_listValue, ev_listAssignable,
    ev_operation, ev_operationFuncCalls, ev_isNullFuncCall, ev_operationWithSuffix, ev_operationSuffix, ev_operator, ev_operatorArithmetic, ev_operatorRelational, ev_operatorLogical,
    ev_intIncrement, ev_declarableValue, ev_computableValue, ev_primitiveValue, ev_variableDeclarations, ev_commaVariableDeclaration, ev_variableDeclaration, ev_listType, ev_primitiveType, ev_computableType.
  all: try (solve [repeat first [step|first_is|first_text]]).
  - (* forStatement *) unfold ev_forStatement. destruct (has r "forStatement"); [step|]. eapply sure_bind.
    + apply (sure_opt _ _ _ _ (fun _ => True)). intros Hh. unfold get. eapply (sure_bind _ _ _ (fun l => exists a b m, l = a :: b :: m)).
      * eapply (sure_bind _ _ _ (fun v => exists a b l m, v = VResult (VObj (ONames (a :: b :: l)) :: m))).
        -- intros o R. inversion R as [|? ? u ? Ht Hr|? ? Ht|? ? Ht]; subst; destruct (Hp eq_refl Hh _ Ht) as [K1 K2]; [|split; [discriminate|intros; discriminate]|destruct (K1 eq_refl)]. inversion Hr; subst. split; [discriminate|]. intros a E. injection E as <-. apply K2. reflexivity.
        -- intros v (a & b & l & m & ->). cbn. apply sure_ok. eauto.
      * intros l (a & b & m & ->). apply sure_ok. exact I.
    + intros iv _. repeat step.
  - (* listElementFetcher *) intros o R. unfold ev_listElementFetcher, forward in R. destruct (sure_trig (tr r) "indexValue" (tr_gives r _ P B) o R) as [K1 K2]. split; [exact K1|]. intros v E. subst o. destruct (K2 v eq_refl) as (x & l & -> & F & _).
    assert (Ht : tr r (bs "indexValue") (Ok (VResult (x :: l)))) by (inversion R as [|? ? u ? Ht Hr|? ? Ht|? ? Ht]; subst; inversion Hr; subst; exact Ht). destruct (Hl eq_refl _ Ht) as (y & E). injection E as <- ->. inversion F as [|? ? Fx]; subst. exists x. split; [reflexivity|].
    revert Fx. generalize x. wider.
  - (* sliceDelimiter *) unfold ev_sliceDelimiter. step. destruct H as (x & l & -> & F & _). assert (W : forall v, okay "indexValue" v -> exists y z, v = VObj y /\ is_index y = Some z /\ True) by as_object. inversion F as [|? ? Fx Fl]; subst. destruct (W x Fx) as (y & i & -> & Ei & _). cbn [list_of]. destruct l as [|x2 l].
    + eapply (sure_bind _ _ _ (fun _ => True)); [apply sure_ok; exact I|intros ? _]. cbn [asserts]. rewrite Ei. eapply (sure_bind _ _ _ (fun _ => True)); [apply sure_ok; exact I|intros ? _]. step.
    + inversion Fl as [|? ? Fx2]; subst. destruct (W x2 Fx2) as (y2 & i2 & -> & Ei2 & _). cbn [asserts]. rewrite Ei, Ei2. cbn [bind]. eapply (sure_bind _ _ _ (fun _ => True)); [apply sure_ok; exact I|intros ? _]. eapply (sure_bind _ _ _ (fun _ => True)); [apply sure_ok; exact I|intros ? _]. step.
  - (* indexValue *) unfold ev_indexValue. eapply sure_bind; [apply (sure_opt _ _ _ _ (fun _ => True)); intros _|intros ? _; repeat step]. step. plain_ret; [apply parse_uint_calm|]. apply sure_ret; [value|intros; exact I].
  - (* operation *) unfold ev_operation. step; [step|]. step; [|step]. step. plain_ret; [calm|]. step.
  - (* operationElement *) unfold ev_operationElement. eapply sure_bind; [apply (sure_opt _ _ _ _ (fun _ => True)); intros _|intros ? _].
    + eapply sure_bind; [apply (sure_get _ _ _ a_bool); [tk|]|].
      * intros v R. destruct v as [|?|?|?|y]; unfold okay in R; [destruct R|text_no|destruct R|destruct R|]. destruct R as [R Q]. destruct y; cbn in R; try (solve [exfalso; intuition discriminate]). eexists; eexists. split; [reflexivity|]. split; [reflexivity|]. apply Q; reflexivity.
      * intros v [E|(b & E)].
        -- rewrite E. apply sure_ret; [discriminate|intros; exact I].
        -- destruct (_ =? 0)%N; [apply sure_ret; [discriminate|intros; exact I]|]. rewrite E. apply sure_ok. exact I.
    + eapply sure_bind; [apply (sure_opt _ _ _ _ (fun _ => True)); intros _; apply sure_text; [tk|as_a_text]|intros ? _]. repeat step.
  - (* intIncrementValue *) unfold ev_intIncrementValue. apply sure_now; [destruct (has r "PLUS"), (has r "MINUS"); value|kinds].
  - (* stringValue *) unfold ev_stringValue. step. apply sure_now; [value|kinds].
  - (* boolValue *) unfold ev_boolValue. apply sure_now; [destruct (has r "TRUE"), (has r "FALSE"); value|]. intros x E. exists (VObj (OValue x)). split; [reflexivity|]. split; [cbn; tauto|]. intros _ y Ey. injection Ey as <-. destruct (has r "TRUE"), (has r "FALSE"); cbn in E; try discriminate; injection E as <-; right; eexists; reflexivity.
  - (* intValue *) unfold ev_intValue. step. step; plain_ret; [apply parse_neg_calm| |apply parse_uint_calm|]; (apply sure_now; [value|kinds]).
  - (* floatValue *) unfold ev_floatValue. step. destruct (list_of _) as [|x [|y [|z l]]]; try (apply sure_ret; [discriminate|intros; discriminate]). plain_ret; [destruct (parse_float _ _); discriminate|]. apply sure_now; [value|kinds].
  - (* declarativeType *) unfold ev_declarativeType. do 3 (eapply sure_bind; [apply (sure_opt _ _ _ _ (fun _ => True)); intros _; intros o R; destruct (sure_trig (tr r) _ (tr_gives r _ P B) o R) as [K _]; split; [exact K|intros; exact I]|intros ? _]). cbv zeta. apply sure_now; [unfold type_now; match goal with |- context [match ?x with (_, _) => _ end] => destruct x as [? [?|]]; discriminate end|kinds].
  - (* variableName *) unfold ev_variableName. plain_ret; [unfold fetch; destruct (find _ _); discriminate|]. plain_ret; [unfold fetch; destruct (find _ _); discriminate|]. apply sure_ok. eexists. split; [reflexivity|]. left. reflexivity.
Qed.
End Main.
