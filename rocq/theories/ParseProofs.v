From Coq Require Import Strings.String Strings.Byte Lia.
From Verif Require Import Go GoLemmas RuleModel AstModel RootModel RootSpec RootProofs RootProofs2 ParseModel ParseSpec.
Open Scope list_scope.
Section Events.
Variable O : Type.
Implicit Types evs : events O.

Lemma event_loop_iff r (l : list (event O)) o : event_loop r l o <->
  (exists v, o = Ok (unwrap v) /\ first_success l r v) \/ (o = Err /\ all_fail l r) \/ (o = Panic /\ exists a e b, l = a ++ e :: b /\ all_fail a r /\ e r Panic).
Proof.
  split.
  - induction 1 as [|e l v H|e l o H H' IH|e l H].
    + right. left. split; [reflexivity|constructor].
    + left. exists v. split; [reflexivity|]. exists [], e, l. split; [reflexivity|]. split; [constructor|exact H].
    + destruct IH as [(v & -> & a & e' & b & -> & F & E)|[(-> & F)|(-> & a & e' & b & -> & F & E)]].
      * left. exists v. split; [reflexivity|]. exists (e :: a), e', b. split; [reflexivity|]. split; [constructor; assumption|exact E].
      * right. left. split; [reflexivity|]. constructor; assumption.
      * right. right. split; [reflexivity|]. exists (e :: a), e', b. split; [reflexivity|]. split; [constructor; assumption|exact E].
    + right. right. split; [reflexivity|]. exists [], e, l. split; [reflexivity|]. split; [constructor|exact H].
  - intros [(v & -> & a & e & b & -> & F & E)|[(-> & F)|(-> & a & e & b & -> & F & E)]].
    + induction F as [|x a Hx F IH]; cbn [app]; [apply el_ok; exact E|apply el_fail; [exact Hx|exact IH]].
    + induction F as [|x a Hx F IH]; [apply el_none|apply el_fail; [exact Hx|exact IH]].
    + induction F as [|x a Hx F IH]; cbn [app]; [apply el_panic; exact E|apply el_fail; [exact Hx|exact IH]].
Qed.
Lemma build_unwrap (v : value O) : build_result (fst (unwrap v)) (snd (unwrap v)) = match elements v with [] => Err | l => Ok (VResult l) end.
Proof. destruct v as [|w|l|l|n]; try reflexivity. destruct l as [|x [|y l]]; [reflexivity|destruct x; reflexivity|reflexivity]. Qed.
Lemma execute_iff evs r o : execute evs r o <->
  (exists l v, mlookup evs (ro_name r) = Some l /\ first_success l r v /\ o = match elements v with [] => Err | x => Ok (VResult x) end) \/
  (o = Err /\ (mlookup evs (ro_name r) = None \/ exists l, mlookup evs (ro_name r) = Some l /\ all_fail l r)) \/
  (o = Panic /\ exists l a e b, mlookup evs (ro_name r) = Some l /\ l = a ++ e :: b /\ all_fail a r /\ e r Panic).
Proof.
  split.
  - intros H. inversion H as [o' H']; subst. inversion H' as [l o0 E L|E]; subst; [|right; left; cbn; auto]. apply event_loop_iff in L. destruct L as [(v & -> & F)|[(-> & F)|(-> & a & e & b & El & F & Ep)]].
    + left. exists l, v. split; [exact E|]. split; [exact F|]. cbn [bind]. apply build_unwrap.
    + right. left. split; [reflexivity|]. right. exists l. auto.
    + right. right. split; [reflexivity|]. exists l, a, e, b. auto.
  - intros [(l & v & E & F & ->)|[(-> & [E|(l & E & F)])|(-> & l & a & e & b & E & El & F & Ep)]].
    + rewrite <- build_unwrap. apply (ex_outcome evs r (Ok (unwrap v))). eapply ee_found; [exact E|]. apply event_loop_iff. left. exists v. auto.
    + apply (ex_outcome evs r Err). apply ee_absent. exact E.
    + apply (ex_outcome evs r Err). eapply ee_found; [exact E|]. apply event_loop_iff. right. left. auto.
    + apply (ex_outcome evs r Panic). eapply ee_found; [exact E|]. apply event_loop_iff. right. right. split; [reflexivity|]. exists a, e, b. auto.
Qed.
Lemma execute_single_answer evs r l v : mlookup evs (ro_name r) = Some l -> first_success l r v -> (forall n e, nth_error l n = Some e -> forall o o', e r o -> e r o' -> o = o') -> forall o, execute evs r o -> o = match elements v with [] => Err | x => Ok (VResult x) end.
Proof.
  intros E (a & e & b & -> & F & Ev) D o H. assert (Da : forall x o o', In x (a ++ e :: b) -> x r o -> x r o' -> o = o') by (intros x o1 o2 I; apply In_nth_error in I; destruct I as [n I]; apply (D n x I)).
  apply execute_iff in H. destruct H as [(l & w & E' & (a' & e' & b' & El & F' & Ew) & ->)|[(-> & [E'|(l & E' & F')])|(-> & l & a' & e' & b' & E' & El & F' & Ep)]]; [| |rewrite E in E'; inversion E'; subst l|].
  - rewrite E in E'. injection E' as E'. rewrite <- E' in El. clear E E' D. assert (X : w = v); [|rewrite X; reflexivity]. revert a' El F'. induction F as [|x a Hx F IH]; intros a' El F'.
    + destruct a' as [|y a']; cbn in El; inversion El; subst.
      * assert (X := Da e' _ _ (or_introl eq_refl) Ev Ew). congruence.
      * inversion F'; subst. assert (X := Da y _ _ (or_introl eq_refl) Ev H1). discriminate.
    + destruct a' as [|y a']; cbn in El; inversion El; subst; [assert (X := Da e' _ _ (or_introl eq_refl) Hx Ew); discriminate|]. inversion F'; subst. apply (IH (fun z o1 o2 I => Da z o1 o2 (or_intror I)) a' H1 H3).
  - congruence.
  - unfold all_fail in F'. apply Forall_app in F'. destruct F' as [_ F']. inversion F'; subst. assert (X := Da e _ _ (in_elt e a b) Ev H1). discriminate.
  - rewrite E in E'. injection E' as E'. rewrite <- E' in El. clear E E' D. revert a' El F'. induction F as [|x a Hx F IH]; intros a' El F'.
    + destruct a' as [|y a']; cbn in El; inversion El; subst; [assert (X := Da e' _ _ (or_introl eq_refl) Ev Ep); discriminate|]. inversion F'; subst. assert (X := Da y _ _ (or_introl eq_refl) Ev H1). discriminate.
    + destruct a' as [|y a']; cbn in El; inversion El; subst; [assert (X := Da e' _ _ (or_introl eq_refl) Hx Ep); discriminate|]. inversion F'; subst. apply (IH (fun z o1 o2 I => Da z o1 o2 (or_intror I)) a' H1 H3).
Qed.

(* ---- Trigger ---- *)
Lemma fetch_value evs name c x : fetch_or_execute evs name c (Ok x) -> container_value evs name c (match fst x with Some l => VList l | None => snd x end).
Proof.
  intros H. inversion H as [E|r o E H']; subst; [unfold container_value; rewrite E; reflexivity|]. inversion H' as [l o El L|]; subst. apply event_loop_iff in L. destruct L as [(v & Eo & F)|[(X & _)|(X & _)]]; try discriminate. unfold container_value. rewrite E. exists l, v. split; [exact El|]. split; [exact F|].
  injection Eo as ->. destruct v as [|w|x|x|n]; try reflexivity. destruct x as [|y [|z x]]; reflexivity.
Qed.
Lemma value_fetch evs name c v : container_value evs name c v -> exists x, fetch_or_execute evs name c (Ok x) /\ match fst x with Some l => VList l | None => snd x end = v.
Proof.
  unfold container_value. destruct (co_root c) as [r|] eqn:E.
  - intros (l & w & El & F & ->). exists (unwrap w). split; [apply (fe_root _ _ _ r); [exact E|]; eapply ee_found; [exact El|]; apply event_loop_iff; left; exists w; auto|]. destruct w as [|w|x|x|n]; try reflexivity. destruct x as [|y [|z x]]; reflexivity.
  - intros ->. exists (None, VText (co_content c)). split; [apply fe_text; exact E|reflexivity].
Qed.
Lemma event_list_values evs name cs l : event_list evs name cs (Ok l) <-> Forall2 (container_value evs name) cs l.
Proof.
  split.
  - intros H. remember (Ok l) as o eqn:E. revert l E. induction H as [|c cs list ins o F H IH|c cs F|c cs F]; intros l E; try discriminate; [inversion E; constructor|]. destruct o as [l'| | |]; try discriminate. inversion E; subst. constructor; [|apply IH; reflexivity]. apply (fetch_value evs name c (list, ins)). exact F.
  - intros H. induction H as [|c v cs l C H IH]; [constructor|]. destruct (value_fetch evs name c v C) as ([list ins] & F & <-). exact (el_value evs name c cs list ins (Ok l) F IH).
Qed.
Lemma node_not_empty t s r n : fst (to_root t s) = Ok (Some r) -> node_in n (ro_nodes r) -> no_list n <> [].
Proof.
  intros H Hn. apply root_mirrors in H. remember (ro_nodes r) as l eqn:El. revert t r H El. induction Hn as [n l Hn|n x c' r' l Hx Hc' Er Hn IH]; intros t r M El; subst l.
  - inversion M as [name line ms nodes N1 N2 N3]; subst. cbn [ro_nodes] in Hn. assert (K : In (no_name n) (map en_name (entries ms))) by (apply N2; apply in_map; exact Hn). apply in_map_iff in K. destruct K as (e & Ee & Ie). intros X. specialize (N3 n Hn). rewrite X in N3. inversion N3 as [? E| |]; subst.
    assert (Y : In e (filter (has_name (no_name n)) (entries ms))); [|rewrite <- H in Y; destruct Y]. apply filter_In. split; [exact Ie|]. unfold has_name. destruct (list_eq_dec _ _ _); [reflexivity|contradiction].
  - destruct (mirrors_in t r x c' M Hx Hc') as (e & _ & _ & _ & _ & E3). destruct e as [|k u]; [congruence|]. destruct E3 as (y & r2 & E4 & _ & My). assert (r2 = r') by congruence. subst r2. apply (IH y r' My eq_refl).
Qed.
Lemma trigger_values t s r evs name l : fst (to_root t s) = Ok (Some r) ->
  trigger evs name r (Ok (VResult l)) <-> exists n, scan_nodes name (ro_nodes r) (SFound (FNode n)) /\ Forall2 (container_value evs name) (no_list n) l.
Proof.
  intros Hr. split.
  - intros H. inversion H as [| |r0 o Hs He|n o Hs He|c o Hs He]; subst; try discriminate.
    + destruct (scan_made t s r name _ Hr Hs) as [(n & X & _)|(X & _)]; discriminate.
    + destruct o as [l'| | |]; try discriminate. exists n. split; [exact Hs|]. apply event_list_values in He. cbn in *. destruct l'; [discriminate|]. match goal with E : Ok _ = Ok _ |- _ => inversion E; subst end. exact He.
    + destruct (scan_made t s r name _ Hr Hs) as [(n & X & _)|(X & _)]; discriminate.
  - intros (n & Hs & F). assert (Hn : node_in n (ro_nodes r)) by (destruct (scan_made t s r name _ Hr Hs) as [(m & X & Y & _)|(X & _)]; [inversion X; subst; exact Y|discriminate]).
    assert (Ne := node_not_empty t s r n Hr Hn). apply event_list_values in F. assert (K := tr_node evs name r n (Ok l) Hs F). cbn in K. destruct l; [|exact K]. apply event_list_values in F. inversion F; subst. congruence.
Qed.
Lemma trigger_shape t s r evs name v : fst (to_root t s) = Ok (Some r) -> trigger evs name r (Ok v) -> exists l, v = VResult l /\ l <> [].
Proof.
  intros Hr H. assert (B : forall (list : option (list (value O))) ins v, build_result list ins = Ok v -> exists l, v = VResult l /\ l <> []).
  { intros list ins w E. unfold build_result in E. destruct (match ins with VNil => list | _ => Some [ins] end) as [[|x l]|]; inversion E; subst. exists (x :: l). split; [reflexivity|discriminate]. }
  inversion H as [| |r0 o Hs He|n o Hs He|c o Hs He]; subst; try (match goal with o : res _ |- _ => destruct o; try discriminate end); eapply B; match goal with E : build_result _ _ = Ok _ |- _ => exact E | E : _ = Ok _ |- _ => exact E end.
Qed.
(* Trigger fails: the name is absent, or an event list fails on one of the containers *)
Lemma trigger_fails t s r evs name : fst (to_root t s) = Ok (Some r) -> trigger evs name r Err ->
  (forall n, node_in n (ro_nodes r) -> no_name n <> name) \/
  exists n c q, node_in n (ro_nodes r) /\ no_name n = name /\ In c (no_list n) /\ co_root c = Some q /\ (mlookup evs name = None \/ exists l, mlookup evs name = Some l /\ all_fail l q).
Proof.
  intros Hr H. inversion H as [Hs|Hs E|r0 o Hs He|n o Hs He E|c o Hs He]; subst.
  - destruct (scan_made t s r name _ Hr Hs) as [(n & X & _)|(_ & K)]; [discriminate|left; exact K].
  - destruct (scan_made t s r name _ Hr Hs) as [(n & X & _)|(X & _)]; discriminate.
  - destruct (scan_made t s r name _ Hr Hs) as [(n & X & _)|(X & _)]; discriminate.
  - right. destruct (scan_made t s r name _ Hr Hs) as [(m & X & Hn & Nm)|(X & _)]; [|discriminate]. inversion X; subst m.
    assert (Ne := node_not_empty t s r n Hr Hn).
    assert (Eo : o = Err). { destruct o as [l| | |]; [|reflexivity|discriminate|discriminate]. apply event_list_values in He. cbn in E. destruct l; [|discriminate]. inversion He; subst. congruence. }
    subst o. exists n. clear - He Hn Nm. remember Err as o eqn:Eo. assert (K : exists c q, In c (no_list n) /\ co_root c = Some q /\ (mlookup evs name = None \/ (exists l, mlookup evs name = Some l /\ all_fail l q))).
    { clear Hn Nm. induction He as [|c cs list ins o F He IH|c cs F|c cs F]; try discriminate.
      - destruct o; try discriminate. destruct (IH eq_refl) as (c' & q & I & K). exists c', q. split; [right; exact I|exact K].
      - inversion F as [|q o E H' Eo']; subst. exists c, q. split; [left; reflexivity|]. split; [exact E|]. inversion H' as [l o El L|]; subst; [|left; assumption]. apply event_loop_iff in L. destruct L as [(v & X & _)|[(_ & L)|(X & _)]]; try discriminate. right. exists l. auto. }
    destruct K as (c & q & K). exists c, q. tauto.
  - destruct (scan_made t s r name _ Hr Hs) as [(n & X & _)|(X & _)]; discriminate.
Qed.
Lemma app_first evs r v : app_execute evs r (Ok v) -> exists l w x rest, mlookup evs (ro_name r) = Some l /\ first_success l r w /\ elements w = x :: rest /\ v = x.
Proof.
  intros H. inversion H as [|o Ne He E]; subst. destruct o as [u| | |]; try discriminate. cbn in E. apply execute_iff in He. destruct He as [(l & w & El & F & Eo)|[(X & _)|(X & _)]]; try discriminate. exists l, w. destruct (elements w) as [|x rest]; [discriminate|]. inversion Eo; subst. exists x, rest. inversion E. auto.
Qed.
End Events.
Arguments event_loop_iff {O}.
Arguments build_unwrap {O}.
Arguments execute_iff {O}.
Arguments execute_single_answer {O}.
Arguments fetch_value {O}.
Arguments value_fetch {O}.
Arguments event_list_values {O}.
Arguments trigger_values {O}.
Arguments trigger_shape {O}.
Arguments trigger_fails {O}.
Arguments app_first {O}.
