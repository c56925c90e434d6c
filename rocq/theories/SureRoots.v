(* SureRoots.v - the roots of spelled trees. *)
From Coq Require Import Strings.String Strings.Byte Sorting.Permutation Lia.
From Verif Require Import Go GoLemmas DomainModel CardModel RuleModel RuleSpec PathModel PathSpec LexModel AstModel RootModel RootProofs RootProofs2 ParseModel ParseSpec ParseProofs BaseModel BaseSpec EvtModel EvtSpec EvtProofs EvtProofs2 EvtProofs3 EvtProofs4 EvtProofs5 EvtProofs6 AdeqSpec RootSpec SpellSpec SureTree SureProofs.
Open Scope string_scope.
Open Scope list_scope.

Lemma last_in w l t : last_with w l t -> In t l /\ at_discovery t = w.
Proof. intros (a & b & -> & E & _). split; [apply in_or_app; right; left; reflexivity|exact E]. Qed.
Lemma within_in y z : In y (RootSpec.within z) -> In y (RootSpec.all_of z).
Proof. destruct z. rewrite within_kids, all_of_kids. intros H. apply in_or_app. left. exact H. Qed.
Lemma all_trans z : forall x y, In x (RootSpec.all_of y) -> In y (RootSpec.all_of z) -> In x (RootSpec.all_of z).
Proof.
  induction z as [name i ms IH] using atoken_ind_kids. intros x y Hx Hy. destruct (step_down _ _ _ _ Hy) as [->|(m & k & Hk & Hy')]; [exact Hx|]. eapply step_up; [exact Hk|]. eapply IH; eassumption.
Qed.
Lemma holds_length all es cs : RootSpec.holds all es cs -> length cs = length es.
Proof. intros H. induction H; cbn; congruence. Qed.
Lemma holds_from all es cs : RootSpec.holds all es cs -> forall c, In c cs -> exists e, In e es /\ co_name c = en_name e /\
  match e with EText _ _ => co_root c = None | EToken _ t => exists y q, co_root c = Some q /\ last_with (at_discovery t) all y /\ mirrors y q end.
Proof.
  intros H. induction H as [all|all n w l cs _ IH|all n t y r l cs Hl Hm _ IH]; intros c Hc; [destruct Hc|destruct Hc as [<-|Hc]..].
  - exists (EText n w). cbn. auto.
  - destruct (IH c Hc) as (e & He & K). exists e. split; [right; exact He|exact K].
  - exists (EToken n t). cbn. split; [auto|]. split; [reflexivity|]. exists y, r. auto.
  - destruct (IH c Hc) as (e & He & K). exists e. split; [right; exact He|exact K].
Qed.
(* every node deep in the root of a tree is one of a tree in the tree *)
Definition of_tree (b : atoken) (k : node) : Prop :=
  In (no_name k) (map en_name (entries (at_matches b))) /\ RootSpec.holds (RootSpec.within b) (filter (has_name (no_name k)) (entries (at_matches b))) (no_list k).
Lemma mirrors_nodes y r : mirrors y r -> forall k, In k (ro_nodes r) -> of_tree y k.
Proof. intros H k Hk. destruct H as [name line ms nodes _ N P]. cbn in *. split; [apply N; apply in_map; exact Hk|apply P; exact Hk]. Qed.
Lemma deep_node k l : node_in k l -> forall y r, l = ro_nodes r -> mirrors y r -> exists b, In b (RootSpec.all_of y) /\ of_tree b k.
Proof.
  intros H. induction H as [k l Hk|k x c q l Hx Hc Eq _ IH]; intros y r -> M.
  - exists y. split; [apply all_of_self|eapply mirrors_nodes; eassumption].
  - destruct (mirrors_nodes y r M x Hx) as [_ Hh]. destruct (holds_from _ _ _ Hh c Hc) as ([n w|n t] & _ & _ & K); [congruence|]. destruct K as (z & q' & Eq' & Hl & Mz). assert (q' = q) by congruence. subst q'. destruct (IH z q eq_refl Mz) as (b & Hb & Ob). exists b. split; [|exact Ob].
    eapply all_trans; [exact Hb|]. apply within_in. apply (proj1 (last_in _ _ _ Hl)).
Qed.
Lemma of_tree_entry b k c : of_tree b k -> In c (no_list k) -> co_name c = no_name k /\
  ((exists w, In (EText (no_name k) w) (entries (at_matches b)) /\ co_root c = None) \/
   (exists t y q, In (EToken (no_name k) t) (entries (at_matches b)) /\ co_root c = Some q /\ last_with (at_discovery t) (RootSpec.within b) y /\ mirrors y q)).
Proof.
  intros [_ H] Hc. destruct (holds_from _ _ _ H c Hc) as (e & He & En & K). apply filter_In in He. destruct He as [He Hn]. apply has_name_eq in Hn. split; [congruence|]. destruct e as [n w|n t]; cbn in Hn; subst n; [left; exists w; auto|]. right. destruct K as (y & q & A & B & C). exists t, y, q. auto.
Qed.
Lemma of_tree_length b k : of_tree b k -> length (no_list k) = count (no_name k) (entries (at_matches b)) /\ no_list k <> [].
Proof.
  intros [I H]. split; [exact (holds_length _ _ _ H)|]. intros E. apply holds_length in H. rewrite E in H. apply in_map_iff in I. destruct I as (e & En & He). assert (K : In e (filter (has_name (no_name k)) (entries (at_matches b)))) by (apply filter_In; split; [exact He|apply has_name_eq; exact En]). destruct (filter _ _); [destruct K|discriminate H].
Qed.

Section Main.
Variable bitsize : N.
Variable parse_float : bytes -> N -> option N.
Notation base := (base_events bitsize parse_float).
Notation token := (EvtProofs6.token bitsize parse_float).
Notation called_in n q r := (SureProofs.called n q r).
(* who is called in the root of a tree *)
Lemma called_from y r n q : mirrors y r -> SureProofs.called n q r -> exists b t z, In b (RootSpec.all_of y) /\ In (EToken (bs n) t) (entries (at_matches b)) /\ last_with (at_discovery t) (RootSpec.within b) z /\ mirrors z q.
Proof.
  intros M (k & c & Hk & En & Hc & Eq). destruct (deep_node k _ Hk y r eq_refl M) as (b & Hb & Ob). destruct (of_tree_entry b k c Ob Hc) as [_ [(w & _ & E)|(t & z & q' & I & E & L & Mz)]]; [congruence|]. assert (q' = q) by congruence. subst q'. rewrite En in I. exists b, t, z. auto.
Qed.

(* the tokens of the grammar are the events, its rules and blanks are not *)
Variable ts : list PathModel.token.
Variable blanks : list rule.
Definition fits_events : Prop :=
  (forall t n, In t ts -> t_name t = bs n -> token n = true) /\
  (forall n, token n = true -> not_rule ts blanks (bs n)) /\
  (forall n t l, token n = true -> single n = true -> In t ts -> In l (t_must t) -> once (bs n) (PathSpec.elements l)).
Hypothesis G : fits_events.
Lemma no_text n m a w : token n = true -> spelled ts blanks m a -> In (EText (bs n) w) (entries (at_matches a)) -> False.
Proof.
  intros T H I. destruct G as (_ & G2 & _). destruct (G2 n T) as [N1 N2]. destruct (spelled_text ts blanks m a (bs n) w H I) as (r & k & Er & _ & [Ir|(t & l & e & It & _ & Il & Ie & Ee)]); [exact (N2 r Ir Er)|exact (N1 t l e r It Il Ie Ee Er)].
Qed.
Lemma declared n m a x : spelled ts blanks m a -> In (EToken (bs n) x) (entries (at_matches a)) -> token n = true.
Proof.
  intros H I. destruct (spelled_token ts blanks m a (bs n) x H I) as [S _]. destruct (spelled_line ts blanks _ _ S) as (t & l & It & Et & _). destruct G as (G1 & _). exact (G1 t n It Et).
Qed.
Lemma spelled_inside m a y : spelled ts blanks m a -> In y (RootSpec.all_of a) -> spelled ts blanks (at_name y) y.
Proof.
  revert m y. induction a as [name i ms IH] using atoken_ind_kids. intros m y H Hy. assert (En := spelled_name _ _ _ _ H). cbn in En. subst m. destruct (step_down _ _ _ _ Hy) as [->|(m & x & Hx & Hy')]; [exact H|].
  eapply IH; [exact Hx| |exact Hy']. eapply spelled_token; [exact H|exact Hx].
Qed.
Lemma proper_root m y r : spelled ts blanks m y -> mirrors y r -> proper bitsize parse_float r.
Proof.
  intros S M k Hk. destruct (deep_node k _ Hk y r eq_refl M) as (b & Hb & Ob). assert (Sb := spelled_inside m y b S Hb). destruct (of_tree_length b k Ob) as [Len Ne]. split; [exact Ne|]. split.
  - intros c Hc. destruct (of_tree_entry b k c Ob Hc) as [En D]. split; [exact En|]. intros n Nn. rewrite Nn in D. split.
    + intros T. destruct D as [(w & I & _)|(t & z & q & _ & Eq & _)]; [destruct (no_text n _ b w T Sb I)|exists q; exact Eq].
    + intros T. destruct D as [(w & _ & E)|(t & z & q & I & _)]; [exact E|]. rewrite (declared n _ b t Sb I) in T. discriminate.
  - intros n Nn T Sg. rewrite Nn in Len. destruct (spelled_line _ _ _ _ Sb) as (t & l & It & _ & Il & F). destruct G as (_ & G2 & G3). destruct (G2 n T) as [N1 N2].
    assert (K := line_once ts blanks (bs n) _ _ F N2 (fun x ru Hx Er => N1 t l x ru It Il Hx Er) (G3 n t l T Sg It Il)). destruct (no_list k); [congruence|]. cbn in *. lia.
Qed.
Lemma node_in_trans x l : node_in x l -> forall c r n, In c (no_list x) -> co_root c = Some r -> node_in n (ro_nodes r) -> node_in n l.
Proof.
  intros H. induction H as [x l Hx|x y d q l Hy Hd Ed _ IH]; intros c r n Hc E Hn; [eapply ni_deep; eassumption|]. eapply ni_deep; [exact Hy|exact Hd|exact Ed|]. eapply IH; eassumption.
Qed.
Lemma called_trans n m p q r : SureProofs.called n p q -> SureProofs.called m q r -> SureProofs.called n p r.
Proof. intros (k & c & Hk & En & Hc & E) (k' & c' & Hk' & _ & Hc' & E'). exists k, c. split; [eapply node_in_trans; eassumption|auto]. Qed.
Lemma called_inside n q r : SureProofs.called n q r -> inside q r.
Proof. intros (k & c & Hk & _ & Hc & E). exists c. split; [exists k; auto|exact E]. Qed.
(* ---- the two that count ---- *)
(* one index value per node *)
Lemma lone_node r : proper bitsize parse_float r -> (forall k, node_in k (ro_nodes r) -> no_name k = bs "indexValue" -> length (no_list k) = 1) ->
  (forall q, SureProofs.called "indexValue" q r -> never bitsize parse_float "indexValue" q) -> lone bitsize parse_float r.
Proof.
  intros P One B v H. remember (Ok v) as u eqn:Eu. inversion H as [Hs Eo|Hs Eo|q o' Hs He Eo|k o' Hs L Eo|c o' Hs He Eo]; subst u.
  - discriminate.
  - cbn in Eo. discriminate.
  - destruct (scan_sound _ _ _ Hs).
  - destruct (scan_sound _ _ _ Hs) as [Nk Hk]. cbn in Nk, Hk. destruct o' as [xs| | |]; try discriminate Eo.
    assert (L' : length xs = 1).
    { destruct (list_okay bitsize parse_float "indexValue" (no_list k)) with (o := Ok xs) as [_ K]; [|exact L|].
      - intros c Hc o Ho. assert (Pk : node_ok bitsize parse_float k) by (first [exact (P k Hk)|exact (P k Nk)]). destruct Pk as (_ & A & _). destruct (A c Hc) as [_ Rt]. assert (N : no_name k = bs "indexValue") by assumption. destruct (Rt "indexValue" N) as [R1 _]. inversion Ho as [E'|q' o'' E' He]; subst.
        + destruct (R1 eq_refl) as (q & Eq). congruence.
        + apply (B q'); [|exact He]. exists k, c. repeat (split; [first [assumption|exact Hk|exact Nk]|]). exact E'.
      - destruct (K xs eq_refl) as [_ ->]. apply One; assumption. }
    destruct xs as [|x [|x' xs]]; try discriminate. cbn in Eo. injection Eo as <-. exists x. reflexivity.
  - exfalso. eapply (proj1 (no_container (bs "indexValue"))); [exact Hs|eapply proper_named; exact P|reflexivity].
Qed.

(* two names or more *)
Definition two_in (v : val) : Prop := exists a b l, v = VObj (ONames (a :: b :: l)).
Definition two (q : root) : Prop := forall o, execute_events base (bs "assigneeNames") q o -> o <> Panic /\ forall l v, o = Ok (l, v) -> l = None /\ two_in v.
Lemma list_two cs : (forall c, In c cs -> forall o, fetch_or_execute base (bs "assigneeNames") c o -> o <> Panic /\ forall m v, o = Ok (m, v) -> m = None /\ two_in v) ->
  forall o, event_list base (bs "assigneeNames") cs o -> o <> Panic /\ forall xs, o = Ok xs -> Forall two_in xs /\ length xs = length cs.
Proof.
  induction cs as [|c l IH]; intros H o Ho.
  - inversion Ho; subst. split; [discriminate|]. intros xs E. injection E as <-. split; [constructor|reflexivity].
  - inversion Ho as [|c' cs m ins o' Fo L|c' cs Fo|c' cs Fo]; subst.
    + destruct (H c (or_introl eq_refl) _ Fo) as [_ K]. destruct (K _ _ eq_refl) as [-> R]. destruct (IH (fun d Hd => H d (or_intror Hd)) _ L) as [P Q]. destruct o' as [xs| | |]; cbn; [|split; [discriminate|intros; discriminate]|congruence|split; [discriminate|intros; discriminate]].
      split; [discriminate|]. intros ys E. injection E as <-. destruct (Q xs eq_refl) as [A B]. split; [constructor; assumption|cbn; congruence].
    + split; [discriminate|intros; discriminate].
    + destruct (H c (or_introl eq_refl) _ Fo) as [K _]. congruence.
Qed.
Lemma pair_node r : proper bitsize parse_float r -> (forall q, SureProofs.called "assigneeNames" q r -> two q) -> pair bitsize parse_float r.
Proof.
  intros P B _ o H. inversion H as [Hs Eo|Hs Eo|q o' Hs He Eo|k o' Hs L Eo|c o' Hs He Eo]; subst o.
  - split; [discriminate|intros; discriminate].
  - split; [discriminate|intros; discriminate].
  - destruct (scan_sound _ _ _ Hs).
  - destruct (scan_sound _ _ _ Hs) as [Nk Hk]. cbn in Nk, Hk. assert (Pk : node_ok bitsize parse_float k) by (first [exact (P k Hk)|exact (P k Nk)]). destruct Pk as (Ne & A & _). assert (N : no_name k = bs "assigneeNames") by assumption.
    destruct (list_two (no_list k)) with (o := o') as [K1 K2]; [|exact L|].
    + intros c Hc o Ho. destruct (A c Hc) as [_ Rt]. destruct (Rt "assigneeNames" N) as [R1 _]. inversion Ho as [E'|q' o'' E' He]; subst.
      * destruct (R1 eq_refl) as (q & Eq). congruence.
      * apply (B q'); [|exact He]. exists k, c. repeat (split; [first [assumption|exact Hk|exact Nk]|]). exact E'.
    + destruct o' as [xs| | |]; cbn; [|split; [discriminate|intros; discriminate]|congruence|split; [discriminate|intros; discriminate]]. destruct (K2 xs eq_refl) as [F Len].
      destruct xs as [|x xs]; [destruct (no_list k); [congruence|discriminate]|]. split; [discriminate|]. intros v E. injection E as <-. inversion F as [|? ? (a & b & l & ->) _]; subst. exists a, b, l, xs. reflexivity.
  - exfalso. eapply (proj1 (no_container (bs "assigneeNames"))); [exact Hs|eapply proper_named; exact P|reflexivity].
Qed.
Lemma sure_weaken {A} (t : bytes -> res val -> Prop) (p : prog A) (P Q : A -> Prop) : sure t p P -> (forall a, P a -> Q a) -> sure t p Q.
Proof. intros H K o R. destruct (H o R) as [N F]. split; [exact N|]. intros a E. apply K, F, E. Qed.
Lemma no_node_fails r n : (forall k, node_in k (ro_nodes r) -> no_name k <> bs n) -> proper bitsize parse_float r -> forall o, trigger base (bs n) r o -> o = Err.
Proof.
  intros A P o H. inversion H as [Hs Eo|Hs Eo|q o' Hs He Eo|k o' Hs L Eo|c o' Hs He Eo]; subst o; try reflexivity.
  - destruct (scan_sound _ _ _ Hs).
  - destruct (scan_sound _ _ _ Hs) as [Nk Hk]. cbn in Nk, Hk. exfalso. first [exact (A k Hk Nk)|exact (A k Nk Hk)].
  - exfalso. eapply (proj1 (no_container (bs n))); [exact Hs|eapply proper_named; exact P|reflexivity].
Qed.
Lemma two_names q : proper bitsize parse_float q -> SureProofs.below bitsize parse_float q ->
  (has q "commaAssigneeName" = true \/ (forall k, node_in k (ro_nodes q) -> no_name k <> bs "assigneeName")) -> two q.
Proof.
  intros P B D o Ho. apply base_fix in Ho. change (body_of bitsize parse_float (bs "assigneeNames")) with (Some ev_assigneeNames) in Ho. cbv iota in Ho. destruct Ho as (u & Hr & _ & ->).
  assert (K : sure (fun m => trigger base m q) (ev_assigneeNames q) two_in).
  { unfold ev_assigneeNames. eapply (sure_bind _ _ _ (fun l => exists a b m, l = a :: b :: m)).
    - destruct D as [D|D].
      + eapply sure_weaken; [apply (sure_commas bitsize parse_float _ q "assigneeName" "commaAssigneeName" EvtModel.is_name)|intros l [_ F]; apply F; exact D].
        * exact (tr_gives bitsize parse_float q "assigneeName" P B).
        * exact (tr_gives bitsize parse_float q "commaAssigneeName" P B).
        * intros v R. destruct v as [|?|?|?|y]; unfold okay in R; [destruct R|destruct R as [R|R]; [discriminate R|vm_compute in R; discriminate R]|destruct R|destruct R|]. destruct R as [R _]. destruct y; cbn in R; try (solve [exfalso; intuition discriminate]). eexists; eexists. split; [reflexivity|]. split; [reflexivity|exact I].
        * intros v R. destruct v as [|?|?|?|y]; unfold okay in R; [destruct R|destruct R as [R|R]; [discriminate R|vm_compute in R; discriminate R]|destruct R|destruct R|]. destruct R as [R _]. destruct y; cbn in R; try (solve [exfalso; intuition discriminate]). eexists; eexists. split; [reflexivity|]. split; [reflexivity|exact I].
      + unfold with_commas. eapply (sure_bind _ _ _ (fun _ => False)); [|intros ? []]. unfold get. eapply (sure_bind _ _ _ (fun _ => False)); [|intros ? []].
        intros o R. inversion R as [|? ? w ? Ht Hw|? ? Ht|? ? Ht]; subst; apply (no_node_fails q "assigneeName" D P) in Ht; try discriminate Ht. split; [discriminate|intros; discriminate].
    - intros l (a & b & m & ->). cbn. apply sure_ok. exists a, b, m. reflexivity. }
  destruct (K u Hr) as [N F]. destruct u as [v| | |]; cbn; [|split; [discriminate|intros; discriminate]|congruence|split; [discriminate|intros; discriminate]].
  split; [discriminate|]. intros l w X. injection X as X. destruct (F v eq_refl) as (a & b & m & ->). cbn in X. injection X as <- <-. split; [reflexivity|]. exists a, b, m. reflexivity.
Qed.

(* what the two that count ask of a root *)
Definition one_index (r : root) : Prop := forall k, node_in k (ro_nodes r) -> no_name k = bs "indexValue" -> length (no_list k) = 1.
Definition two_parts (r : root) : Prop := has r "assigneeNames" = true -> forall q, SureProofs.called "assigneeNames" q r -> has q "commaAssigneeName" = true \/ (forall k, node_in k (ro_nodes q) -> no_name k <> bs "assigneeName").
Definition counts (n : string) (r : root) : Prop := (n = "forStatement" -> two_parts r) /\ (n = "listElementFetcher" -> one_index r).
Lemma never_all : forall h r y m, r_height r <= h -> mirrors y r -> spelled ts blanks m y -> (forall n q, SureProofs.called n q r -> counts n q) ->
  forall n, token n = true -> counts n r -> never bitsize parse_float n r.
Proof.
  induction h as [|h IH]; intros r y m Hh M S C n T [C1 C2]; [destruct r; cbn in Hh; lia|].
  assert (P : proper bitsize parse_float r) by (eapply proper_root; eassumption).
  assert (B : SureProofs.below bitsize parse_float r /\ forall n' q, SureProofs.called n' q r -> proper bitsize parse_float q /\ SureProofs.below bitsize parse_float q).
  { assert (Q : forall n' q, SureProofs.called n' q r -> exists z, mirrors z q /\ spelled ts blanks (at_name z) z /\ r_height q <= h).
    { intros n' q Hq. destruct (called_from y r n' q M Hq) as (b & t & z & Hb & I & L & Mz). exists z. split; [exact Mz|]. split.
      - eapply spelled_inside; [exact S|]. eapply all_trans; [apply within_in; apply (proj1 (last_in _ _ _ L))|exact Hb].
      - assert (K := height_inside q r (called_inside _ _ _ Hq)). lia. }
    split; [|intros n' q Hq; destruct (Q n' q Hq) as (z & Mz & Sz & Hz); split; [eapply proper_root; eassumption|]].
    - intros n' q T' Hq. destruct (Q n' q Hq) as (z & Mz & Sz & Hz). apply (IH q z (at_name z)); auto. intros n'' p Hc. apply C. eapply called_trans; eassumption.
    - intros n'' p T' Hp. assert (Hp' := called_trans _ _ _ _ _ Hp Hq). destruct (Q n'' p Hp') as (w & Mw & Sw & Hw). apply (IH p w (at_name w)); auto. intros n3 p3 Hc. apply C. eapply called_trans; eassumption. }
  destruct B as [B Bq]. apply event_sure; auto.
  - intros En Hh'. apply pair_node; [exact P| |exact Hh']. intros q Hq. destruct (Bq _ q Hq) as [Pq Bl]. apply two_names; [exact Pq|exact Bl|]. exact (C1 En Hh' q Hq).
  - intros En. apply lone_node; [exact P|exact (C2 En)|]. intros q Hq. apply B; [reflexivity|exact Hq].
Qed.
End Main.
