(* ProgProofs6.v - proofs for ProgProps.v: the root of a syntax tree, from the tree it draws. *)
From Coq Require Import Strings.String Strings.Byte Sorting.Permutation Lia.
From Verif Require Import Go GoLemmas DomainModel CardModel PatModel RuleModel PathModel PathSpec LexModel AstModel RootModel TextModel PickSpec PickProofs2 EvtSpec AdeqSpec AdeqProofs2 RootSpec RootProofs RootProofs2.
Open Scope list_scope.

(* ---- trees ---- *)
Fixpoint subs (t : tree) : list tree := match t with Text _ _ => [] | Branch _ _ l => concat (map subs l) ++ [t] end.
Definition tree_name (t : tree) : bytes := match t with Text n _ => n | Branch n _ _ => n end.
Definition entry_tree (e : entry) : tree := match e with EText n w => Text n w | EToken _ t => drawn t end.
(* whatever later subtree has the text of a token is the same tree *)
Fixpoint own (t : tree) : Prop :=
  match t with
  | Text _ _ => True
  | Branch _ _ l =>
      (forall a x b y z, l = a ++ x :: b -> subs x <> [] -> In y b -> In z (subs y) -> tree_text z = tree_text x -> z = x) /\
      (fix all l := match l with [] => True | x :: l => own x /\ all l end) l
  end.
Fixpoint whole (t : tree) : Prop :=
  match t with
  | Text n w => n <> [] /\ w <> []
  | Branch n _ l => n <> [] /\ l <> [] /\ (fix all l := match l with [] => True | x :: l => whole x /\ all l end) l
  end.
Lemma all_is {A} (P : A -> Prop) l : (fix all l := match l with [] => True | x :: l => P x /\ all l end) l <-> Forall P l.
Proof. induction l as [|x l IH]; [split; constructor|]. rewrite Forall_cons_iff, IH. reflexivity. Qed.
Lemma own_branch n i l : own (Branch n i l) <-> (forall a x b y z, l = a ++ x :: b -> subs x <> [] -> In y b -> In z (subs y) -> tree_text z = tree_text x -> z = x) /\ Forall own l.
Proof. cbn [own]. rewrite all_is. reflexivity. Qed.
Lemma whole_branch n i l : whole (Branch n i l) <-> n <> [] /\ l <> [] /\ Forall whole l.
Proof. cbn [whole]. rewrite all_is. reflexivity. Qed.
Lemma entries_draw ms : concat (map parts_of ms) = map entry_tree (entries ms).
Proof. induction ms as [|m ms IH]; [reflexivity|]. change (entries (m :: ms)) with (of_match m ++ entries ms). cbn [map concat]. rewrite IH, map_app. f_equal. destruct m as [n l|n r]; cbn; [rewrite map_map|]; reflexivity. Qed.
Lemma drawn_entries n i ms : drawn (AToken n i ms) = Branch n i (map entry_tree (entries ms)).
Proof. rewrite drawn_token, entries_draw. reflexivity. Qed.
Lemma drawn_text a : tree_text (drawn a) = at_discovery a.
Proof.
  induction a as [n i ms IH] using atoken_ind_kids. rewrite drawn_entries, at_disc_entries. cbn [tree_text]. f_equal. rewrite map_map. apply map_ext_in. intros [m w|m t] He; [reflexivity|]. exact (IH m t He).
Qed.
Lemma drawn_subs a : subs (drawn a) = map drawn (all_of a).
Proof.
  induction a as [n i ms IH] using atoken_ind_kids. rewrite drawn_entries, all_of_kids, map_app. cbn [subs map]. rewrite drawn_entries. f_equal. clear - IH. induction (entries ms) as [|e l IHl]; [reflexivity|]. cbn [map concat]. rewrite IHl by (intros k x Hx; apply (IH k x); right; exact Hx).
  change (kids (e :: l)) with ((match e with EToken _ t => [t] | EText _ _ => [] end) ++ kids l). rewrite map_app, concat_app, map_app. f_equal. destruct e as [k w|k t]; [reflexivity|]. cbn [map concat entry_tree]. rewrite app_nil_r. apply (IH k t). left. reflexivity.
Qed.
(* the tokens below bear the name they are listed under *)
Definition tidy (a : atoken) : Prop := forall b n x, In b (all_of a) -> In (EToken n x) (entries (at_matches b)) -> at_name x = n.
Lemma kid_within n i ms k x : In (EToken k x) (entries ms) -> incl (all_of x) (within (AToken n i ms)).
Proof. intros H y Hy. rewrite within_kids. apply in_concat. exists (all_of x). split; [|exact Hy]. apply in_map, kids_in. exists k. exact H. Qed.
Lemma within_all a : incl (within a) (all_of a).
Proof. destruct a as [n i ms]. intros y Hy. rewrite within_kids in Hy. rewrite all_of_kids. apply in_or_app. left. exact Hy. Qed.
Lemma all_trans b : forall a y, In b (all_of a) -> In y (all_of b) -> In y (all_of a).
Proof.
  intros a. induction a as [n i ms IH] using atoken_ind_kids. intros y Hb Hy. rewrite all_of_kids in Hb. apply in_app_or in Hb. destruct Hb as [Hb|[<-|[]]]; [|exact Hy]. apply in_concat in Hb. destruct Hb as (l & Hl & Hb). apply in_map_iff in Hl. destruct Hl as (k & <- & Hk). apply kids_in in Hk. destruct Hk as (m & Hk).
  apply within_all. apply (kid_within n i ms m k Hk). exact (IH m k Hk y Hb Hy).
Qed.
Lemma tidy_sub a b : tidy a -> In b (all_of a) -> tidy b.
Proof. intros T I c n x Hc Hx. exact (T c n x (all_trans b a c I Hc) Hx). Qed.
Section Conf.
Variable ts : list token.
Variable blanks : list bytes.
Variable lenient : Prop.
Lemma fills_conform es l : line_fills ts blanks lenient es l -> Forall (fun e => match e with EToken n x => conforms ts blanks lenient n x | _ => True end) l.
Proof.
  induction 1 as [|es n w l _ _ _ IH|e es a b F _ IH|]; [constructor|constructor; [exact I|exact IH]| |constructor]. apply Forall_app. split; [|exact IH]. inversion F as [|? r w E N|? r c l E C N V A S]; subst; [constructor|constructor; [exact I|constructor]|].
  clear -A. induction A as [|n t l H A IH]; constructor; assumption.
Qed.
Lemma conforms_tidy a : forall n, conforms ts blanks lenient n a -> tidy a.
Proof.
  induction a as [m i ms IH] using atoken_ind_kids. intros n C. inversion C as [t j l ms' It Nl F]; subst. apply fills_conform in F. rewrite Forall_forall in F. intros b k x Hb Hx. rewrite all_of_kids in Hb. apply in_app_or in Hb. destruct Hb as [Hb|[<-|[]]].
  - apply in_concat in Hb. destruct Hb as (l' & Hl & Hb). apply in_map_iff in Hl. destruct Hl as (c & <- & Hk). apply kids_in in Hk. destruct Hk as (k' & Hk). exact (IH k' c Hk k' (F _ Hk) b k x Hb Hx).
  - assert (K := F _ Hx). cbn in K. inversion K; subst. reflexivity.
Qed.
End Conf.
(* ---- the root exists ---- *)
Lemma whole_text t : whole t -> tree_text t <> [].
Proof.
  revert t. fix go 1. intros [n w|n i l] H; [apply H|]. apply whole_branch in H. destruct H as (_ & N & F). destruct l as [|x l]; [contradiction|]. inversion F as [|? ? W _]; subst. cbn [tree_text map concat]. intros E. apply app_eq_nil in E. exact (go x W (proj1 E)).
Qed.
Lemma whole_solid a : tidy a -> whole (drawn a) -> solid a.
Proof.
  induction a as [n i ms IH] using atoken_ind_kids. intros T W. rewrite drawn_entries in W. apply whole_branch in W. destruct W as (Nn & Nl & F). rewrite Forall_forall in F.
  assert (K : forall e, In e (entries ms) -> whole (entry_tree e)) by (intros e He; apply F, in_map, He). assert (S : In (AToken n i ms) (all_of (AToken n i ms))) by (rewrite all_of_kids; apply in_or_app; right; left; reflexivity).
  constructor; [exact Nn|intros E; apply Nl; rewrite E; reflexivity| |].
  - intros e He. assert (We := K e He). destruct e as [k w|k x]; cbn [en_name en_text entry_tree] in *; [exact We|]. split; [|rewrite <- drawn_text; apply whole_text, We]. rewrite <- (T _ k x S He). destruct x as [m j mm]. rewrite drawn_entries in We. apply whole_branch in We. apply We.
  - intros k x Hx. apply (IH k x Hx); [|exact (K _ Hx)]. apply (tidy_sub _ x T). apply within_all. apply (kid_within n i ms k x Hx). destruct x. rewrite all_of_kids. apply in_or_app. right. left. reflexivity.
Qed.

(* ---- the parts of the root ---- *)
Definition pictures (t : tree) (r : root) : Prop := exists a, drawn a = t /\ tidy a /\ mirrors a r.
Definition part_is (t : tree) (p : part) : Prop := match t, p with Text _ w, T v => v = w | Branch _ _ _, K q => pictures t q | _, _ => False end.
Definition blank_tree (t : tree) : bool := existsb (fun n => bytes_eqb (tree_name t) (bs n)) channel_names.
Definition some_trees (g : string * list tree) : Prop := snd g <> [] /\ Forall (fun t => tree_name t = bs (fst g)) (snd g).
Lemma last_drawn n i ms k x y : own (drawn (AToken n i ms)) -> In (EToken k x) (entries ms) -> last_with (at_discovery x) (within (AToken n i ms)) y -> drawn y = drawn x.
Proof.
  intros O Hx (a & b & E & Ty & Fb). rewrite drawn_entries in O. apply own_branch in O. destruct O as [O _]. destruct (in_split _ _ Hx) as (ea & eb & Ee). rewrite within_kids, Ee, kids_app in E. change (kids (EToken k x :: eb)) with (x :: kids eb) in E. rewrite map_app, concat_app in E. cbn [map concat] in E.
  assert (Ex : exists p, all_of x = p ++ [x]) by (destruct x as [m j mm]; rewrite all_of_kids; eexists; reflexivity). destruct Ex as (p & Ex). rewrite Ex, <- app_assoc, app_assoc in E. cbn [app] in E.
  assert (K : y = x \/ In y (concat (map all_of (kids eb)))).
  { revert E. generalize (concat (map all_of (kids ea)) ++ p). generalize (concat (map all_of (kids eb))). intros q h E. revert h E. induction a as [|c a IH]; intros h E; destruct h as [|d h]; cbn [app] in E.
    - injection E as E1 E2. left. congruence.
    - injection E as E1 E2. exfalso. rewrite Forall_forall in Fb. apply (Fb x); [|reflexivity]. rewrite <- E2. apply in_or_app. right. left. reflexivity.
    - injection E as E1 E2. right. rewrite E2. apply in_or_app. right. left. reflexivity.
    - injection E as E1 E2. apply (IH h E2). }
  destruct K as [->|K]; [reflexivity|]. apply in_concat in K. destruct K as (l & Hl & K). apply in_map_iff in Hl. destruct Hl as (c & <- & Hc). apply kids_in in Hc. destruct Hc as (m & Hc).
  apply (O (map entry_tree ea) (drawn x) (map entry_tree eb) (drawn c) (drawn y)).
  - rewrite Ee, map_app. reflexivity.
  - rewrite drawn_subs, Ex, map_app. intros Z. apply app_eq_nil in Z. destruct Z as [_ Z]. discriminate.
  - change (drawn c) with (entry_tree (EToken m c)). apply in_map, Hc.
  - rewrite drawn_subs. apply in_map, K.
  - rewrite !drawn_text. exact Ty.
Qed.
Lemma entry_name a k e : tidy a -> In e (entries (at_matches a)) -> k = en_name e <-> k = tree_name (entry_tree e).
Proof.
  intros T He. destruct e as [m w|m x]; [reflexivity|]. assert (S : In a (all_of a)) by (destruct a; rewrite all_of_kids; apply in_or_app; right; left; reflexivity). assert (E := T a m x S He). cbn [en_name entry_tree]. destruct x as [p j mm]. cbn in E. subst. rewrite drawn_entries. reflexivity.
Qed.
Lemma split_groups l : forall gs, map entry_tree l = concat (map snd gs) -> exists gs' : list (string * list entry), l = concat (map snd gs') /\ Forall2 (fun g' (g : string * list tree) => fst g' = fst g /\ map entry_tree (snd g') = snd g) gs' gs.
Proof.
  intros gs. revert l. induction gs as [|[n g] gs IH]; intros l E; cbn [map concat snd] in E.
  - apply map_eq_nil in E. exists []. split; [exact E|constructor].
  - apply map_eq_app in E. destruct E as (l1 & l2 & -> & E1 & E2). destruct (IH l2 E2) as (gs' & -> & F). exists ((n, l1) :: gs'). split; [reflexivity|]. constructor; [split; [reflexivity|exact E1]|exact F].
Qed.
Lemma merge_same gs : NoDup (map fst gs) -> merge gs = gs.
Proof.
  unfold merge. intros N. assert (K : forall acc, NoDup (map fst (acc ++ gs)) -> fold_left (fun acc x => add_group (fst x) (snd x) acc) gs acc = acc ++ gs).
  { clear N. induction gs as [|[n g] gs IH]; intros acc N; [symmetry; apply app_nil_r|]. cbn [fold_left fst snd]. assert (E : add_group n g acc = acc ++ [(n, g)]).
    { assert (Na : ~ In n (map fst acc)) by (rewrite map_app in N; cbn in N; apply NoDup_remove in N; destruct N as [_ N]; intros I; apply N, in_or_app; left; exact I). clear -Na. induction acc as [|[m h] acc IHa]; [reflexivity|]. cbn [add_group app]. destruct (String.eqb_spec n m) as [->|D]; [exfalso; apply Na; left; reflexivity|]. f_equal. apply IHa. intros I. apply Na. right. exact I. }
    rewrite E, IH; rewrite <- app_assoc; [reflexivity|exact N]. }
  exact (K [] N).
Qed.
Lemma picture_parts n i l r gs : pictures (Branch n i l) r -> own (Branch n i l) ->
  filter (fun t => negb (blank_tree t)) l = concat (map snd gs) -> NoDup (map fst gs) -> Forall some_trees gs -> Forall (fun t => blank_tree t = true -> subs t = []) l ->
  exists L, parts r L /\ Forall2 (fun g x => fst x = fst g /\ Forall2 part_is (snd g) (snd x)) gs L.
Proof.
  intros (a & Ea & Ti & M) O En Nd Fg Bl. destruct a as [n' i' ms]. assert (Sa : In (AToken n' i' ms) (all_of (AToken n' i' ms))) by (rewrite all_of_kids; apply in_or_app; right; left; reflexivity). rewrite <- Ea in O. rewrite drawn_entries in Ea. injection Ea as -> -> <-.
  assert (Bn : forall e, In e (entries ms) -> is_blank e = blank_tree (entry_tree e)).
  { intros e He. unfold is_blank, blank_tree. induction channel_names as [|k c IH]; [reflexivity|]. cbn [existsb]. rewrite IH. f_equal. assert (K := fun z => entry_name (AToken n i ms) z e Ti He). destruct (has_name (bs k) e) eqn:H1, (bytes_eqb (tree_name (entry_tree e)) (bs k)) eqn:H2; try reflexivity; exfalso.
    - apply has_name_true in H1. symmetry in H1. apply K in H1. rewrite <- H1, (proj2 (bytes_eqb_eq _ _) eq_refl) in H2. discriminate.
    - apply bytes_eqb_eq in H2. symmetry in H2. apply K in H2. symmetry in H2. apply has_name_true in H2. congruence. }
  assert (Nb : map entry_tree (nonblank (entries ms)) = concat (map snd gs)).
  { rewrite <- En. unfold nonblank. clear -Bn. induction (entries ms) as [|e es IH]; [reflexivity|]. cbn [filter map]. rewrite <- (Bn e (or_introl eq_refl)). destruct (is_blank e); cbn [negb]; [|cbn [map]; f_equal]; apply IH; intros e' He'; apply Bn; right; exact He'. }
  destruct (split_groups _ _ Nb) as (gs' & E' & F2). assert (Ef : map fst gs' = map fst gs) by (clear -F2; induction F2 as [|x y l m [H _] F IH]; [reflexivity|cbn; congruence]).
  assert (Sub : forall g e, In g gs' -> In e (snd g) -> In e (entries ms)).
  { intros g e Hg He. assert (K : In e (nonblank (entries ms))) by (rewrite E'; apply in_concat; exists (snd g); split; [apply in_map, Hg|exact He]). apply filter_In in K. apply K. }
  destruct (parts_of_groups n i ms r gs' M E') as (L & PL & FL).
  - clear - F2 Fg Sub Ti. induction F2 as [|g' g gs' gs [H1 H2] F IH]; [constructor|]. inversion Fg as [|? ? [S1 S2] Fg']; subst. constructor; [|apply IH; [exact Fg'|intros g0 e Hg; apply Sub; right; exact Hg]]. split; [intros Z; apply S1; rewrite <- H2, Z; reflexivity|]. apply Forall_forall. intros e He. rewrite Forall_forall in S2. symmetry. apply (proj2 (entry_name (AToken n i ms) _ e Ti (Sub g' e (or_introl eq_refl) He))). rewrite H1. symmetry. apply S2. rewrite <- H2. apply in_map, He.
  - intros m x Hx Hb. rewrite Forall_forall in Bl. assert (K := Bl (drawn x) (in_map entry_tree _ _ Hx)). assert (B : is_blank (EToken m x) = true) by (apply is_blank_true; exact Hb). rewrite (Bn _ Hx) in B. specialize (K B). rewrite drawn_subs in K. destruct x. rewrite all_of_kids, map_app in K. apply app_eq_nil in K. destruct K as [_ K]. discriminate.
  - rewrite merge_same in FL by (rewrite Ef; exact Nd). exists L. split; [exact PL|]. clear - F2 FL Sub O Ti. revert gs F2. induction FL as [|g' x gs' L [H1 H2] FL IH]; intros gs F2; inversion F2 as [|? g ? gs0 [E1 E2] F2']; subst; [constructor|]. constructor; [|apply IH; [intros g0 e Hg; apply Sub; right; exact Hg|exact F2']]. split; [congruence|]. rewrite <- E2.
    assert (Su := fun e => Sub g' e (or_introl eq_refl)). clear - H2 Su O Ti. induction H2 as [|e p es ps H F IH]; [constructor|]. constructor; [|apply IH; intros e' He'; apply Su; right; exact He']. assert (He := Su e (or_introl eq_refl)). destruct e as [m w|m t], p as [v|q]; cbn [part_ok] in H; try contradiction; [exact H|]. destruct H as (y & Ly & My). assert (D := last_drawn n i ms m t y O He Ly). cbn [entry_tree]. unfold part_is. destruct t as [tn tl tm] eqn:Et. rewrite drawn_entries. rewrite <- drawn_entries, <- Et. exists y. split; [rewrite D, <- Et; reflexivity|]. split; [|exact My].
    apply (tidy_sub _ y Ti). apply within_all. destruct Ly as (a & b & Ew & _). rewrite Ew. apply in_or_app. right. left. reflexivity.
Qed.
