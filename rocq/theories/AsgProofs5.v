(* AsgProofs5.v - proofs for AsgProps.v: what the trees of assignments mean. *)
From Coq Require Import Strings.String Strings.Byte Sorting.Permutation Lia.
From Verif Require Import Go GoLemmas DomainModel CardModel PatModel RuleModel PathModel PathSpec LexModel AstModel RootModel TextModel ParseModel ParseSpec BaseModel BaseSpec EvtModel EvtSpec EvtProofs EvtProofs2 EvtProofs3 EvtProofs4 EvtProofs5 PickSpec PickProofs2 AdeqSpec AdeqProofs2 LetterProofs ProgSpec ProgProofs ProgProofs2 ProgProofs3 ProgProofs5 ProgProofs6 ProgProofs7 ProgProofs8 ProgProofs9 ProgProofs10 ListSpec RecProofs4 RecProofs6 LitSpec LitProofs2 LitProofs3 AsgSpec RootSpec RootProofs RootProofs2.
Open Scope list_scope.

(* ---- the trees, with trees of names ---- *)
Lemma under_is n i t : LitSpec.under n i t = Branch (bs n) i [t]. Proof. reflexivity. Qed.
Lemma decl_is t g w : is_name w -> ldecl_tree (LPlain t) g w = decl_tree t g w.
Proof. intros W. unfold ldecl_tree. rewrite plain_tree, (name_shape_is w W), gap_lead. reflexivity. Qed.

(* ---- the same text below ---- *)
Definition even (t : tree) : Prop := forall z, In z (subs t) -> tree_text z = tree_text t.
Lemma even_one n i t : even t -> even (Branch n i [t]).
Proof. intros E z H. cbn [subs map concat] in H. rewrite app_nil_r in H. apply in_app_or in H. cbn [tree_text map concat]. rewrite app_nil_r. destruct H as [H|[<-|[]]]; [apply E, H|]. cbn [tree_text map concat]. apply app_nil_r. Qed.
Lemma even_texts n i l : Forall (fun t => token_tree t = false) l -> even (Branch n i l).
Proof.
  intros F z H. cbn [subs] in H. apply in_app_or in H. destruct H as [H|[<-|[]]]; [|reflexivity]. exfalso. revert H. induction F as [|t l T F IH]; intros H; [destruct H|]. destruct t; [apply IH, H|discriminate].
Qed.
Lemma name_even w : is_name w -> even (name_shape w).
Proof. intros _. apply even_texts. repeat constructor. Qed.
Lemma value_even l : even (value_tree l).
Proof.
  destruct (value_tree_is l) as (i & ->). apply even_one. destruct (group_tree_is l) as (j & ->). apply even_one. destruct (literal_tree_is l) as (k & ->). apply even_texts. apply Forall_forall. intros t It. apply in_map_iff in It. destruct It as (x & <- & _). reflexivity.
Qed.
Lemma given_even v : good_given v -> even (given_shape v).
Proof. destruct v as [l|w]; cbn [given_shape good_given]; intros G; rewrite !under_is; [do 2 apply even_one; apply value_even|do 3 apply even_one; apply name_even, G]. Qed.
Lemma one_tree_text n i t : tree_text (Branch n i [t]) = tree_text t.
Proof. cbn [tree_text map concat]. apply app_nil_r. Qed.
Lemma name_shape_text w : is_name w -> tree_text (name_shape w) = w.
Proof. intros W. rewrite (name_shape_is w W). apply name_text, W. Qed.
Lemma texts_text n i l : tree_text (Branch n i (map word_tree l)) = concat (map snd l).
Proof. cbn [tree_text]. rewrite map_map. reflexivity. Qed.
Lemma gap_text g : concat (map snd (gap_words g)) = g.
Proof. destruct g; [reflexivity|]. cbn. rewrite app_nil_r. reflexivity. Qed.
Lemma sign_texts m : concat (map snd (sign_words m)) = match m with Some g => bs "-" ++ g | None => [] end.
Proof. destruct m as [g|]; [|reflexivity]. cbn [sign_words map concat snd]. rewrite gap_text. reflexivity. Qed.
Lemma value_text l : tree_text (value_tree l) = literal_text l.
Proof.
  destruct (value_tree_is l) as (i & ->). rewrite one_tree_text. destruct (group_tree_is l) as (j & ->). rewrite one_tree_text. destruct (literal_tree_is l) as (k & ->). rewrite texts_text.
  destruct l as [w|g w|m u g1 g2 v|[]|w]; cbn [literal_words literal_text map concat snd]; rewrite ?map_app, ?concat_app, ?sign_texts, ?gap_text; cbn [map concat snd]; rewrite ?app_nil_r, <- ?app_assoc; try reflexivity.
Qed.
Lemma given_shape_text v : good_given v -> tree_text (given_shape v) = given_text v.
Proof. destruct v as [l|w]; cbn [given_shape good_given given_text]; intros G; rewrite !under_is, !one_tree_text; [apply value_text|apply name_shape_text, G]. Qed.

(* ---- own ---- *)
Lemma word_own t : good_target t -> own (word_shape t).
Proof. destruct t as [t g w|w|]; cbn [word_shape good_target]; intros G; [apply own_texts; repeat constructor| |apply own_texts; repeat constructor]. rewrite under_is, (name_shape_is w (proj1 G)). apply own_one, name_own, G. Qed.
Lemma first_own t : good_target t -> own (first_shape t).
Proof. destruct t as [t g w|w|]; intros G; cbn [first_shape]; rewrite under_is; apply own_one; try (apply word_own; exact G). cbn [good_target] in G. rewrite (decl_is t g w) by apply G. apply decl_own; apply G. Qed.
Lemma own_gap n i t g : own t -> own (Branch n i (t :: gap_tree g)).
Proof. intros O. rewrite gap_lead. apply own_solo; [split; [intros _ y z Iy; destruct g; [destruct Iy|destruct Iy as [<-|[]]; intros []]|rewrite <- (app_nil_r (lead g)); apply solo_lead; exact I]|constructor; [exact O|rewrite <- (app_nil_r (lead g)); apply own_lead; constructor]]. Qed.
Lemma own_then n i t l : own t -> Forall (fun u => token_tree u = false) l -> own (Branch n i (t :: l)).
Proof.
  intros O F. assert (Ns : forall u, In u l -> subs u = []) by (intros u Iu; rewrite Forall_forall in F; specialize (F u Iu); destruct u; [reflexivity|discriminate]).
  apply own_solo; [|constructor; [exact O|eapply Forall_impl; [|exact F]; intros [? ?|? ? ?]; [intros _; exact I|discriminate]]]. split; [intros _ y z Iy Iz; rewrite (Ns y Iy) in Iz; destruct Iz|]. clear -Ns. induction l as [|u l IH]; [exact I|]. split; [intros N; contradiction N; apply Ns; left; reflexivity|apply IH; intros v Iv; apply Ns; right; exact Iv].
Qed.
Lemma gap_flat g : Forall (fun u => token_tree u = false) (gap_tree g).
Proof. destruct g; repeat constructor. Qed.
Lemma assignee_own a : good_target (st_target a) -> own (assignee_shape a).
Proof.
  intros G. unfold assignee_shape. destruct (st_colon a) as [g|]; (apply own_then; [|]).
  - apply own_then; [apply first_own, G|apply gap_flat].
  - constructor; [reflexivity|]. apply Forall_app. split; [apply gap_flat|repeat constructor].
  - apply own_then; [apply word_own, G|apply gap_flat].
  - repeat constructor.
Qed.
Lemma given_own v : good_given v -> own (given_shape v).
Proof. destruct v as [l|w]; cbn [given_shape good_given]; intros G; rewrite !under_is; [do 2 apply own_one; apply value_own|do 3 apply own_one; rewrite (name_shape_is w G); apply name_own, G]. Qed.
(* the text of an assignee ends with an equal sign and starts with a letter or an underscore *)
Lemma word_shape_text t : good_target t -> tree_text (word_shape t) = match t with TNamed w => w | _ => bs "_" end.
Proof. destruct t as [t g w|w|]; cbn [word_shape good_target]; intros G; try reflexivity. rewrite under_is, one_tree_text. apply name_shape_text, G. Qed.
Lemma first_shape_text t : good_target t -> tree_text (first_shape t) = target_text t.
Proof. destruct t as [t g w|w|]; intros G; cbn [first_shape target_text]; rewrite under_is, one_tree_text; [|rewrite word_shape_text by exact G; reflexivity|reflexivity]. cbn [good_target] in G. rewrite decl_is by apply G. apply decl_text, G. Qed.
Lemma assignee_text a : good_target (st_target a) -> (st_colon a = None -> forall t g w, st_target a <> TTyped t g w) -> exists s, tree_text (assignee_shape a) = target_text (st_target a) ++ s /\ In x3d s.
Proof.
  intros G N. unfold assignee_shape. destruct (st_colon a) as [g|]; cbn [tree_text map concat].
  - rewrite first_shape_text by exact G. rewrite <- app_assoc. eexists. split; [reflexivity|]. apply in_or_app. right. apply in_or_app. right. rewrite map_app, concat_app. apply in_or_app. right. left. reflexivity.
  - specialize (N eq_refl). rewrite word_shape_text by exact G. destruct (st_target a) as [t g w|w|]; [exfalso; eapply N; reflexivity| |]; cbn [target_text]; rewrite <- app_assoc; (eexists; split; [reflexivity|apply in_or_app; right; left; reflexivity]).
Qed.
Lemma lit_head l : good_literal l -> (forall b, l <> LTruth b) -> exists b s, literal_text l = b :: s /\ In b (x2d :: x22 :: digits).
Proof.
  assert (D : forall w, is_digits w -> exists b s, w = b :: s /\ In b (x2d :: x22 :: digits)). { intros w (N & F). destruct w as [|b s]; [contradiction|]. inversion F; subst. exists b, s. split; [reflexivity|right; right; assumption]. }
  destruct l as [w|g w|m u g1 g2 v|b|w]; cbn [literal_text]; intros H N.
  - apply D, H.
  - eexists _, _. split; [reflexivity|left; reflexivity].
  - destruct H as (_ & Du & _). destruct m as [k|]; [eexists _, _; split; [reflexivity|left; reflexivity]|]. destruct (D u Du) as (b & s & -> & K). eexists _, _. split; [reflexivity|exact K].
  - destruct (N b eq_refl).
  - eexists _, _. split; [reflexivity|right; left; reflexivity].
Qed.
Lemma target_starts t s : good_target t -> exists b r, target_text t ++ s = b :: r /\ In b (x5f :: lower).
Proof.
  destruct t as [t g w|w|]; cbn [target_text]; intros H.
  - destruct (type_name t) as (a & v & E & I & _). rewrite E. exists a. eexists. split; [reflexivity|right; exact I].
  - destruct H as [(a & v & -> & I & _) _]. exists a. eexists. split; [reflexivity|right; exact I].
  - eexists _, _. split; [reflexivity|left; reflexivity].
Qed.
Lemma apart_texts a : good_setting a -> given_text (st_given a) <> tree_text (assignee_shape a).
Proof.
  intros (Gt & _ & Gc & _ & Gg) E. destruct (assignee_text a Gt) as (s & Es & I). { intros Z. rewrite Z in Gc. exact Gc. }
  rewrite Es in E. destruct (st_given a) as [l|w]; cbn [given_text good_given] in *.
  - destruct Gg as [Gl Nl]. destruct (lit_head l Gl Nl) as (b & r & El & Ib). destruct (target_starts _ s Gt) as (c & r' & Ec & Ic). rewrite El, Ec in E. injection E as -> _. revert Ib. apply (misses_ok (x5f :: lower) (x2d :: x22 :: digits)); [reflexivity|exact Ic].
  - assert (J : In x3d w) by (rewrite E; apply in_or_app; right; exact I). destruct (name_letters w Gg) as [_ F]. rewrite Forall_forall in F. specialize (F _ J). cbv beta in F. apply in_b_ok in F. vm_compute in F. discriminate F.
Qed.
Lemma setting_own a : good_setting a -> own (setting_shape a).
Proof.
  intros G. assert (Na := apart_texts a G). destruct G as (Gt & _ & _ & _ & Gg). unfold setting_shape. rewrite gap_lead. apply own_solo.
  - split; [|apply solo_lead; split; [intros _ y z []|exact I]]. intros _ y z Iy Iz E. exfalso. apply in_app_or in Iy. destruct Iy as [Iy|[<-|[]]]; [destruct (st_after a); [destruct Iy|destruct Iy as [<-|[]]; destruct Iz]|].
    apply Na. rewrite <- E, <- (given_shape_text _ Gg). rewrite under_is in Iz. rewrite (even_one _ _ _ (given_even _ Gg) z Iz). symmetry. apply one_tree_text.
  - constructor; [apply assignee_own, Gt|]. apply own_lead. constructor; [rewrite under_is; apply own_one, given_own, Gg|constructor].
Qed.
Lemma alone_own a : good_setting a -> own (alone_shape a).
Proof. intros G. unfold alone_shape. rewrite !under_is. do 3 apply own_one. apply setting_own, G. Qed.

(* ---- whole ---- *)
Lemma word_whole t : good_target t -> whole (word_shape t).
Proof. destruct t as [t g w|w|]; cbn [word_shape good_target]; intros G; [repeat split; discriminate| |repeat split; discriminate]. rewrite under_is, (name_shape_is w (proj1 G)). apply one_whole; [discriminate|apply name_whole, G]. Qed.
Lemma first_whole t : good_target t -> whole (first_shape t).
Proof. destruct t as [t g w|w|]; intros G; cbn [first_shape]; rewrite under_is; (apply one_whole; [discriminate|]); try (apply word_whole; exact G). cbn [good_target] in G. rewrite decl_is by apply G. apply decl_whole, G. Qed.
Lemma gap_whole g : Forall whole (gap_tree g).
Proof. rewrite gap_lead, <- (app_nil_r (lead g)). apply whole_lead. constructor. Qed.
Lemma then_whole n i t l : n <> [] -> whole t -> Forall whole l -> whole (Branch n i (t :: l)).
Proof. intros N W F. apply whole_branch. split; [exact N|]. split; [discriminate|]. constructor; assumption. Qed.
Lemma text_whole n w : n <> [] -> w <> [] -> whole (Text n w).
Proof. intros N W. split; assumption. Qed.
Lemma assignee_whole a : good_target (st_target a) -> whole (assignee_shape a).
Proof.
  intros G. unfold assignee_shape. destruct (st_colon a) as [g|]; (apply then_whole; [discriminate| |]).
  - apply then_whole; [discriminate|apply first_whole, G|apply gap_whole].
  - constructor; [apply text_whole; discriminate|]. apply Forall_app. split; [apply gap_whole|constructor; [apply text_whole; discriminate|constructor]].
  - apply then_whole; [discriminate|apply word_whole, G|apply gap_whole].
  - constructor; [apply text_whole; discriminate|constructor].
Qed.
Lemma given_whole v : good_given v -> whole (given_shape v).
Proof. destruct v as [l|w]; cbn [given_shape good_given]; intros G; rewrite !under_is; [do 2 (apply one_whole; [discriminate|]); apply value_whole, G|do 3 (apply one_whole; [discriminate|]); rewrite (name_shape_is w G); apply name_whole, G]. Qed.
Lemma setting_whole a : good_setting a -> whole (setting_shape a).
Proof. intros (Gt & _ & _ & _ & Gg). unfold setting_shape. apply then_whole; [discriminate|apply assignee_whole, Gt|]. apply Forall_app. split; [apply gap_whole|]. constructor; [rewrite under_is; apply one_whole; [discriminate|apply given_whole, Gg]|constructor]. Qed.
Lemma alone_whole a : good_setting a -> whole (alone_shape a).
Proof. intros G. unfold alone_shape. rewrite !under_is. do 3 (apply one_whole; [discriminate|]). apply setting_whole, G. Qed.

(* ---- clear ---- *)
Lemma assignee_clear a : good_target (st_target a) -> clear_b (assignee_shape a) = true /\ free_of (bs "assignables") (assignee_shape a) = true.
Proof.
  destruct a as [t g c k v]. cbn [st_target]. intros G. unfold assignee_shape. cbn [st_target st_before st_colon]. destruct t as [ty g0 w|w|]; cbn [good_target] in G.
  - destruct G as (_ & W & _). cbn [first_shape word_shape]. rewrite (decl_is ty g0 w W). destruct W as (x & u & -> & _). destruct c as [[|]|], ty, g0, g; split; vm_compute; reflexivity.
  - destruct G as (W & _). cbn [first_shape word_shape]. rewrite (name_shape_is w W). destruct W as (x & u & -> & _). destruct c as [[|]|], g; split; vm_compute; reflexivity.
  - destruct c as [[|]|], g; split; vm_compute; reflexivity.
Qed.
Lemma given_clear v : good_given v -> clear_b (given_shape v) = true.
Proof. destruct v as [l|w]; cbn [given_shape good_given]; intros G; rewrite !under_is; [do 2 apply one_clear; apply value_clear|]. rewrite (name_shape_is w G). destruct G as (x & u & -> & _). vm_compute. reflexivity. Qed.
Lemma free_one n m i t : bytes_eqb n m = false -> free_of n t = true -> free_of n (Branch m i [t]) = true.
Proof. intros E F. unfold free_of in *. cbn [names map concat existsb tree_name]. rewrite app_nil_r. apply negb_true_iff in F. apply negb_true_iff. rewrite ?existsb_app, ?F, ?E. cbn [existsb]. rewrite ?E. reflexivity. Qed.
Lemma free_texts n m i l : bytes_eqb n m = false -> forallb (fun x => negb (bytes_eqb n (bs (fst x)))) l = true -> free_of n (Branch m i (map word_tree l)) = true.
Proof.
  intros E F. unfold free_of. cbn [names tree_name existsb]. rewrite names_apart.
  - rewrite ?E. reflexivity.
  - apply Forall_forall. intros t It. apply in_map_iff in It. destruct It as (x & <- & Ix). rewrite forallb_forall in F. specialize (F x Ix). unfold free_of, word_tree. cbn [names tree_name existsb]. apply negb_true_iff in F. rewrite F. reflexivity.
Qed.
Lemma given_free v : good_given v -> free_of (bs "assignee") (given_shape v) = true.
Proof.
  destruct v as [l|w]; cbn [given_shape good_given]; intros G; rewrite !under_is.
  - do 2 (apply free_one; [reflexivity|]). destruct (value_tree_is l) as (i & ->). apply free_one; [reflexivity|]. destruct (group_tree_is l) as (j & ->). apply free_one; [destruct l; reflexivity|]. destruct (literal_tree_is l) as (k & ->). apply free_texts; [destruct l; reflexivity|].
    destruct l as [w|g w|m u g1 g2 v|[]|w]; try reflexivity; [destruct g; reflexivity|destruct m as [[]|], g1, g2; reflexivity].
  - rewrite (name_shape_is w G). destruct G as (x & u & -> & _). vm_compute. reflexivity.
Qed.
Lemma setting_clear a : good_setting a -> clear_b (setting_shape a) = true.
Proof.
  intros (Gt & _ & _ & _ & Gg). destruct (assignee_clear a Gt) as [C F]. unfold setting_shape. rewrite gap_lead. apply two_clear; [exact C|rewrite under_is; apply one_clear, given_clear, Gg|unfold assignee_shape; destruct (st_colon a); reflexivity|reflexivity|exact F| | |discriminate].
  - assert (E : tree_name (assignee_shape a) = bs "assignee") by (unfold assignee_shape; destruct (st_colon a); reflexivity). rewrite E, under_is. apply free_one; [reflexivity|apply given_free, Gg].
  - unfold assignee_shape; destruct (st_colon a); discriminate.
Qed.
Lemma alone_clear a : good_setting a -> clear_b (alone_shape a) = true.
Proof. intros G. unfold alone_shape. rewrite !under_is. do 3 apply one_clear. apply setting_clear, G. Qed.
