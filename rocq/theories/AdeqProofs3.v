(* AdeqProofs3.v - conforming trees of the shipped tokens. *)
From Coq Require Import Strings.String Strings.Byte Sorting.Permutation Lia.
From Verif Require Import Go GoLemmas DomainModel CardModel PatModel RuleModel PathModel PathSpec LexModel AstModel RootModel RootSpec RootProofs RootProofs2 TextModel EvtSpec AdeqSpec AdeqProofs AdeqProofs2.
Open Scope string_scope.
Open Scope list_scope.

Lemma specific_eqb_ok a b : specific_eqb a b = true -> a = b.
Proof. destruct a as [n|n [x|]], b as [m|m [y|]]; cbn; intros H; try discriminate; try (apply N.eqb_eq in H; congruence). apply andb_prop in H. destruct H as [H1 H2]. apply N.eqb_eq in H1, H2. congruence. Qed.
Lemma card_eqb_ok a b : card_eqb a b = true -> a = b.
Proof. destruct a, b; cbn; intros H; try discriminate; try reflexivity. apply specific_eqb_ok in H. congruence. Qed.
Lemma card_is_eff e c : card_is e c -> c = eff_card e.
Proof. unfold eff_card. intros [E|[E ->]]; rewrite E; reflexivity. Qed.
Definition sh_name (s : shape) : string := match s with R n _ => n | P n _ _ => n end.
Definition sh_card (s : shape) : cardinality := match s with R _ c => c | P _ c _ => c end.
Definition names_ok : bool :=
  forallb (fun x => forallb (fun l => forallb (fun s => negb (existsb (String.eqb (sh_name s)) channel_names) && match s with P n _ sp => forallb (fun m => existsb (String.eqb m) (map fst shapes)) (n :: map fst sp) | R _ _ => true end) l) (snd x)) shapes.
Lemma names_ok_true : names_ok = true.
Proof. vm_compute. reflexivity. Qed.
Lemma names_fact n ls l s : In (n, ls) shapes -> In l ls -> In s l -> ~ In (sh_name s) channel_names /\ match s with P n _ sp => forall m, In m (n :: map fst sp) -> In m (map fst shapes) | R _ _ => True end.
Proof.
  intros H1 H2 H3. assert (Q := names_ok_true). unfold names_ok in Q. rewrite forallb_forall in Q. specialize (Q _ H1). cbn [snd] in Q. rewrite forallb_forall in Q. specialize (Q _ H2). rewrite forallb_forall in Q. specialize (Q _ H3). apply andb_prop in Q. destruct Q as [Q1 Q2]. split.
  - intros I. apply Bool.negb_true_iff in Q1. assert (X : existsb (String.eqb (sh_name s)) channel_names = true) by (apply existsb_exists; exists (sh_name s); split; [exact I|apply String.eqb_refl]). congruence.
  - destruct s as [|k c sp]; [exact I|]. intros m Hm. rewrite forallb_forall in Q2. specialize (Q2 m Hm). apply existsb_exists in Q2. destruct Q2 as (y & Hy & Ey). apply String.eqb_eq in Ey. subst. exact Hy.
Qed.

Lemma Forall2_in_l {A B} (P : A -> B -> Prop) l m x : Forall2 P l m -> In x l -> exists y, In y m /\ P x y.
Proof. induction 1 as [|a b l m H F IH]; intros []; [subst; exists b; split; [left; reflexivity|exact H]|]. destruct IH as (y & Hy & Py); [assumption|]. exists y. split; [right; exact Hy|exact Py]. Qed.
Lemma Forall2_in_r {A B} (P : A -> B -> Prop) l m y : Forall2 P l m -> In y m -> exists x, In x l /\ P x y.
Proof. induction 1 as [|a b l m H F IH]; intros []; [subst; exists a; split; [left; reflexivity|exact H]|]. destruct IH as (x & Hx & Px); [assumption|]. exists x. split; [right; exact Hx|exact Px]. Qed.
Lemma Forall2_nth_r {A B} (P : A -> B -> Prop) l m i y : Forall2 P l m -> nth_error m i = Some y -> exists x, nth_error l i = Some x /\ P x y.
Proof. intros F. revert i. induction F as [|a b l m H F IH]; intros [|i] E; cbn in E; try discriminate; [injection E as <-; exists a; split; [reflexivity|exact H]|apply IH, E]. Qed.

Section Shipped.
Variable ts : list token.
Hypothesis Hts : Forall2 (fun x t => token_is x t = true) shapes ts.
Let conf := conforms ts blank_names False.

Definition sfill (s : shape) (g : list entry) : Prop :=
  match s with
  | R n c => (g = [] /\ is_valid c 0 = true) \/ exists w, w <> [] /\ g = [EText (bs n) w]
  | P n c sp => exists l, g = map (EToken (bs n)) l /\ is_valid c (N.of_nat (length l)) = true /\ Forall (conf (bs n)) l /\
      (l <> [] -> forall x, In x sp -> specific_is_valid (snd x) (N.of_nat (tokens_named (bs (fst x)) l)) = true)
  end.
Lemma declared_shape n : In n (map fst shapes) -> is_declared ts (bs n).
Proof.
  intros H. apply in_map_iff in H. destruct H as (x & <- & Hx). destruct (Forall2_in_l _ _ _ _ Hts Hx) as (t & Ht & Q). exists t. split; [exact Ht|]. unfold token_is in Q. apply andb_prop in Q. destruct Q as [Q _]. apply andb_prop in Q. destruct Q as [Q _]. apply bytes_eqb_eq in Q. congruence.
Qed.
Lemma all_conform_Forall n l : all_conform ts blank_names False n l -> Forall (conf n) l.
Proof. induction l as [|t l IH]; intros H; inversion H; subst; constructor; [assumption|apply IH; assumption]. Qed.
Lemma fill_shape s e g : el_is s e = true -> fills ts blank_names False e g -> (match s with P n _ sp => forall m, In m (n :: map fst sp) -> In m (map fst shapes) | R _ _ => True end) -> sfill s g.
Proof.
  intros E F D. unfold el_is in E. apply andb_prop in E. destruct E as [Ec E]. apply card_eqb_ok in Ec. inversion F as [e' (c & Hc & Hv)|e' r w Er Hw|e' r c l Er Hc Hl Hv Ha Hs]; subst.
  - apply card_is_eff in Hc. subst c. destruct s as [n c|n c sp]; cbn [sfill]; rewrite Ec; [left; split; [reflexivity|exact Hv]|]. exists []. split; [reflexivity|]. split; [exact Hv|]. split; [constructor|]. intros X. congruence.
  - rewrite Er in E. destruct s as [n c|n c sp]; [|discriminate]. apply bytes_eqb_eq in E. right. exists w. split; [exact Hw|]. congruence.
  - rewrite Er in E. destruct s as [n k|n k sp]; [discriminate|]. apply andb_prop in E. destruct E as [E Es]. apply bytes_eqb_eq in E. rewrite <- E in *. apply card_is_eff in Hc. cbn in Ec. exists l. split; [reflexivity|]. split; [congruence|]. split; [apply all_conform_Forall, Ha|]. intros _ x Hx.
    apply all2_ok in Es. destruct (Forall2_in_l _ _ _ _ Es Hx) as (y & Hy & Q). apply andb_prop in Q. destruct Q as [Q1 Q2]. apply bytes_eqb_eq in Q1. apply specific_eqb_ok in Q2. rewrite Q1, Q2. apply Hs; [exact Hy|]. rewrite <- Q1. apply declared_shape, D. right. apply in_map, Hx.
Qed.
Lemma sfill_names s g e : sfill s g -> In e g -> en_name e = bs (sh_name s).
Proof. destruct s as [n c|n c sp]; cbn; [intros [[-> _]|(w & _ & ->)]|intros (l & -> & _)]; cbn; [tauto|intros [<-|[]]; reflexivity|]. intros H. apply in_map_iff in H. destruct H as (t & <- & _). reflexivity. Qed.
Lemma nonblank_app a b : nonblank (a ++ b) = nonblank a ++ nonblank b.
Proof. apply filter_app. Qed.
Lemma line_shape l es ens : Forall2 (fun s e => el_is s e = true) l es -> (forall s, In s l -> ~ In (sh_name s) channel_names /\ match s with P n _ sp => forall m, In m (n :: map fst sp) -> In m (map fst shapes) | R _ _ => True end) -> line_fills ts blank_names False es ens ->
  exists gss, Forall2 sfill l gss /\ nonblank ens = concat gss /\ (forall n x, In (EToken n x) ens -> ~ In n blank_names) /\ (forall n w, In (EText n w) ens -> w <> []).
Proof.
  intros F D L. revert l F D. induction L as [|es n w l' Hn Hw L IH|e es a b H L IH|e es []]; intros l F D.
  - inversion F; subst. exists []. split; [constructor|]. split; [reflexivity|]. split; intros ? ? [].
  - destruct (IH l F D) as (gss & A & B & C & C'). exists gss. split; [exact A|]. split; [|split].
    + unfold nonblank. cbn [filter]. assert (Q : is_blank (EText n w) = true) by (apply is_blank_true; exact Hn). rewrite Q. exact B.
    + intros m x [Z|Z]; [discriminate|exact (C m x Z)].
    + intros m x [Z|Z]; [injection Z as <- <-; exact Hw|exact (C' m x Z)].
  - inversion F as [|s e' l0 es' Hs F']; subst. destruct (IH l0 F') as (gss & A & B & C & C'); [intros z Hz; apply D; right; exact Hz|]. destruct (D s (or_introl eq_refl)) as [Dn Dd].
    assert (Sf := fill_shape s e a Hs H Dd). exists (a :: gss). split; [constructor; assumption|]. assert (Nb : forall z, In z a -> ~ In (en_name z) blank_names).
    { intros z Hz I. rewrite (sfill_names _ _ _ Sf Hz) in I. apply in_map_iff in I. destruct I as (m & Em & Im). apply bs_inj in Em. congruence. }
    split; [|split].
    + rewrite nonblank_app, B. cbn [concat]. f_equal. unfold nonblank. clear -Nb. induction a as [|z a IH]; [reflexivity|]. cbn [filter]. destruct (is_blank z) eqn:Ez; [apply is_blank_true in Ez; exfalso; exact (Nb z (or_introl eq_refl) Ez)|]. cbn [negb]. f_equal. apply IH. intros y Hy. apply Nb. right. exact Hy.
    + intros m x Z. apply in_app_iff in Z. destruct Z as [Z|Z]; [apply (Nb _ Z)|exact (C m x Z)].
    + intros m x Z. apply in_app_iff in Z. destruct Z as [Z|Z]; [|exact (C' m x Z)]. clear -Z Sf. destruct s as [n c|n c sp]; cbn in Sf; [destruct Sf as [[-> _]|(w & Hw & ->)]|destruct Sf as (l & -> & _)]; [destruct Z|destruct Z as [Z|[]]; injection Z as _ <-; exact Hw|]. apply in_map_iff in Z. destruct Z as (? & Z & _). discriminate.
Qed.
(* a conforming tree, in terms of the table *)
Lemma conforms_shape n a : conf n a -> exists s ls l i ms gss,
  n = bs s /\ In (s, ls) shapes /\ In l ls /\ a = AToken (bs s) i ms /\ Forall2 sfill l gss /\ nonblank (entries ms) = concat gss /\
  (forall m x, In (EToken m x) (entries ms) -> ~ In m blank_names) /\ (forall m w, In (EText m w) (entries ms) -> w <> []).
Proof.
  intros H. inversion H as [t i tl ms Ht Hi Hl]; subst. destruct (Forall2_in_r _ _ _ _ Hts Ht) as ((s & ls) & Hs & Q). unfold token_is in Q. apply andb_prop in Q. destruct Q as [Q _]. apply andb_prop in Q. destruct Q as [Q Ql]. cbn [fst snd] in Q, Ql. apply bytes_eqb_eq in Q. apply all2_ok in Ql.
  destruct (Forall2_nth_r _ _ _ _ _ Ql Hi) as (l & El & Fl). apply all2_ok in Fl. apply nth_error_In in El.
  destruct (line_shape l _ (entries ms) Fl (fun z Hz => names_fact s ls l z Hs El Hz) Hl) as (gss & A & B & C & D).
  exists s, ls, l, i, ms, gss. rewrite Q. repeat split; assumption.
Qed.
Lemma conforms_name n a : conf n a -> at_name a = n.
Proof. intros H. inversion H; subst. reflexivity. Qed.
Lemma conforms_kid n i ms m x : conf n (AToken n i ms) -> In (EToken m x) (entries ms) -> conf m x.
Proof.
  intros H Hx. destruct (conforms_shape _ _ H) as (s & ls & l & j & ms' & gss & -> & _ & _ & E & F & B & C & _). injection E as <- <-.
  assert (Z : In (EToken m x) (nonblank (entries ms))) by (apply filter_In; split; [exact Hx|destruct (is_blank (EToken m x)) eqn:Eb; [exfalso; apply is_blank_true in Eb; exact (C _ _ Hx Eb)|reflexivity]]).
  rewrite B in Z. apply in_concat in Z. destruct Z as (g & Hg & Z). destruct (Forall2_in_r _ _ _ _ F Hg) as (y & _ & Sy). destruct y as [k c|k c sp]; cbn in Sy; [destruct Sy as [[-> _]|(w & _ & ->)]; [destruct Z|destruct Z as [Z|[]]; discriminate]|].
  destruct Sy as (l' & -> & _ & Fc & _). apply in_map_iff in Z. destruct Z as (x' & Z & Hx'). injection Z as <- <-. rewrite Forall_forall in Fc. apply Fc, Hx'.
Qed.
Lemma all_of_step y name i ms : In y (all_of (AToken name i ms)) -> y = AToken name i ms \/ exists m x, In (EToken m x) (entries ms) /\ In y (all_of x).
Proof. rewrite all_of_kids, in_app_iff. intros [H|[<-|[]]]; [right|left; reflexivity]. apply in_concat in H. destruct H as (l & Hl & Hy). apply in_map_iff in Hl. destruct Hl as (x & <- & Hx). apply kids_in in Hx. destruct Hx as (m & Hx). exists m, x. split; assumption. Qed.
Lemma kid_all_of y m x name i ms : In (EToken m x) (entries ms) -> In y (all_of x) -> In y (all_of (AToken name i ms)).
Proof. intros H Hy. rewrite all_of_kids, in_app_iff. left. apply in_concat. exists (all_of x). split; [|exact Hy]. apply in_map, kids_in. exists m. exact H. Qed.
Lemma all_of_trans z : forall x y, In x (all_of y) -> In y (all_of z) -> In x (all_of z).
Proof.
  induction z as [name i ms IH] using atoken_ind_kids. intros x y Hx Hy. destruct (all_of_step _ _ _ _ Hy) as [->|(m & k & Hk & Hy')]; [exact Hx|]. eapply kid_all_of; [exact Hk|]. eapply IH; eassumption.
Qed.
Lemma conforms_all a : forall n y, conf n a -> In y (all_of a) -> conf (at_name y) y.
Proof.
  induction a as [name i ms IH] using atoken_ind_kids. intros n y H Hy. assert (En := conforms_name _ _ H). cbn in En. subst n. destruct (all_of_step _ _ _ _ Hy) as [->|(m & k & Hk & Hy')]; [exact H|]. eapply IH; [exact Hk| |exact Hy']. eapply conforms_kid; eassumption.
Qed.
End Shipped.
Lemma within_all a y : In y (RootSpec.within a) -> In y (all_of a) /\ length (all_of y) < length (all_of a).
Proof.
  destruct a as [name i ms]. rewrite within_kids. intros H. split; [rewrite all_of_kids; apply in_or_app; left; exact H|].
  assert (Q : forall y z, In y (all_of z) -> length (all_of y) <= length (all_of z)).
  { clear. intros y z. revert y. induction z as [name i ms IH] using atoken_ind_kids. intros y Hy. destruct (all_of_step _ _ _ _ Hy) as [->|(m & k & Hk & Hy')]; [lia|]. specialize (IH _ _ Hk _ Hy'). rewrite (all_of_kids name i ms), app_length.
    assert (length (all_of k) <= length (concat (map all_of (kids (entries ms))))); [|lia]. assert (Hk' : In k (kids (entries ms))) by (apply kids_in; exists m; exact Hk). clear -Hk'. induction (kids (entries ms)) as [|c l IH]; [destruct Hk'|]. cbn. rewrite app_length. destruct Hk' as [<-|Hk']; [lia|]. specialize (IH Hk'). lia. }
  rewrite all_of_kids, app_length. cbn [length]. apply in_concat in H. destruct H as (l & Hl & Hy). apply in_map_iff in Hl. destruct Hl as (k & <- & Hk). specialize (Q _ _ Hy).
  assert (length (all_of k) <= length (concat (map all_of (kids (entries ms))))); [|lia]. clear -Hk. induction (kids (entries ms)) as [|c l IH]; [destruct Hk|]. cbn. rewrite app_length. destruct Hk as [<-|Hk]; [lia|]. specialize (IH Hk). lia.
Qed.
