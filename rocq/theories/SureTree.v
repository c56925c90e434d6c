(* SureTree.v - facts on spelled trees. *)
From Coq Require Import Strings.String Strings.Byte Sorting.Permutation Lia.
From Verif Require Import Go GoLemmas DomainModel CardModel PatModel PatSpec RuleModel RuleSpec PathModel PathSpec LexModel LexSpec AstModel RootModel RootProofs AdeqSpec RootSpec SpellSpec.
Open Scope string_scope.
Open Scope list_scope.

(* no text of the rule has the byte *)
Definition word_avoids (c : byte) (w : bytes) : bool := negb (existsb (Byte.eqb c) w).
Definition choice_avoids (c : byte) (h : choice) : bool := negb (ch_reverse h) && forallb (fun g => forallb (word_avoids c) (g_list g)) (s_list (ch_serie h)).
Definition avoids (c : byte) (r : rule) : bool :=
  match rl_content r with RConstant w => word_avoids c w | RPattern ps _ => forallb (fun p => forallb (choice_avoids c) (p_list p)) ps end.
Lemma word_avoids_ok c w : word_avoids c w = true <-> ~ In c w.
Proof.
  unfold word_avoids. rewrite Bool.negb_true_iff. split.
  - intros H I. assert (K : existsb (Byte.eqb c) w = true) by (apply existsb_exists; exists c; split; [exact I|]; destruct (Byte.eqb c c) eqn:E; [reflexivity|]; apply Byte.eqb_false in E; congruence). congruence.
  - intros H. destruct (existsb (Byte.eqb c) w) eqn:E; [|reflexivity]. apply existsb_exists in E. destruct E as (d & I & E). apply Byte.byte_dec_bl in E. subst d. destruct (H I).
Qed.
Lemma reads_avoids c gs t ws rest : reads gs t ws rest -> forallb (fun g => forallb (word_avoids c) (g_list g)) gs = true -> forall w, In w ws -> ~ In c w.
Proof.
  intros H. induction H as [|g gs w t' ws rest Hl _ IH]; intros F v Hv; [destruct Hv|]. cbn in F. apply andb_prop in F. destruct F as [F1 F2]. destruct Hv as [<-|Hv]; [|apply IH; assumption].
  rewrite forallb_forall in F1. apply word_avoids_ok, F1. apply Hl.
Qed.
Lemma choice_reads_avoids c h t x rest : choice_reads h t x rest -> choice_avoids c h = true -> forall y, In y x -> ~ In c (fst y).
Proof.
  intros H F y Hy. unfold choice_avoids in F. apply andb_prop in F. destruct F as [F1 F2]. inversion H as [s t0 ws rest0 R|]; subst; [|discriminate F1].
  destruct y as [w k]. apply in_combine_l in Hy. cbn. eapply reads_avoids; [exact R|exact F2|exact Hy].
Qed.
Lemma choices_avoids c hs t xs rest left : choices_read hs t xs rest left -> forallb (choice_avoids c) hs = true -> forall x y, In x xs -> In y x -> ~ In c (fst y).
Proof.
  intros H. induction H as [| |h hs t x t' xs rest left Hr _ IH]; intros F z y Hz Hy; [destruct Hz|destruct Hz|]. cbn in F. apply andb_prop in F. destruct F as [F1 F2]. destruct Hz as [<-|Hz]; [eapply choice_reads_avoids; eassumption|eapply IH; eassumption].
Qed.
Lemma in_stamps i xs d : In d (stamps i xs) -> exists x y, In x xs /\ In y x /\ d_content d = fst y.
Proof.
  destruct xs as [|x xs]; [intros []|]. cbn. rewrite in_app_iff, !in_map_iff. intros [(y & <- & Hy)|(y & <- & Hy)]; [exists x, y; cbn; auto|]. apply in_concat in Hy. destruct Hy as (z & Hz & Hy). exists z, y. cbn. auto.
Qed.
Lemma takes_avoids c r s rest : rule_takes r s rest -> avoids c r = true -> exists w, s = w ++ rest /\ ~ In c w.
Proof.
  intros H A. destruct H as [w rest E _|ps k s ms rest E H _ _ _]; unfold avoids in A; rewrite E in A.
  - exists w. split; [reflexivity|apply word_avoids_ok; exact A].
  - clear E k. induction H as [t|t t' m ms rest Hf Et _ IH]; [exists []; split; [reflexivity|intros []]|]. destruct IH as (w & -> & Nw). exists (taken m ++ w). split; [rewrite Et, app_assoc; reflexivity|].
    rewrite in_app_iff. intros [I|I]; [|exact (Nw I)]. destruct Hf as (b & p & a & -> & Hm & _). unfold taken in I. apply in_concat in I. destruct I as (x & Hx & Ix). apply in_map_iff in Hx. destruct Hx as (d & <- & Hd).
    unfold matches_as in Hm. destruct Hm as (xs & rest' & left & Hr & Hn & _ & Ed & _). rewrite Ed in Hd. apply in_stamps in Hd. destruct Hd as (u & y & Hu & Hy & Ey). rewrite Ey in Ix.
    rewrite forallb_forall in A. eapply choices_avoids; [exact Hr|apply A; apply in_or_app; right; left; reflexivity|exact Hu|exact Hy|exact Ix].
Qed.
Lemma spells_avoids c r k w : rule_spells r k w -> avoids c r = true -> ~ In c w.
Proof.
  intros (_ & rest & H) A. assert (Q : exists v, w ++ rest = v ++ rest /\ ~ In c v).
  { clear -H A. revert H. generalize (w ++ rest) as s. intros s H. induction H as [s|k s s1 s2 Ht _ IH]; [exists []; split; [reflexivity|intros []]|]. destruct IH as (v & -> & Nv). destruct (takes_avoids c r s _ Ht A) as (u & -> & Nu). exists (u ++ v). split; [apply app_assoc|]. rewrite in_app_iff. tauto. }
  destruct Q as (v & E & Nv). apply app_inv_tail in E. subst v. exact Nv.
Qed.

(* the bytes of a tree are those of its texts *)
Lemma text_of_entries b : at_discovery b = concat (map en_text (entries (at_matches b))).
Proof. destruct b. apply at_disc_entries. Qed.
Lemma step_down y name i ms : In y (all_of (AToken name i ms)) -> y = AToken name i ms \/ exists m x, In (EToken m x) (entries ms) /\ In y (all_of x).
Proof. rewrite all_of_kids, in_app_iff. intros [H|[<-|[]]]; [right|left; reflexivity]. apply in_concat in H. destruct H as (l & Hl & Hy). apply in_map_iff in Hl. destruct Hl as (x & <- & Hx). apply kids_in in Hx. destruct Hx as (m & Hx). exists m, x. split; assumption. Qed.
Lemma step_up m x y name i ms : In (EToken m x) (entries ms) -> In y (all_of x) -> In y (all_of (AToken name i ms)).
Proof. intros H Hy. rewrite all_of_kids, in_app_iff. left. apply in_concat. exists (all_of x). split; [|exact Hy]. apply in_map, kids_in. exists m. exact H. Qed.

Scheme spelled_m := Minimality for spelled Sort Prop
with line_m := Minimality for line_spelled Sort Prop
with elem_m := Minimality for element_spelled Sort Prop
with all_m := Minimality for all_spelled Sort Prop.

Section Trees.
Variable ts : list token.
Variable blanks : list rule.
Notation spelled := (spelled ts blanks).
Notation line_spelled := (line_spelled ts blanks).
Notation element_spelled := (element_spelled ts blanks).
Notation all_spelled := (all_spelled ts blanks).

Lemma all_in n l : all_spelled n l -> forall t, In t l -> spelled n t.
Proof. intros H. induction H as [|n t l H _ IH]; intros x []; [subst; assumption|auto]. Qed.
(* where an entry of a line comes from *)
Definition a_blank (e : entry) : Prop := exists r k w, In r blanks /\ rule_spells r k w /\ e = EText (rl_name r) w.
Lemma entry_from es l : line_spelled es l -> forall e, In e l -> a_blank e \/ exists x a, In x es /\ element_spelled x a /\ In e a.
Proof.
  intros H. induction H as [|es r k w l I W _ IH|x es a b Hx _ IH|x es _]; intros e He.
  - destruct He.
  - destruct He as [<-|He]; [left; exists r, k, w; auto|exact (IH e He)].
  - apply in_app_or in He. destruct He as [He|He]; [right; exists x, a; split; [left; reflexivity|auto]|]. destruct (IH e He) as [B|(y & c & I & Hy & Hc)]; [left; exact B|]. right. exists y, c. split; [right; exact I|auto].
  - destruct He.
Qed.
Definition refers (x : telem) (n : bytes) : Prop := exists r, te_content x = TRef r /\ tr_name r = n.
Lemma elem_entries x a : element_spelled x a ->
  (forall n w, In (EText n w) a -> exists r k, te_content x = TRule r /\ rl_name r = n /\ rule_spells r k w) /\
  (forall n t, In (EToken n t) a -> refers x n /\ spelled n t) /\
  (forall c, card_is x c -> is_valid c 0 = false -> a <> []).
Proof.
  intros H. destruct H as [x (c & Hc & V)|x r c k w Er Hc V W|x r c l Er Hc N V F S].
  - split; [intros n w []|split; [intros n t []|]]. intros d Hd Vd. unfold card_is in *. assert (d = c) by (destruct Hc as [Hc|[Hc ->]], Hd as [Hd|[Hd ->]]; congruence). congruence.
  - split; [|split; [|intros; discriminate]]; intros n t [E|[]]; try discriminate. injection E as <- <-. exists r, k. auto.
  - split; [|split].
    + intros n w I. apply in_map_iff in I. destruct I as (t & E & _). discriminate.
    + intros n t I. apply in_map_iff in I. destruct I as (y & E & I). injection E as <- <-. split; [exists r; auto|]. eapply all_in; eassumption.
    + intros _ _ _ E. apply N. destruct l; [reflexivity|discriminate].
Qed.
Lemma spelled_name n a : spelled n a -> at_name a = n.
Proof. intros H. destruct H. reflexivity. Qed.
Lemma spelled_line n a : spelled n a -> exists t l, In t ts /\ t_name t = n /\ In l (t_must t) /\ line_spelled (elements l) (entries (at_matches a)).
Proof. intros H. destruct H as [t i l ms I N F]. exists t, l. split; [exact I|]. split; [reflexivity|]. split; [eapply nth_error_In; exact N|exact F]. Qed.
Lemma spelled_token n a m x : spelled n a -> In (EToken m x) (entries (at_matches a)) ->
  spelled m x /\ exists t l e, In t ts /\ t_name t = n /\ In l (t_must t) /\ In e (elements l) /\ refers e m.
Proof.
  intros H I. destruct (spelled_line n a H) as (t & l & It & Et & Il & F). destruct (entry_from _ _ F _ I) as [(r & k & w & _ & _ & E)|(e & c & Ie & Hc & Hx)]; [discriminate|].
  destruct (elem_entries e c Hc) as (_ & B & _). destruct (B m x Hx) as [R S]. split; [exact S|]. exists t, l, e. auto.
Qed.
Lemma spelled_text n a m w : spelled n a -> In (EText m w) (entries (at_matches a)) -> exists r k, rl_name r = m /\ rule_spells r k w /\
  (In r blanks \/ exists t l e, In t ts /\ t_name t = n /\ In l (t_must t) /\ In e (elements l) /\ te_content e = TRule r).
Proof.
  intros H I. destruct (spelled_line n a H) as (t & l & It & Et & Il & F). destruct (entry_from _ _ F _ I) as [(r & k & v & Ir & W & E)|(e & c & Ie & Hc & Hx)].
  - injection E as -> ->. exists r, k. auto.
  - destruct (elem_entries e c Hc) as (A & _). destruct (A m w Hx) as (r & k & Er & En & W). exists r, k. split; [exact En|]. split; [exact W|]. right. exists t, l, e. auto.
Qed.
(* the trees in a tree are of the tokens its token leads to *)
Definition leads (S : list bytes) : Prop := forall t l e m, In t ts -> In (t_name t) S -> In l (t_must t) -> In e (elements l) -> refers e m -> In m S.
Lemma spelled_below a : forall n S y, leads S -> In n S -> spelled n a -> In y (all_of a) -> spelled (at_name y) y /\ In (at_name y) S.
Proof.
  induction a as [name i ms IH] using atoken_ind_kids. intros n S y L Hn H Hy. assert (En := spelled_name _ _ H). cbn in En. subst n. destruct (step_down _ _ _ _ Hy) as [->|(m & x & Hx & Hy')]; [split; assumption|].
  destruct (spelled_token _ _ m x H Hx) as (Sx & t & l & e & It & Et & Il & Ie & R). eapply IH; [exact Hx|exact L| |exact Sx|exact Hy']. eapply L; try eassumption. rewrite Et. exact Hn.
Qed.
(* a byte that no rule of the tokens below reads, nor a blank, is not in the text *)
Definition no_byte (c : byte) (S : list bytes) : Prop := forall t l e r, In t ts -> In (t_name t) S -> In l (t_must t) -> In e (elements l) -> te_content e = TRule r -> avoids c r = true.
Definition plain (c : byte) (a : atoken) : Prop := forall b r k w, In b (all_of a) -> In (EText (rl_name r) w) (entries (at_matches b)) -> In r blanks -> rule_spells r k w -> ~ In c w.
Lemma plain_below c a b : plain c a -> In b (all_of a) -> plain c b.
Proof.
  intros P Hb x r k w Hx. apply (P x r k w). clear P. revert x b Hb Hx. induction a as [name i ms IH] using atoken_ind_kids. intros x b Hb Hx. destruct (step_down _ _ _ _ Hb) as [->|(m & y & Hy & Hb')]; [exact Hx|]. eapply step_up; [exact Hy|]. eapply IH; eassumption.
Qed.
Lemma text_avoids c a : forall n S, leads S -> In n S -> no_byte c S -> plain c a -> spelled n a -> ~ In c (at_discovery a).
Proof.
  induction a as [name i ms IH] using atoken_ind_kids. intros n S L Hn B P H. assert (En := spelled_name _ _ H). cbn in En. subst n. rewrite text_of_entries. intros I. apply in_concat in I. destruct I as (w & Hw & Ic). apply in_map_iff in Hw. destruct Hw as (e & <- & He). destruct e as [m w|m x]; cbn [en_text] in Ic.
  - destruct (spelled_text _ _ m w H He) as (r & k & Er & W & [Ir|(t & l & e & It & Et & Il & Ie & Ee)]).
    + subst m. apply (P _ r k w (all_of_self _) He Ir W Ic).
    + eapply spells_avoids; [exact W| |exact Ic]. eapply B; try eassumption. rewrite Et. exact Hn.
  - destruct (spelled_token _ _ m x H He) as (Sx & t & l & e & It & Et & Il & Ie & R). revert Ic. eapply IH; [exact He|exact L| |exact B| |exact Sx].
    + eapply L; try eassumption. rewrite Et. exact Hn.
    + eapply plain_below; [exact P|]. eapply step_up; [exact He|apply all_of_self].
Qed.
(* a line with a first element *)
Lemma line_cons x es l : line_spelled (x :: es) l -> exists bl rest, l = bl ++ rest /\ Forall a_blank bl /\
  ((exists a b, rest = a ++ b /\ element_spelled x a /\ line_spelled es b) \/ (rest = [] /\ (skippable x \/ is_reference x))).
Proof.
  intros H. remember (x :: es) as xs eqn:E. induction H as [|es' r k w l I W _ IH|y es' a b Hy Hb _|y es' C]; [discriminate| | |].
  - subst es'. destruct (IH eq_refl) as (bl & rest & -> & F & D). exists (EText (rl_name r) w :: bl), rest. split; [reflexivity|]. split; [constructor; [exists r, k, w; auto|exact F]|exact D].
  - injection E as -> ->. exists [], (a ++ b). split; [reflexivity|]. split; [constructor|]. left. exists a, b. auto.
  - injection E as -> ->. exists [], []. split; [reflexivity|]. split; [constructor|]. right. auto.
Qed.
(* a rule that must be there is *)
Definition firm (x : telem) (n : bytes) : Prop := (exists r, te_content x = TRule r /\ rl_name r = n) /\ ~ skippable x.
Lemma firm_there x n es l : firm x n -> line_spelled (x :: es) l -> exists r w, te_content x = TRule r /\ rl_name r = n /\ In (EText n w) l /\ exists k, rule_spells r k w.
Proof.
  intros [(r & Er & En) N] H. destruct (line_cons _ _ _ H) as (bl & rest & -> & _ & [(a & b & -> & Ha & _)|(-> & [C|(q & Eq)])]); [|destruct (N C)|congruence].
  inversion Ha as [x' C|x' r' c k w Er' Hc V W|x' r' c l Er']; subst; [destruct (N C)| |congruence]. assert (r' = r) by congruence. subst r'. exists r, w. split; [exact Er|]. split; [reflexivity|]. split; [|exists k; exact W]. apply in_or_app. right. left. reflexivity.
Qed.
(* how many entries a line has of a name that is referred to once, or not at all *)
Definition at_most_one (x : telem) : Prop := forall c, card_is x c -> forall k, is_valid c (N.of_nat k) = true -> k <= 1.
Definition not_rule (n : bytes) : Prop := (forall t l e r, In t ts -> In l (t_must t) -> In e (elements l) -> te_content e = TRule r -> rl_name r <> n) /\ (forall r, In r blanks -> rl_name r <> n).
Fixpoint once (n : bytes) (es : list telem) : Prop :=
  match es with [] => True | x :: es => (~ refers x n /\ once n es) \/ (at_most_one x /\ forall y, In y es -> ~ refers y n) end.
Definition count (n : bytes) (l : list entry) : nat := length (filter (has_name n) l).
Lemma count_app n a b : count n (a ++ b) = count n a + count n b.
Proof. unfold count. rewrite filter_app, app_length. reflexivity. Qed.
Lemma has_name_eq n e : has_name n e = true <-> en_name e = n.
Proof. unfold has_name. destruct (list_eq_dec _ _ _); split; congruence. Qed.
Lemma count_none n l : (forall e, In e l -> en_name e <> n) -> count n l = 0.
Proof. unfold count. induction l as [|e l IH]; intros H; [reflexivity|]. cbn. destruct (has_name n e) eqn:E; [apply has_name_eq in E; destruct (H e (or_introl eq_refl) E)|]. apply IH. intros x Hx. apply H. right. exact Hx. Qed.
Lemma elem_none n x a : ~ refers x n -> (forall r, te_content x = TRule r -> rl_name r <> n) -> element_spelled x a -> count n a = 0.
Proof.
  intros R K H. apply count_none. intros e He E. destruct (elem_entries x a H) as (A & B & _). destruct e as [m w|m y]; cbn in E; subst m; [destruct (A n w He) as (r & k & Er & En & _); exact (K r Er En)|]. apply R. apply (B n y He).
Qed.
Lemma elem_one n x a : at_most_one x -> element_spelled x a -> count n a <= 1.
Proof.
  intros O H. destruct H as [x _|x r c k w _ _ _ _|x r c l Er Hc N V F S]; [cbn; lia| |].
  - unfold count. cbn. destruct (has_name n _); cbn; lia.
  - specialize (O c Hc _ V). unfold count. assert (length (filter (has_name n) (map (EToken (tr_name r)) l)) <= length (map (EToken (tr_name r)) l)) by (clear; induction (map (EToken (tr_name r)) l) as [|z m IH]; cbn; [lia|]; destruct (has_name n z); cbn; lia). rewrite map_length in *. lia.
Qed.
Lemma line_once n es l : line_spelled es l -> (forall r, In r blanks -> rl_name r <> n) -> (forall x r, In x es -> te_content x = TRule r -> rl_name r <> n) -> once n es -> count n l <= 1.
Proof.
  intros H Bn. induction H as [|es r k w l I W _ IH|x es a b Hx Hb IH|x es _]; intros K O; try (cbn; lia).
  - change (count n (EText (rl_name r) w :: l)) with (count n ([EText (rl_name r) w] ++ l)). rewrite count_app, (count_none n [_]); [apply IH; assumption|]. intros e [<-|[]]. cbn. exact (Bn r I).
  - rewrite count_app. destruct O as [[R O]|[A R]].
    + rewrite (elem_none n x a R (fun r => K x r (or_introl eq_refl)) Hx). apply IH; [intros y r Hy; apply K; right; exact Hy|exact O].
    + assert (Ka := elem_one n x a A Hx). assert (count n b = 0); [|lia]. apply count_none. intros e He E. destruct (entry_from _ _ Hb e He) as [(r & k & w & Ir & _ & ->)|(y & c & Iy & Hy & Hc)]; [exact (Bn r Ir E)|].
      destruct (elem_entries y c Hy) as (A1 & A2 & _). destruct e as [m w|m z]; cbn in E; subst m; [destruct (A1 n w Hc) as (r & k & Er & En & _); exact (K y r (or_intror Iy) Er En)|]. exact (R y Iy (proj1 (A2 n z Hc))).
Qed.
End Trees.
