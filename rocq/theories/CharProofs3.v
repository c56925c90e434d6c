(* CharProofs3.v - the rules of a grammar written in UTF-8 are in UTF-8. *)
From Coq Require Import Strings.String Strings.Byte Lia.
From Verif Require Import Go GoLemmas DomainModel CardModel PatModel RuleModel PathModel TextModel TextSpec Utf8Spec Utf8Proofs CharSpec CharProofs.
Open Scope list_scope.

Lemma ascii_char b : (Byte.to_N b < 0x80)%N -> character [b].
Proof. intros H. apply char_enc. apply enc1. exact H. Qed.
Lemma ascii_utf8 s : Forall (fun b => (Byte.to_N b < 0x80)%N) s -> utf8_text s.
Proof. induction 1; [constructor|]. change (x :: l) with ([x] ++ l). apply utf8_more; [apply ascii_char|]; assumption. Qed.
(* an ASCII byte ends a character *)
Lemma utf8_cut a b s : (Byte.to_N b < 0x80)%N -> utf8_text (a ++ b :: s) -> utf8_text a /\ utf8_text s.
Proof. intros Hb H. apply (utf8_around (a ++ b :: s) a [b] s H eq_refl); [discriminate|]. apply utf8_one, ascii_char. exact Hb. Qed.
Lemma cut_utf8 text secs tail : utf8_text text -> cut text secs tail -> Forall utf8_text secs.
Proof.
  intros H (E & _). subst text. revert H. induction secs as [|s secs IH]; intros H; [constructor|]. cbn [map concat] in H. rewrite <- !app_assoc in H. cbn [app] in H.
  apply utf8_cut in H; [|reflexivity]. constructor; [tauto|]. apply IH. tauto.
Qed.
Section Decl.
Context {X : Type} (P : bytes -> X -> Prop) (Q : X -> Prop).
Hypothesis HP : forall pre u x, utf8_text (pre ++ u) -> P u x -> Q x.
Lemma declared_utf8 secs xs : declared P secs xs -> Forall utf8_text secs -> Forall Q xs.
Proof.
  induction 1 as [|s l xs N D IH|s l x xs (pre & u & E & Hu & _) D IH]; intros F; [constructor| |]; inversion F; subst; [apply IH; assumption|].
  constructor; [|apply IH; assumption]. eapply HP; eassumption.
Qed.
Lemma declares_utf8 text xs : utf8_text text -> declares_all P text xs -> Forall Q xs.
Proof. intros H (secs & tail & C & D). apply (declared_utf8 secs xs D). apply (cut_utf8 text secs tail H C). Qed.
End Decl.
Lemma hide_step a b r : hide_quotes (a :: b :: r) = if Byte.eqb a backslash && Byte.eqb b dq then escape_code ++ hide_quotes r else a :: hide_quotes (b :: r).
Proof. reflexivity. Qed.
Lemma hide_utf8 s : utf8_text s -> utf8_text (hide_quotes s).
Proof.
  intros H. remember (length s) as n eqn:En. assert (L : length s <= n) by lia. clear En. revert s H L. induction n as [|n IH]; intros s H L; [destruct s; [constructor|cbn in L; lia]|].
  destruct s as [|a [|b r]]; [exact H|exact H|]. rewrite hide_step. destruct (Byte.eqb a backslash && Byte.eqb b dq) eqn:E.
  - apply andb_prop in E. destruct E as [E1 E2]. apply Byte.byte_dec_bl in E1, E2. subst. apply utf8_app; [apply ascii_utf8; repeat constructor|]. apply IH; [|cbn in L; lia].
    change (backslash :: dq :: r) with ([] ++ backslash :: dq :: r) in H. apply utf8_cut in H; [|reflexivity]. destruct H as [_ H]. change (dq :: r) with ([] ++ dq :: r) in H. apply utf8_cut in H; [tauto|reflexivity].
  - inversion H as [|w q Hw Hq Eq]. destruct w as [|x w]; [destruct (char_not_empty [] Hw eq_refl)|]. cbn in Eq. inversion Eq; subst x.
    (* the rest of the first character is copied *)
    assert (C : forall w q, (forall y, In y w -> cont (Byte.to_N y)) -> length (w ++ q) <= n -> utf8_text q -> exists q', hide_quotes (w ++ q) = w ++ q' /\ utf8_text q').
    { clear -IH. induction w as [|y w IHw]; intros q Hy Ln Hq; [exists (hide_quotes q); split; [reflexivity|apply IH; [exact Hq|exact Ln]]|].
      destruct (IHw q) as (q' & E & Hq'); [intros z Hz; apply Hy; right; exact Hz|cbn in Ln; lia|exact Hq|]. exists q'. split; [|exact Hq'].
      assert (Ny : Byte.eqb y backslash = false). { destruct (Byte.eqb y backslash) eqn:Eb; [|reflexivity]. apply Byte.byte_dec_bl in Eb. subst. specialize (Hy backslash (or_introl eq_refl)). unfold cont in Hy. cbn in Hy. lia. }
      cbn [app]. destruct (w ++ q) as [|z t] eqn:Et; [cbn [hide_quotes] in *; rewrite E; reflexivity|]. rewrite hide_step, Ny. cbn [andb]. f_equal. exact E. }
    destruct (C w q) as (q' & E' & Hq'); [apply (proj2 (char_parts a w Hw))|rewrite H2; cbn in *; lia|exact Hq|].
    rewrite ?H2. rewrite H2 in E'. rewrite E'. change (utf8_text ((a :: w) ++ q')). apply utf8_more; assumption.
Qed.
Lemma show_step a r : show_quotes (a :: r) = match r with b :: c :: r' => if bytes_eqb [a; b; c] escape_code then dq :: show_quotes r' else a :: show_quotes r | _ => a :: show_quotes r end.
Proof. reflexivity. Qed.
Lemma show_utf8 s : utf8_text s -> utf8_text (show_quotes s).
Proof.
  intros H. remember (length s) as n eqn:En. assert (L : length s <= n) by lia. clear En. revert s H L. induction n as [|n IH]; intros s H L; [destruct s; [constructor|cbn in L; lia]|].
  assert (Other : forall a r, s = a :: r -> show_quotes s = a :: show_quotes r -> utf8_text (show_quotes s)).
  { intros a r -> Es. rewrite Es. clear Es. inversion H as [|w q Hw Hq Eq]. destruct w as [|x w]; [destruct (char_not_empty [] Hw eq_refl)|]. cbn in Eq. inversion Eq; subst x.
    assert (C : forall w q, (forall y, In y w -> cont (Byte.to_N y)) -> length (w ++ q) <= n -> utf8_text q -> exists q', show_quotes (w ++ q) = w ++ q' /\ utf8_text q').
    { clear -IH. induction w as [|y w IHw]; intros q Hy Ln Hq; [exists (show_quotes q); split; [reflexivity|apply IH; [exact Hq|exact Ln]]|].
      destruct (IHw q) as (q' & E & Hq'); [intros z Hz; apply Hy; right; exact Hz|cbn in Ln; lia|exact Hq|]. exists q'. split; [|exact Hq'].
      assert (Ny : forall b c, bytes_eqb [y; b; c] escape_code = false). { intros b c. destruct (bytes_eqb [y; b; c] escape_code) eqn:Eb; [|reflexivity]. apply bytes_eqb_eq in Eb. inversion Eb; subst. specialize (Hy _ (or_introl eq_refl)). unfold cont in Hy. cbn in Hy. lia. }
      cbn [app]. rewrite show_step. destruct (w ++ q) as [|z [|z2 t]] eqn:Et; [rewrite E; reflexivity|rewrite E; reflexivity|]. rewrite Ny. f_equal. exact E. }
    destruct (C w q) as (q' & E' & Hq'); [apply (proj2 (char_parts a w Hw))|rewrite H2; cbn in *; lia|exact Hq|]. rewrite ?H2. rewrite H2 in E'. rewrite E'. change (utf8_text ((a :: w) ++ q')). apply utf8_more; assumption. }
  destruct s as [|a [|b [|c r]]]; [constructor|apply (Other a [] eq_refl); reflexivity|apply (Other a [b] eq_refl); reflexivity|].
  destruct (bytes_eqb [a; b; c] escape_code) eqn:E.
  - rewrite show_step, E. apply bytes_eqb_eq in E. inversion E; subst. change (utf8_text ([dq] ++ show_quotes r)). apply utf8_more; [apply ascii_char; reflexivity|]. apply IH; [|cbn in L; lia].
    change ("#" :: "#" :: "#" :: r)%byte with (["#"; "#"; "#"]%byte ++ r) in H. apply utf8_tail in H; [exact H|]. apply ascii_utf8. repeat constructor.
  - apply (Other a (b :: c :: r) eq_refl). rewrite show_step, E. reflexivity.
Qed.
Lemma join_utf8 sep l : (Byte.to_N sep < 0x80)%N -> utf8_text (join [sep] l) -> Forall utf8_text l.
Proof.
  intros Hs. induction l as [|x l IH]; intros H; [constructor|]. destruct l as [|y l]; [cbn in H; constructor; [exact H|constructor]|].
  change (join [sep] (x :: y :: l)) with (x ++ [sep] ++ join [sep] (y :: l)) in H. cbn [app] in H. apply utf8_cut in H; [|exact Hs]. constructor; [tauto|]. apply IH. tauto.
Qed.

(* ---- patterns ---- *)
Lemma name_start n : group_name n -> exists b w, n = b :: w /\ (Byte.to_N b < 0x80)%N.
Proof. intros (w & -> & _). exists "$"%byte, w. split; [reflexivity|reflexivity]. Qed.
Lemma group_decl_utf8 pre u (d : bytes * bytes) : utf8_text (pre ++ u) -> opens_quoted group_name u d -> utf8_text (snd d).
Proof.
  intros H (w & w2 & w3 & -> & _).
  replace (pre ++ fst d ++ w ++ colon :: w2 ++ dq :: snd d ++ dq :: w3) with ((pre ++ fst d ++ w) ++ colon :: w2 ++ dq :: snd d ++ dq :: w3) in H by (rewrite <- !app_assoc; reflexivity).
  apply utf8_cut in H; [|reflexivity]. destruct H as [_ H]. apply utf8_cut in H; [|reflexivity]. destruct H as [_ H]. apply utf8_cut in H; [tauto|reflexivity].
Qed.
Lemma group_of_utf8 d g : utf8_text (snd d) -> group_of d g -> group_utf8 g.
Proof.
  intros H (_ & os & (_ & E & _) & F). rewrite E in H. apply join_utf8 in H; [|reflexivity]. unfold group_utf8. clear E. revert F H. generalize (g_list g). clear. intros l F.
  induction F as [|o v os l Ho F IH]; intros H; [constructor|]. inversion H; subst. constructor; [|apply IH; assumption].
  destruct Ho as [[_ ->]|[_ ->]]; [apply utf8_one, ascii_char; reflexivity|assumption].
Qed.
Theorem patterns_utf8 text ps : utf8_text text -> means_patterns text ps -> Forall pattern_utf8 ps.
Proof.
  intros H (gd & groups & sd & sn & series & pd & pn & Hg & Fg & _ & _ & _ & Fs & _ & _ & Fp & _).
  assert (Gd : Forall (fun d : bytes * bytes => utf8_text (snd d)) gd) by (apply (declares_utf8 (opens_quoted group_name) _ group_decl_utf8 _ _ (hide_utf8 _ H) Hg)).
  assert (Gg : forall g, In g groups -> group_utf8 g).
  { clear -Gd Fg. induction Fg as [|d g gd gs Hd F IH]; intros x Hx; [destruct Hx|]. inversion Gd; subst. destruct Hx as [<-|Hx]; [apply (group_of_utf8 d); assumption|apply IH; assumption]. }
  assert (Gs : forall s, In s series -> forall g, In g (s_list s) -> group_utf8 g).
  { clear -Gg Fs. induction Fs as [|d s sd ss [_ Hd] F IH]; intros x Hx g Hi; [destruct Hx|]. destruct Hx as [<-|Hx]; [|apply (IH x Hx g Hi)].
    clear -Gg Hd Hi. revert Hi. induction Hd as [|n y ns ys (b & a & -> & _) F IH]; intros Hi; [destruct Hi|]. destruct Hi as [<-|Hi]; [|exact (IH Hi)]. apply Gg. apply in_or_app. right. left. reflexivity. }
  clear -Gs Fp. induction Fp as [|d p pd ps [_ Hd] F IH]; constructor; [|exact IH]. intros c g Hc Hi. apply (Gs (ch_serie c)); [|exact Hi].
  clear -Hd Hc. revert Hc. induction Hd as [|n y ns ys Hy F IH]; intros Hc; [destruct Hc|]. destruct Hc as [<-|Hc]; [|exact (IH Hc)].
  destruct Hy as [(_ & _ & b & a & -> & _)|(_ & m & _ & b & a & -> & _)]; apply in_or_app; right; left; reflexivity.
Qed.

(* ---- rules ---- *)
Lemma rule_decl_utf8 pre u (d : bytes * bytes) : utf8_text (pre ++ u) -> opens_tight rule_name u d -> utf8_text (snd d).
Proof. intros H (-> & _). rewrite app_assoc in H. apply utf8_cut in H; [tauto|reflexivity]. Qed.
Lemma content_utf8 (find : bytes -> pattern -> Prop) body c : utf8_text body -> (forall n p, find n p -> pattern_utf8 p) -> content_of find body c -> match c with RConstant c => utf8_text c | RPattern ps _ => Forall pattern_utf8 ps end.
Proof.
  intros H Hf C. destruct C as [p c rest E _ _|p _ _ _ _|p t ns around names ps c _ _ _ _ _ F _].
  - rewrite E in H. apply utf8_cut in H; [|reflexivity]. destruct H as [_ H]. apply utf8_cut in H; [|reflexivity]. apply show_utf8. tauto.
  - constructor.
  - clear -Hf F. induction F as [|n q names ps Hp F IH]; constructor; [apply (Hf n q Hp)|exact IH].
Qed.
Theorem rules_utf8 ps text rs : utf8_text text -> Forall pattern_utf8 ps -> means_rules (last_named p_name ps) text rs -> Forall rule_utf8 rs.
Proof.
  intros H Up (rd & Hd & F & _). assert (Gd : Forall (fun d : bytes * bytes => utf8_text (snd d)) rd) by (apply (declares_utf8 (opens_tight rule_name) _ rule_decl_utf8 _ _ H Hd)).
  clear -Up Gd F. induction F as [|d r rd rs (_ & _ & C) F IH]; inversion Gd; subst; constructor; [|apply IH; assumption].
  apply (content_utf8 (last_named p_name ps) (hide_quotes (snd d))); [apply hide_utf8; assumption| |exact C]. intros n pp (b0 & a0 & -> & _). rewrite Forall_forall in Up. apply Up. apply in_or_app. right. left. reflexivity.
Qed.
