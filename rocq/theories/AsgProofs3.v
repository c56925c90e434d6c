(* AsgProofs3.v - proofs for AsgProps.v: reading assignments to the end of the text. *)
From Coq Require Import Strings.String Strings.Byte Lia.
From Verif Require Import Go GoLemmas DomainModel DomainSpec CardModel CardSpec PatModel PatSpec PatProofs RuleModel RuleSpec PathModel PathSpec LexModel LexSpec OrdSpec OrdProofs2 PickSpec PickProofs2 PickProofs3 LetterProofs ShapeProofs ProgSpec ShapeProofs2 ProgProofs ProgProofs2 ProgProofs3 ProgProofs4 ProgProofs5 ListSpec RecProofs4 RecProofs6 LitSpec LitProofs2 AsgSpec AsgProofs AsgProofs2.
Open Scope list_scope.

Section Read.
Variable channels : nat -> list path.
Hypothesis Hc : plain_channels channels.
Hypothesis Hb : blank_channels channels.
Notation quiet := (PickSpec.quiet channels).
Notation gives := (gives channels).
Notation bad := (bad channels).
Notation line_gives := (line_gives channels).
Notation line_bad := (line_bad channels).
Notation beaten := (beaten channels).
Notation picks := (picks channels).
Notation G := (G channels).
Notation PK := (PK channels).
Notation LG := (LG channels).

Lemma ends_nil : ends_class letters [].
Proof. intros b t E. discriminate. Qed.
Lemma lead_G c g s out s1 : blank g -> calm s -> G c true true s out s1 -> G c true true (g ++ s) (gap_tree g ++ out) s1.
Proof. intros F Q H. destruct g as [|a g]; [exact H|]. cbn [gap_tree app]. apply (G_skip channels Hc) with (s1 := s); [|exact H]. exact (passes_spaces channels Hc Hb (a :: g) s ltac:(discriminate) F (calm_ends s Q)). Qed.
Lemma token_G e s t s1 : calm s -> PK e true s t s1 -> G (PToken e [] one) true true s [t] s1.
Proof. intros Q H. apply (G_token channels Hc); [apply calm_some, Q|intros _; apply calm_quiet; [exact Hb|exact Q]|exact H]. Qed.
(* a token read along a line of one token that reads to the end *)
Lemma PK_one e n s before e0 after t : el_name e = n -> el_not e = None -> el_must e = before ++ [ICont (PToken e0 [] one)] :: after -> calm s -> PK e0 true s t [] -> beaten 1 true s before -> PK e true s (Branch n (length before) [t]) [].
Proof.
  intros <- Nn Em Q H B. eapply (PK_end channels); [exact Nn|exact Em|apply calm_some, Q| |apply (beaten_BT channels Hc), B]. apply (LG_one channels Hc). apply token_G; assumption.
Qed.
Definition given_calm v : Prop := calm (given_text v).
Lemma given_is_calm v : good_given v -> calm (given_text v).
Proof. destruct v as [l|w]; cbn [given_text]; intros H; rewrite <- (app_nil_r (_ : bytes)); [apply group_calm, H|apply name_calm, H]. Qed.
Lemma literal_head l : good_literal l -> (forall b, l <> LTruth b) -> exists b s, literal_text l = b :: s /\ not_list b = true.
Proof.
  assert (D : forall w, is_digits w -> exists b s, w = b :: s /\ not_list b = true). { intros w H. destruct (digits_head w H) as (a & v & -> & I). exists a, v. split; [reflexivity|]. apply (digit_head_no not_list); [reflexivity|exact I]. }
  destruct l as [w|g w|m u g1 g2 v|b|w]; cbn [literal_text]; intros H N.
  - apply D, H.
  - eexists _, _. split; [reflexivity|reflexivity].
  - destruct H as (Gm & Du & _). destruct m as [k|]; [eexists _, _; split; [reflexivity|reflexivity]|]. destruct (D u Du) as (b & s & -> & K). eexists _, _. split; [reflexivity|exact K].
  - destruct (N b eq_refl).
  - eexists _, _. split; [reflexivity|reflexivity].
Qed.
Lemma follow_end l : may_follow l [].
Proof. assert (N : no_digit []) by (intros c r E; discriminate). destruct l; cbn [may_follow]; auto. Qed.
Lemma given_PK e v : to sh_assignable e -> good_given v -> PK e true (given_text v) (given_shape v) [].
Proof.
  intros (En & Nn & L) H. assert (Q := given_is_calm v H). cbn [both] in L. destruct (el_must e) as [|[|i0 [|? ?]] [|[|i1 [|? ?]] [|? ?]]] eqn:Em; try tauto. destruct L as ((K0 & _) & (K1 & _) & _). apply has_tok in K0. destruct K0 as (e0 & -> & K0). apply has_tok in K1. destruct K1 as (e1 & -> & K1).
  destruct v as [l|w]; cbn [given_text given_shape] in *; unfold under.
  - destruct H as [H N]. destruct (literal_head l H N) as (b & s & Es & Nb).
    apply (PK_one e _ _ [[ICont (PToken e0 [] one)]] e1 []); [exact En|exact Nn|exact Em|exact Q| |apply bt_bad; [|constructor]; apply lb_here; rewrite Es; apply (total_no channels Hb); assumption].
    destruct K1 as (E1 & N1 & L1). cbn [both] in L1. destruct (el_must e1) as [|l1 ls] eqn:Em1; try tauto. destruct L1 as (L1 & _). apply both_one in L1. destruct L1 as (j0 & -> & J0). apply has_tok in J0. destruct J0 as (f0 & -> & J0).
    apply (PK_one e1 _ _ [] f0 ls); [exact E1|exact N1|exact Em1|exact Q| |constructor]. apply (picks_PK channels Hc). rewrite <- (app_nil_r (literal_text l)). apply (value_picks channels Hc Hb); [exact J0|exact H|apply follow_end].
  - apply (PK_one e _ _ [] e0 [[ICont (PToken e1 [] one)]]); [exact En|exact Nn|exact Em|exact Q| |constructor].
    destruct K0 as (E0 & N0 & L0). cbn [both] in L0. destruct (el_must e0) as [|l0 ls] eqn:Em0; try tauto. destruct L0 as (L0 & _). apply both_one in L0. destruct L0 as (j0 & -> & J0). apply has_tok in J0. destruct J0 as (f0 & -> & (F0 & M0 & P0)).
    apply (PK_one e0 _ _ [] f0 ls); [exact E0|exact N0|exact Em0|exact Q| |constructor].
    cbn [both] in P0. destruct (el_must f0) as [|l1 [|l2 [|? ?]]] eqn:Em1; try tauto. destruct P0 as (P1 & P2 & _). apply both_one in P1. destruct P1 as (k1 & -> & P1). apply both_one in P2. destruct P2 as (k2 & -> & P2). apply has_tok in P2. destruct P2 as (g2 & -> & P2).
    assert (Cd : cold w [bs "["]). { destruct H as (a & v & -> & I & _). intros o [<-|[]] [y E]. cbn in E. injection E as -> _. revert I. apply (misses_ok [x5b] lower); [reflexivity|left; reflexivity]. }
    destruct (lines_cold channels Hb _ _ _ P1 Q Cd true true) as (c1 & -> & B1).
    apply (PK_one f0 _ _ [[ICont c1]] g2 []); [exact F0|exact M0|exact Em1|exact Q| |apply bt_bad; [apply lb_here, B1|constructor]]. apply (picks_PK channels Hc). rewrite (name_shape_is w H). rewrite <- (app_nil_r w) at 1. apply name_picks; [exact Hb|exact P2|exact H|apply ends_nil].
Qed.
Lemma assignables_PK e v : to sh_assignables e -> good_given v -> PK e true (given_text v) (under "assignables" 0 (given_shape v)) [].
Proof.
  intros (En & Nn & L) H. assert (Q := given_is_calm v H). cbn [both] in L. destruct (el_must e) as [|[|i0 [|i1 [|? ?]]] [|? ?]] eqn:Em; try tauto. destruct L as ((K0 & K1 & _) & _). apply has_tok in K0. destruct K0 as (e0 & -> & K0). apply has_tok in K1. destruct K1 as (e1 & -> & K1).
  unfold under. rewrite <- En. apply (PK_end channels) with (l := [ICont (PToken e0 [] one); ICont (PToken e1 [] CZero)]) (before := []) (after := []); [exact Nn|exact Em|apply calm_some, Q| |apply (beaten_BT channels Hc); constructor].
  change [given_shape v] with ([given_shape v] ++ []). apply (LG_more channels) with (s1 := []); [apply token_G; [exact Q|apply given_PK; assumption]|]. apply (line_LG channels Hc). eapply lg_over; reflexivity.
Qed.
Lemma setting_calm a : good_setting a -> calm (setting_text a).
Proof. intros H. apply target_calm, H. Qed.
Lemma setting_PK e a : to sh_setting e -> good_setting a -> PK e true (setting_text a) (setting_shape a) [].
Proof.
  intros (En & Nn & L) H. assert (Q := setting_calm a H). destruct H as (Ht & Hb' & Hk & Ha & Hg). cbn [both] in L. destruct (el_must e) as [|[|i0 [|i1 [|? ?]]] [|? ?]] eqn:Em; try tauto. destruct L as ((K0 & K1 & _) & _). apply has_tok in K0. destruct K0 as (e0 & -> & K0). apply has_tok in K1. destruct K1 as (e1 & -> & K1).
  unfold setting_shape. rewrite <- En. apply (PK_end channels) with (l := [ICont (PToken e0 [] one); ICont (PToken e1 [] one)]) (before := []) (after := []); [exact Nn|exact Em|apply calm_some, Q| |apply (beaten_BT channels Hc); constructor].
  change (assignee_shape a :: gap_tree (st_after a) ++ [under "assignables" 0 (given_shape (st_given a))]) with ([assignee_shape a] ++ gap_tree (st_after a) ++ [under "assignables" 0 (given_shape (st_given a))]).
  apply (LG_more channels) with (s1 := st_after a ++ given_text (st_given a)).
  - apply token_G; [exact Q|]. apply (picks_PK channels Hc). apply (assignee_picks channels Hc Hb); [exact K0|]. split; [exact Ht|split; [exact Hb'|exact Hk]].
  - apply (LG_one channels Hc). apply lead_G; [exact Ha|apply given_is_calm, Hg|]. apply token_G; [apply given_is_calm, Hg|]. apply assignables_PK; assumption.
Qed.
Lemma setter_PK e a : tok_is (bs "instruction") sh_setter e -> good_setting a -> PK e true (setting_text a) (under "instruction" 0 (setting_shape a)) [].
Proof.
  intros (En & Nn & L) H. unfold sh_setter in L. apply both_cons in L. destruct L as (l0 & ls & Em & L0 & _). apply both_one in L0. destruct L0 as (i0 & -> & K0). apply has_tok in K0. destruct K0 as (e0 & -> & K0).
  apply (PK_one e _ _ [] e0 ls); [exact En|exact Nn|exact Em|apply setting_calm, H|apply setting_PK; assumption|constructor].
Qed.
Lemma setters_PK e a : to sh_setters e -> good_setting a -> PK e true (setting_text a) (under "instructions" 0 (under "instruction" 0 (setting_shape a))) [].
Proof.
  intros (En & Nn & L) H. assert (Q := setting_calm a H). cbn [both] in L. destruct (el_must e) as [|l0 [|? ?]] eqn:Em; try tauto. destruct L as (L0 & _). apply both_one in L0. destruct L0 as (i0 & -> & K0). apply has_tok in K0. destruct K0 as (e0 & -> & K0).
  unfold under at 1. rewrite <- En. apply (PK_end channels) with (l := [ICont (PToken e0 [] CNonZero)]) (before := []) (after := []); [exact Nn|exact Em|apply calm_some, Q| |apply (beaten_BT channels Hc); constructor].
  apply (LG_one channels Hc). apply (G_tokens channels Hc); [apply calm_some, Q|intros _; apply calm_quiet; [exact Hb|exact Q]| |reflexivity].
  apply (TK_more channels) with (s1 := []); [apply setter_PK; assumption|intros m E; discriminate E|]. apply (tokens_TK channels Hc). apply tk_none; [apply K0|]. destruct K0 as (_ & _ & L). eapply end_beaten; [|exact L]. unfold sh_setter. repeat (constructor; [eexists _, _; split; [reflexivity|exact I || reflexivity]|]). constructor.
Qed.
Lemma ways_no e s : to sh_way e -> calm s -> ~ is_prefix (bs "->") s -> ~ is_prefix (bs "<-") s -> bad (PToken e [] one) true true s.
Proof.
  intros T Q N1 N2. change (tok_is (bs "inputOutput") (word_lines ways) e) in T. eapply words_bad; [exact Hb|exact T|exact Q|]. intros n c [X|[X|[]]]; injection X as <- <-; assumption.
Qed.
Lemma headers_none e s : to (HTok (bs "headerVariables") [[HTok (bs "headerVariable") sh_header CNonZero]] COptional) e -> calm s -> ~ is_prefix (bs "->") s -> ~ is_prefix (bs "<-") s -> gives (PToken e [] COptional) true true s [] s.
Proof.
  intros (E0 & N0 & L0) Q N1 N2. cbn [both] in L0. destruct (el_must e) as [|[|j0 [|? ?]] [|? ?]] eqn:Ej; try tauto. destruct L0 as ((J0 & _) & _). apply has_tok in J0. destruct J0 as (f0 & -> & J0).
  apply gv_tokens; [apply calm_some, Q|intros _; left; apply calm_quiet; [exact Hb|exact Q]| |reflexivity]. apply tk_none; [exact N0|]. rewrite Ej. apply bt_bad; [|constructor]. apply lb_here. apply bd_tokens with (ts := []) (s1 := s); [apply calm_some, Q|intros _; left; apply calm_quiet; [exact Hb|exact Q]| |reflexivity|reflexivity].
  apply tk_none; [apply J0|]. destruct J0 as (_ & _ & L). unfold sh_header in L. cbn [both] in L. destruct (el_must f0) as [|[|i0 [|i1 [|i2 [|i3 [|i4 [|? ?]]]]]] [|? ?]] eqn:Em; try tauto. destruct L as ((K0 & _) & _). apply has_tok in K0. destruct K0 as (e0 & -> & K0).
  apply bt_bad; [|constructor]. apply lb_here. apply ways_no; assumption.
Qed.
Lemma target_head t s : good_target t -> exists b r, target_text t ++ s = b :: r /\ In b (x5f :: lower).
Proof.
  destruct t as [t g w|w|]; cbn [target_text]; intros H.
  - destruct (type_name t) as (a & v & E & I & _). rewrite E. exists a. eexists. split; [reflexivity|right; exact I].
  - destruct H as [(a & v & -> & I & _) _]. exists a. eexists. split; [reflexivity|right; exact I].
  - eexists _, _. split; [reflexivity|left; reflexivity].
Qed.
Lemma alone_PK e a : to sh_setprog e -> good_setting a -> PK e true (setting_text a) (alone_shape a) [].
Proof.
  intros (En & Nn & L) H. assert (Q := setting_calm a H). cbn [both] in L. destruct (el_must e) as [|[|i0 [|i1 [|? ?]]] [|? ?]] eqn:Em; try tauto. destruct L as ((K0 & K1 & _) & _). apply has_tok in K0. destruct K0 as (e0 & -> & K0). apply has_tok in K1. destruct K1 as (e1 & -> & K1).
  unfold alone_shape, under at 1. rewrite <- En. apply (PK_end channels) with (l := [ICont (PToken e0 [] COptional); ICont (PToken e1 [] one)]) (before := []) (after := []); [exact Nn|exact Em|apply calm_some, Q| |apply (beaten_BT channels Hc); constructor].
  match goal with |- PickProofs3.LG _ _ _ _ _ [?t] _ => change [t] with ([] ++ [t]) end. destruct (target_head (st_target a) (st_before a ++ colon_text (st_colon a) ++ bs "=" ++ st_after a ++ given_text (st_given a)) (proj1 H)) as (b & r & Es & I).
  apply (LG_more channels) with (s1 := setting_text a).
  - apply (gives_G channels Hc). apply headers_none; [exact K0|exact Q| |]; unfold setting_text; rewrite Es; intros [y E]; cbn in E; injection E as -> _; revert I.
    + apply (misses_ok [x2d] (x5f :: lower)); [reflexivity|left; reflexivity].
    + apply (misses_ok [x3c] (x5f :: lower)); [reflexivity|left; reflexivity].
  - apply (LG_one channels Hc). apply token_G; [exact Q|]. apply setters_PK; assumption.
Qed.
End Read.
