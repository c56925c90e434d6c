(* SureShipped.v - what counts in the shipped grammar is there when nothing is a comment. *)
From Coq Require Import Strings.String Strings.Byte Lia.
From Verif Require Import Go GoLemmas DomainModel CardModel CardProofs PatModel RuleModel RuleSpec PathModel PathSpec LexModel LexSpec AstModel RootModel RootProofs RootProofs2 TextModel TextTokSpec AppModel GramModel ParseModel ParseSpec ParseProofs EvtModel EvtSpec EvtProofs AdeqProofs2 EvtProofs6 OrdProofs2 AdeqSpec AdeqProofs8 RootSpec SpellSpec SureTree SureProofs SureRoots SureChecks.
Open Scope string_scope.
Open Scope list_scope.

Lemma in_b_ok n l : in_b n l = true <-> In n l.
Proof. unfold in_b. rewrite existsb_exists. split; [intros (m & I & E); apply bytes_eqb_eq in E; subst; exact I|intros I; exists n; split; [exact I|apply bytes_eqb_eq; reflexivity]]. Qed.
Lemma eqb_bs_refl n : bytes_eqb n n = true.
Proof. apply bytes_eqb_eq. reflexivity. Qed.
Lemma refs_of_in l e m : In e (PathSpec.elements l) -> refers e m -> In m (refs_of l).
Proof. intros I (r & Er & <-). unfold refs_of. apply in_concat. eexists. split; [apply in_map_iff; exists e; split; [reflexivity|exact I]|]. rewrite Er. left. reflexivity. Qed.
Lemma line_rules_in l e r : In e (PathSpec.elements l) -> te_content e = TRule r -> In r (line_rules (PathSpec.elements l)).
Proof. intros I Er. unfold line_rules. apply in_concat. eexists. split; [apply in_map_iff; exists e; split; [reflexivity|exact I]|]. rewrite Er. left. reflexivity. Qed.
Lemma times_constant r c : rl_content r = RConstant c -> forall k s rest, rule_times r k s rest -> s = concat (repeat c k) ++ rest.
Proof.
  intros Ec k s rest H. induction H as [s|k s s1 s2 Ht _ IH]; [reflexivity|]. cbn. rewrite <- app_assoc, <- IH. destruct Ht as [c' rest E _|]; congruence.
Qed.
Lemma spells_has r k w c : rl_content r = RConstant [c] -> rule_spells r k w -> In c w.
Proof. intros E (N & rest & H). apply (times_constant r [c] E) in H. apply app_inv_tail in H. destruct k; [subst w; destruct N; reflexivity|]. subst w. left. reflexivity. Qed.
Lemma spells_only r k w c d : rl_content r = RConstant [c] -> c <> d -> rule_spells r k w -> ~ In d w.
Proof. intros E N H. apply (spells_avoids d r k w H). unfold avoids. rewrite E. apply word_avoids_ok. intros [X|[]]. congruence. Qed.
Lemma like_tok n x : like (WTok n) x = true -> exists r, te_content x = TRef r /\ tr_name r = bs n.
Proof. unfold like. destruct (te_content x) as [r|r] eqn:E; try discriminate. intros H. apply bytes_eqb_eq in H. exists r. auto. Qed.
Lemma like_rule n c x : like (WRule n c) x = true -> exists r, te_content x = TRule r /\ rl_name r = bs n /\ rl_content r = RConstant [c] /\ firm x (bs n).
Proof.
  unfold like. destruct (te_content x) as [r|r] eqn:E; try discriminate. intros H. apply andb_prop in H. destruct H as [H H3]. apply andb_prop in H. destruct H as [H1 H2]. apply bytes_eqb_eq in H1. exists r. split; [reflexivity|]. split; [exact H1|]. split.
  - destruct (rl_content r) as [[|d [|]]|]; try discriminate. apply Byte.byte_dec_bl in H3. subst. reflexivity.
  - split; [exists r; auto|apply mandatory_ok; exact H2].
Qed.
(* an entry below another *)
Lemma text_below y a c : In y (RootSpec.all_of a) -> In c (at_discovery y) -> In c (at_discovery a).
Proof.
  induction a as [name i ms IH] using atoken_ind_kids. intros Hy Hc. destruct (step_down _ _ _ _ Hy) as [->|(m & x & Hx & Hy')]; [exact Hc|]. rewrite at_disc_entries. apply in_concat. exists (at_discovery x). split; [|eapply IH; eassumption]. apply in_map_iff. exists (EToken m x). split; [reflexivity|exact Hx].
Qed.
Lemma length_in (l : list entry) e f : In e l -> In f l -> e <> f -> en_text f <> [] -> length (en_text e) < length (concat (map en_text l)).
Proof.
  assert (Q : forall l e, In e l -> length (en_text e) <= length (concat (map en_text l))).
  { clear. induction l as [|x l IH]; intros e []; cbn; rewrite app_length; [subst; lia|]. specialize (IH e H). lia. }
  intros He Hf N T. induction l as [|x l IH]; [destruct He|]. cbn. rewrite app_length. destruct He as [->|He], Hf as [->|Hf].
  - congruence.
  - specialize (Q l f Hf). destruct (en_text f); [congruence|]. cbn in *. lia.
  - specialize (Q l e He). destruct (en_text f); [congruence|]. cbn in *. lia.
  - specialize (IH He Hf). lia.
Qed.
Lemma length_below y a : In y (RootSpec.all_of a) -> length (at_discovery y) <= length (at_discovery a).
Proof.
  induction a as [name i ms IH] using atoken_ind_kids. intros Hy. destruct (step_down _ _ _ _ Hy) as [->|(m & x & Hx & Hy')]; [lia|]. specialize (IH _ _ Hx Hy'). rewrite at_disc_entries.
  assert (Q : forall l e, In e l -> length (en_text e) <= length (concat (map en_text l))).
  { clear. induction l as [|z l IH]; intros e []; cbn; rewrite app_length; [subst; lia|]. specialize (IH e H). lia. }
  specialize (Q _ _ Hx). cbn [en_text] in Q. lia.
Qed.

Section Main.
Variable bitsize : N.
Variable parse_float : bytes -> N -> option N.
Variable ts : list PathModel.token.
Variable blanks : list rule.
Hypothesis A : all_checks ts blanks = true.
Hypothesis Bl : blanks_b blanks = true.
Notation spelled := (spelled ts blanks).
Lemma checks :
  (events_b ts blanks = true /\ lines_like_b ts "forStatement" of_for = true /\ lines_like_b ts "assignee" of_assignee = true /\ lines_like_b ts "sliceDelimiter" of_slice = true /\ lines_like_b ts "assigneeNames" of_names = true) /\
  (only_in_b ts "assigneeNames" ["forStatement"; "assignee"] = true /\ once_but_b ts "indexValue" "sliceDelimiter" = true /\ pair_spec_b ts = true /\ first_mandatory_b ts "assigneeNames" = true) /\
  (leads_b ts (below_list ts) = true /\ leads_b ts (below_names ts) = true /\ leads_b ts (below_fetcher ts) = true) /\
  (not_in_b "assigneeName" (below_list ts) = true /\ not_in_b "forStatement" (below_list ts) = true /\ not_in_b "assignee" (below_list ts) = true /\ not_in_b "forStatement" (below_names ts) = true /\ not_in_b "assignee" (below_names ts) = true) /\
  (no_byte_b ts ":" (below_names ts) = true /\ no_byte_b ts "(" (below_names ts) = true /\ no_byte_b ts ":" (below_fetcher ts) = true) /\
  in_b (bs "commaAssigneeName") (map t_name ts) = true.
Proof. assert (H := A). unfold all_checks in H. repeat match goal with K : _ && _ = true |- _ => apply andb_prop in K; destruct K end. repeat split; assumption. Qed.
Lemma leads_ok S : leads_b ts S = true -> leads ts S.
Proof.
  intros H t l e m It In_ Il Ie R. unfold leads_b in H. rewrite forallb_forall in H. specialize (H t It). apply in_b_ok in In_. rewrite In_ in H. cbn [negb orb] in H. rewrite forallb_forall in H. specialize (H l Il). rewrite forallb_forall in H. apply in_b_ok, H. eapply refs_of_in; eassumption.
Qed.
Lemma no_byte_ok c S : no_byte_b ts c S = true -> no_byte ts c S.
Proof.
  intros H t l e r It In_ Il Ie Er. unfold no_byte_b in H. rewrite forallb_forall in H. specialize (H t It). apply in_b_ok in In_. rewrite In_ in H. cbn [negb orb] in H. rewrite forallb_forall in H. specialize (H l Il). rewrite forallb_forall in H. apply H. eapply line_rules_in; eassumption.
Qed.
Lemma lines_ok n ls t l : lines_like_b ts n ls = true -> In t ts -> t_name t = bs n -> In l (t_must t) -> exists ws, In ws ls /\ alike ws (PathSpec.elements l) = true.
Proof.
  intros H It Et Il. unfold lines_like_b in H. rewrite forallb_forall in H. specialize (H t It). rewrite Et, eqb_bs_refl in H. cbn [negb orb] in H. rewrite forallb_forall in H. specialize (H l Il). apply existsb_exists in H. exact H.
Qed.
Lemma not_in_ok n S : not_in_b n S = true -> ~ In (bs n) S.
Proof. unfold not_in_b. intros H I. apply in_b_ok in I. rewrite I in H. discriminate. Qed.
Lemma closure_in k n S : In n S -> In n (closure ts k S).
Proof. revert S. induction k as [|k IH]; intros S H; [exact H|]. apply IH. apply in_or_app. left. exact H. Qed.
Lemma grammar_fits : fits_events bitsize parse_float ts blanks.
Proof.
  destruct checks as [[E _] _]. unfold events_b in E. apply andb_prop in E. destruct E as [E E3]. apply andb_prop in E. destruct E as [E1 E2]. rewrite forallb_forall in E1, E2, E3. split; [|split].
  - intros t n It Et. specialize (E1 t It). apply existsb_exists in E1. destruct E1 as (m & Im & E). apply bytes_eqb_eq in E. rewrite Et in E. apply bs_inj in E. subst m. rewrite token_is. apply existsb_exists. exists n. split; [exact Im|apply String.eqb_refl].
  - intros n T. rewrite token_is in T. apply existsb_exists in T. destruct T as (m & Im & E). apply String.eqb_eq in E. subst m. specialize (E2 n Im). unfold named_rules_b in E2. rewrite forallb_forall in E2.
    assert (Q : forall r, In r (rules_of ts ++ blanks) -> rl_name r <> bs n) by (intros r Ir E; specialize (E2 r Ir); rewrite E, eqb_bs_refl in E2; discriminate). split; [|intros r Ir; apply Q, in_or_app; right; exact Ir].
    intros t l e r It Il Ie Er. apply Q. apply in_or_app. left. unfold rules_of. apply in_concat. eexists. split; [apply in_map_iff; exists t; split; [reflexivity|exact It]|]. apply in_concat. eexists. split; [apply in_map_iff; exists l; split; [reflexivity|exact Il]|]. eapply line_rules_in; eassumption.
  - intros n t l T Sg It Il. rewrite token_is in T. apply existsb_exists in T. destruct T as (m & Im & E). apply String.eqb_eq in E. subst m. specialize (E3 n Im). rewrite Sg in E3. cbn [negb orb] in E3. rewrite forallb_forall in E3. specialize (E3 t It). rewrite forallb_forall in E3. apply once_ok, E3. exact Il.
Qed.
Lemma in_below_names : In (bs "assigneeNames") (below_names ts).
Proof. exact (closure_in deep _ [bs "assigneeNames"] (or_introl eq_refl)). Qed.
Lemma in_below_list : In (bs "totalListValue") (below_list ts).
Proof. exact (closure_in deep _ [bs "totalListValue"] (or_introl eq_refl)). Qed.
Lemma in_below_fetcher : In (bs "listElementFetcher") (below_fetcher ts).
Proof. exact (closure_in deep _ [bs "listElementFetcher"] (or_introl eq_refl)). Qed.
Opaque closure below_names below_list below_fetcher.
(* no comment below *)
Definition comment_free (a : atoken) : Prop := forall b e, In b (RootSpec.all_of a) -> In e (entries (at_matches b)) -> en_name e <> bs "SINGLE_LINE_COMMENT" /\ en_name e <> bs "MULTI_LINE_COMMENT".
Lemma free_below a b : comment_free a -> In b (RootSpec.all_of a) -> comment_free b.
Proof. intros F Hb x e Hx. apply F. eapply all_trans; eassumption. Qed.
Lemma blank_avoids r : In r blanks -> rl_name r <> bs "SINGLE_LINE_COMMENT" -> rl_name r <> bs "MULTI_LINE_COMMENT" -> avoids ":" r = true /\ avoids "(" r = true /\ avoids "=" r = true.
Proof.
  intros I N1 N2. unfold blanks_b in Bl. assert (B := Bl). rewrite forallb_forall in B. specialize (B r I). apply Bool.orb_true_iff in B. destruct B as [B|B].
  - apply Bool.orb_true_iff in B. destruct B as [B|B]; apply bytes_eqb_eq in B; contradiction.
  - apply andb_prop in B. destruct B as [B B3]. apply andb_prop in B. tauto.
Qed.
Definition counted (c : byte) : Prop := c = ":"%byte \/ c = "("%byte \/ c = "="%byte.
Lemma free_plain c a : counted c -> comment_free a -> SureTree.plain blanks c a.
Proof.
  intros C F b r k w Hb He Ir W. destruct (F b _ Hb He) as [N1 N2]. cbn in N1, N2. destruct (blank_avoids r Ir N1 N2) as (P1 & P2 & P3). apply (spells_avoids c r k w W). destruct C as [E|[E|E]]; subst c; assumption.
Qed.
Lemma blank_entry c a e : counted c -> comment_free a -> In e (entries (at_matches a)) -> a_blank blanks e -> ~ In c (en_text e).
Proof.
  intros C F He (r & k & w & Ir & W & ->). cbn. eapply free_plain; [exact C|exact F|apply all_of_self|exact He|exact Ir|exact W].
Qed.

(* ---- the names of a for statement ---- *)
Lemma names_in m y x : spelled m y -> In (EToken (bs "assigneeNames") x) (entries (at_matches y)) -> m = bs "forStatement" \/ m = bs "assignee".
Proof.
  intros H I. destruct (spelled_token _ _ _ _ _ x H I) as (_ & t & l & e & It & <- & Il & Ie & R). destruct checks as (_ & (O & _) & _). unfold only_in_b in O. rewrite forallb_forall in O. specialize (O t It). apply Bool.orb_true_iff in O. destruct O as [O|O].
  - apply existsb_exists in O. destruct O as (n & [<-|[<-|[]]] & E); apply bytes_eqb_eq in E; auto.
  - rewrite forallb_forall in O. specialize (O l Il). apply Bool.negb_true_iff in O. assert (K := refs_of_in l e _ Ie R). apply in_b_ok in K. congruence.
Qed.
Lemma assignee_bytes y x : spelled (bs "assignee") y -> comment_free y -> In (EToken (bs "assigneeNames") x) (entries (at_matches y)) ->
  In "="%byte (at_discovery y) /\ ~ In ":"%byte (at_discovery y) /\ ~ In "("%byte (at_discovery y).
Proof.
  intros H F I. destruct (spelled_line _ _ _ _ H) as (t & l & It & Et & Il & Fl). destruct checks as ((_ & _ & La & _) & _ & (_ & Ln & _) & _ & (B1 & B2 & _) & _).
  destruct (lines_ok _ _ t l La It Et Il) as (ws & Iw & Al). rewrite text_of_entries. destruct Iw as [<-|[<-|[]]].
  - exfalso. destruct (PathSpec.elements l) as [|x1 [|x2 [|x3 [|]]]]; cbn [alike] in Al; rewrite ?Bool.andb_false_r in Al; try discriminate Al. apply andb_prop in Al. destruct Al as [A1 Al]. apply andb_prop in Al. destruct Al as [A2 Al]. apply andb_prop in Al. destruct Al as [A3 _].
    apply like_tok in A1. destruct A1 as (r1 & E1 & N1). apply like_rule in A2. destruct A2 as (r2 & E2 & _). apply like_rule in A3. destruct A3 as (r3 & E3 & _).
    destruct (entry_from _ _ _ _ Fl _ I) as [(r & k & w & _ & _ & E)|(e & a & [<-|[<-|[<-|[]]]] & Ha & Ia)]; [discriminate| | |]; destruct (elem_entries _ _ _ _ Ha) as (_ & B & _); destruct (B _ _ Ia) as [(r & Er & En) _]; [|congruence|congruence].
    assert (r = r1) by congruence. subst r. rewrite N1 in En. apply bs_inj in En. discriminate.
  - destruct (PathSpec.elements l) as [|x1 [|x2 [|]]]; cbn [alike] in Al; rewrite ?Bool.andb_false_r in Al; try discriminate Al. apply andb_prop in Al. destruct Al as [A1 Al]. apply andb_prop in Al. destruct Al as [A2 _].
    apply like_tok in A1. destruct A1 as (r1 & E1 & N1). apply like_rule in A2. destruct A2 as (r2 & E2 & N2 & C2 & F2).
    assert (Q : forall c, counted c -> c <> "="%byte -> no_byte ts c (below_names ts) -> ~ In c (concat (map en_text (entries (at_matches y))))).
    { intros c C Nc Nb Ic. apply in_concat in Ic. destruct Ic as (w & Hw & Ic). apply in_map_iff in Hw. destruct Hw as (e & <- & He). destruct (entry_from _ _ _ _ Fl e He) as [Be|(z & a & Iz & Ha & Ia)]; [exact (blank_entry c y e C F He Be Ic)|].
      destruct (elem_entries _ _ _ _ Ha) as (P1 & P2 & _). destruct e as [n w|n v]; cbn [en_text] in Ic.
      - destruct (P1 _ _ Ia) as (r & k & Er & _ & W). destruct Iz as [<-|[<-|[]]]; [congruence|]. assert (r = r2) by congruence. subst r. exact (spells_only r2 k w _ c C2 (not_eq_sym Nc) W Ic).
      - destruct (P2 _ _ Ia) as [(r & Er & En) Sv]. destruct Iz as [<-|[<-|[]]]; [|congruence]. assert (r = r1) by congruence. subst r. rewrite N1 in En. subst n.
        assert (Pv : SureTree.plain blanks c v). { apply free_plain; [exact C|]. apply (free_below y); [exact F|]. destruct y as [yn yi yms]. eapply step_up; [exact He|apply all_of_self]. }
        exact (text_avoids ts blanks c v (bs "assigneeNames") (below_names ts) (leads_ok _ Ln) in_below_names Nb Pv Sv Ic). }
    split; [|split; [apply Q; [left; reflexivity|discriminate|apply no_byte_ok; exact B1]|apply Q; [right; left; reflexivity|discriminate|apply no_byte_ok; exact B2]]].
    destruct (line_cons _ _ _ _ _ Fl) as (bl & rest & El & Fb & [(a & b & -> & Ha & Hb)|(-> & _)]).
    + destruct (firm_there _ _ _ _ _ _ F2 Hb) as (r & w & Er & En & Iw & k & W). assert (r = r2) by congruence. subst r. apply in_concat. exists w. split; [|exact (spells_has r2 k w _ C2 W)]. apply in_map_iff. exists (EText (bs "EQUAL") w). split; [reflexivity|]. rewrite El. apply in_or_app. right. apply in_or_app. right. exact Iw.
    + exfalso. rewrite El, app_nil_r in I. rewrite Forall_forall in Fb. destruct (Fb _ I) as (r & k & w & _ & _ & E). discriminate.
Qed.
Lemma for_bytes t : spelled (bs "forStatement") t -> comment_free t -> In ":"%byte (at_discovery t) \/ In "("%byte (at_discovery t) \/ ~ In "="%byte (at_discovery t).
Proof.
  intros H F. destruct (spelled_line _ _ _ _ H) as (tk & l & It & Et & Il & Fl). destruct checks as ((_ & Lf & _) & _). destruct (lines_ok _ _ tk l Lf It Et Il) as (ws & Iw & Al). rewrite text_of_entries. destruct Iw as [<-|[<-|[]]].
  - destruct (PathSpec.elements l) as [|x1 [|x2 es]]; cbn [alike] in Al; rewrite ?Bool.andb_false_r in Al; try discriminate Al. apply andb_prop in Al. destruct Al as [A1 Al]. apply andb_prop in Al. destruct Al as [A2 _]. apply like_rule in A2. destruct A2 as (r2 & E2 & N2 & C2 & F2).
    destruct (line_cons _ _ _ _ _ Fl) as (bl & rest & El & Fb & [(a & b & -> & Ha & Hb)|(-> & _)]).
    + left. destruct (firm_there _ _ _ _ _ _ F2 Hb) as (r & w & Er & En & Iw & k & W). assert (r = r2) by congruence. subst r. apply in_concat. exists w. split; [|exact (spells_has r2 k w _ C2 W)]. apply in_map_iff. exists (EText (bs "COLON") w). split; [reflexivity|]. rewrite El. apply in_or_app. right. apply in_or_app. right. exact Iw.
    + right. right. intros Ic. apply in_concat in Ic. destruct Ic as (w & Hw & Ic). apply in_map_iff in Hw. destruct Hw as (e & <- & He). refine (blank_entry _ t e _ F He _ Ic); [right; right; reflexivity|]. rewrite El, app_nil_r in He. rewrite Forall_forall in Fb. exact (Fb e He).
  - right. left. destruct (PathSpec.elements l) as [|x1 es]; cbn [alike] in Al; rewrite ?Bool.andb_false_r in Al; try discriminate Al. apply andb_prop in Al. destruct Al as [A1 _]. apply like_rule in A1. destruct A1 as (r1 & E1 & N1 & C1 & F1).
    destruct (firm_there _ _ _ _ _ _ F1 Fl) as (r & w & Er & En & Iw & k & W). assert (r = r1) by congruence. subst r. apply in_concat. exists w. split; [|exact (spells_has r1 k w _ C1 W)]. apply in_map_iff. exists (EText (bs "OPEN_PARENTHESIS") w). split; [reflexivity|exact Iw].
Qed.
(* a tree with the text of a for statement that has names is a for statement *)
Lemma same_for z t x : spelled (at_name z) z -> spelled (bs "forStatement") t -> comment_free z -> comment_free t -> at_discovery z = at_discovery t -> In (EToken (bs "assigneeNames") x) (entries (at_matches z)) -> at_name z = bs "forStatement".
Proof.
  intros Hz Ht Fz Ft E I. destruct (names_in _ z x Hz I) as [N|N]; [exact N|]. rewrite N in Hz. destruct (assignee_bytes z x Hz Fz I) as (K1 & K2 & K3). rewrite E in *. destruct (for_bytes t Ht Ft) as [Q|[Q|Q]]; contradiction.
Qed.

Definition full (a : atoken) : Prop := forall b, In b (RootSpec.all_of a) -> at_discovery b <> [].
Lemma full_below a b : full a -> In b (RootSpec.all_of a) -> full b.
Proof. intros F Hb x Hx. apply F. eapply all_trans; eassumption. Qed.
Lemma kid_in b m x : In (EToken m x) (entries (at_matches b)) -> In x (RootSpec.all_of b).
Proof. intros H. destruct b as [n i ms]. eapply step_up; [exact H|apply all_of_self]. Qed.
Lemma has_entry y r n e : mirrors y r -> In e (entries (at_matches y)) -> en_name e = bs n -> has r n = true.
Proof.
  intros M He En. destruct M as [name line ms nodes _ N _]. cbn [at_matches] in He. unfold has. apply existsb_exists. assert (I : In (bs n) (map no_name nodes)) by (apply N; rewrite <- En; apply in_map; exact He). apply in_map_iff in I. destruct I as (k & Ek & Ik). exists k. split; [exact Ik|]. apply bytes_eqb_eq. exact Ek.
Qed.
Lemma entry_has y r n m : mirrors y r -> spelled m y -> EvtProofs6.token bitsize parse_float n = true -> has r n = true -> exists x, In (EToken (bs n) x) (entries (at_matches y)).
Proof.
  intros M S T H. unfold has in H. apply existsb_exists in H. destruct H as (k & Ik & Ek). apply bytes_eqb_eq in Ek. destruct (mirrors_nodes y r M k Ik) as [I _]. apply in_map_iff in I. destruct I as ([p w|p x] & Ep & He); cbn in Ep; subst p; rewrite Ek in He; [destruct (no_text bitsize parse_float ts blanks grammar_fits n m y w T S He)|exists x; exact He].
Qed.
Lemma count_one n l e f : count n l <= 1 -> In e l -> In f l -> en_name e = n -> en_name f = n -> e = f.
Proof.
  intros C He Hf Ne Nf. unfold count in C. assert (E1 : In e (filter (has_name n) l)) by (apply filter_In; split; [exact He|apply has_name_eq; exact Ne]). assert (E2 : In f (filter (has_name n) l)) by (apply filter_In; split; [exact Hf|apply has_name_eq; exact Nf]).
  destruct (filter (has_name n) l) as [|u [|v w]]; [destruct E1| |cbn in C; lia]. destruct E1 as [<-|[]], E2 as [<-|[]]. reflexivity.
Qed.
(* the names of a for statement are two *)
Lemma for_names z x : spelled (bs "forStatement") z -> In (EToken (bs "assigneeNames") x) (entries (at_matches z)) -> exists c d, In (EToken (bs "commaAssigneeName") c) (entries (at_matches x)) /\ In (EToken (bs "assigneeName") d) (entries (at_matches x)).
Proof.
  intros H I. destruct checks as ((_ & _ & _ & _ & Ln) & (_ & _ & Ps & Fm) & _ & _ & _ & Dc). destruct (spelled_line _ _ _ _ H) as (t & l & It & Et & Il & Fl).
  destruct (entry_from _ _ _ _ Fl _ I) as [(r & k & w & _ & _ & E)|(e & a & Ie & Ha & Ia)]; [discriminate|]. destruct (elem_entries _ _ _ _ Ha) as (_ & P2 & _). destruct (P2 _ _ Ia) as [R Sx].
  unfold pair_spec_b in Ps. rewrite forallb_forall in Ps. specialize (Ps t It). rewrite Et, eqb_bs_refl in Ps. cbn [negb orb] in Ps. rewrite forallb_forall in Ps. specialize (Ps l Il). rewrite forallb_forall in Ps. specialize (Ps e Ie). apply refers_ok in R. rewrite R in Ps. cbn [negb orb] in Ps. apply andb_prop in Ps. destruct Ps as [Ps Am]. apply amo_ok in Am.
  assert (C : exists c, In (EToken (bs "commaAssigneeName") c) (entries (at_matches x))).
  { unfold spec_b in Ps. inversion Ha as [e' C|e' r c k w Er|e' r c l' Er Hc Ne V Fa Sp]; subst; [destruct Ia|rewrite Er in Ps; discriminate|]. rewrite Er in Ps. apply existsb_exists in Ps. destruct Ps as (s & Is & Ps). apply andb_prop in Ps. destruct Ps as [Ps1 Ps2]. apply bytes_eqb_eq in Ps1.
    assert (Hl : length l' <= 1) by (exact (Am c Hc _ V)). apply in_map_iff in Ia. destruct Ia as (x' & Ex & Ix). injection Ex as _ ->. destruct l' as [|y [|]]; [destruct Ix| |cbn in Hl; lia]. destruct Ix as [->|[]].
    assert (D : is_declared ts (ts_name s)) by (unfold is_declared; rewrite Ps1; apply in_b_ok in Dc; apply in_map_iff in Dc; destruct Dc as (td & Ed & Id); exists td; split; assumption). specialize (Sp s Is D). destruct (tokens_named (ts_name s) [x]) as [|m] eqn:Em; [cbn in Sp; rewrite Sp in Ps2; discriminate|]. unfold tokens_named in Em. cbn [map concat] in Em. rewrite app_nil_r in Em.
    destruct (filter _ _) as [|f fl] eqn:Ef; [discriminate|]. assert (If : In f (f :: fl)) by (left; reflexivity). rewrite <- Ef in If. apply filter_In in If. destruct If as [If Hf]. destruct f as [n w|n c']; [discriminate|]. apply has_name_eq in Hf. cbn in Hf. rewrite Ps1 in Hf. subst n. exists c'. exact If. }
  destruct C as (c & Ic). destruct (spelled_line _ _ _ _ Sx) as (t' & l' & It' & Et' & Il' & Fl'). destruct (lines_ok _ _ t' l' Ln It' Et' Il') as (ws & [<-|[]] & Al).
  unfold first_mandatory_b in Fm. rewrite forallb_forall in Fm. specialize (Fm t' It'). rewrite Et', eqb_bs_refl in Fm. cbn [negb orb] in Fm. rewrite forallb_forall in Fm. specialize (Fm l' Il').
  destruct (PathSpec.elements l') as [|x1 es]; cbn [alike] in Al; [discriminate|]. apply andb_prop in Al. destruct Al as [A1 _]. apply like_tok in A1. destruct A1 as (r1 & E1 & N1). apply mandatory_ok in Fm.
  destruct (line_cons _ _ _ _ _ Fl') as (bl & rest & El & Fb & [(a1 & b1 & -> & Ha1 & _)|(-> & _)]).
  - destruct (elem_entries _ _ _ _ Ha1) as (_ & Q2 & _). inversion Ha1 as [e' C|e' r ca k w Er|e' r ca l1 Er Hc Ne V Fa Sp]; subst; [destruct (Fm C)|congruence|]. destruct l1 as [|d l1]; [destruct (Ne eq_refl)|]. exists c, d. split; [exact Ic|]. rewrite El. apply in_or_app. right. apply in_or_app. left. left. assert (r = r1) by congruence. subst r. rewrite N1. reflexivity.
  - exfalso. rewrite El, app_nil_r in Ic. rewrite Forall_forall in Fb. destruct (Fb _ Ic) as (r & k & w & _ & _ & E). discriminate.
Qed.
(* the kids of a for statement with names *)
Lemma for_kids z x : spelled (bs "forStatement") z -> In (EToken (bs "assigneeNames") x) (entries (at_matches z)) -> forall m k, In (EToken m k) (entries (at_matches z)) -> (m = bs "assigneeNames" /\ k = x) \/ m = bs "totalListValue".
Proof.
  intros H I m k Ik. destruct checks as ((_ & Lf & _) & _). destruct (spelled_line _ _ _ _ H) as (t & l & It & Et & Il & Fl). destruct (lines_ok _ _ t l Lf It Et Il) as (ws & Iw & Al).
  assert (One : m = bs "assigneeNames" -> k = x).
  { intros ->. destruct grammar_fits as (_ & G2 & G3). destruct (G2 "assigneeNames" eq_refl) as [N1 N2]. assert (C := line_once ts blanks (bs "assigneeNames") _ _ Fl N2 (fun e ru He Er => N1 t l e ru It Il He Er) (G3 "assigneeNames" t l eq_refl eq_refl It Il)).
    assert (E := count_one _ _ _ _ C Ik I eq_refl eq_refl). injection E as ->. reflexivity. }
  assert (From : forall n v, In (EToken n v) (entries (at_matches z)) -> exists e, In e (PathSpec.elements l) /\ refers e n).
  { intros n v Iv. destruct (entry_from _ _ _ _ Fl _ Iv) as [(r & q & w & _ & _ & E)|(e & a & Ie & Ha & Ia)]; [discriminate|]. destruct (elem_entries _ _ _ _ Ha) as (_ & P2 & _). exists e. split; [exact Ie|apply (P2 _ _ Ia)]. }
  destruct (From _ _ I) as (ex & Iex & (rx & Erx & Nrx)), (From _ _ Ik) as (ek & Iek & (rk & Erk & Nrk)). destruct Iw as [<-|[<-|[]]].
  - destruct (PathSpec.elements l) as [|x1 [|x2 [|x3 [|x4 [|]]]]]; cbn [alike] in Al; rewrite ?Bool.andb_false_r in Al; try discriminate Al. apply andb_prop in Al. destruct Al as [A1 Al]. apply andb_prop in Al. destruct Al as [A2 Al]. apply andb_prop in Al. destruct Al as [A3 Al]. apply andb_prop in Al. destruct Al as [A4 _].
    apply like_tok in A1. destruct A1 as (r1 & E1 & N1). apply like_rule in A2. destruct A2 as (r2 & E2 & _). apply like_rule in A3. destruct A3 as (r3 & E3 & _). apply like_tok in A4. destruct A4 as (r4 & E4 & N4).
    destruct Iek as [<-|[<-|[<-|[<-|[]]]]]; [left|congruence|congruence|right]; [assert (rk = r1) by congruence; subst rk; rewrite N1 in Nrk; split; [congruence|apply One; congruence]|assert (rk = r4) by congruence; subst rk; congruence].
  - exfalso. destruct (PathSpec.elements l) as [|x1 [|x2 [|x3 [|]]]]; cbn [alike] in Al; rewrite ?Bool.andb_false_r in Al; try discriminate Al. apply andb_prop in Al. destruct Al as [A1 Al]. apply andb_prop in Al. destruct Al as [A2 Al]. apply andb_prop in Al. destruct Al as [A3 _].
    apply like_rule in A1. destruct A1 as (r1 & E1 & _). apply like_tok in A2. destruct A2 as (r2 & E2 & N2). apply like_rule in A3. destruct A3 as (r3 & E3 & _).
    destruct Iex as [<-|[<-|[<-|[]]]]; [congruence| |congruence]. assert (rx = r2) by congruence. subst rx. rewrite N2 in Nrx. apply bs_inj in Nrx. discriminate.
Qed.
Lemma for_parts z q : mirrors z q -> spelled (bs "forStatement") z -> full z -> two_parts q.
Proof.
  intros M S Fu Hh p Hp. destruct checks as (_ & _ & (Ll & Ln & _) & (N1 & N2 & N3 & N4 & N5) & _).
  destruct (entry_has z q "assigneeNames" _ M S eq_refl Hh) as (x & I). destruct (called_from z q "assigneeNames" p M Hp) as (b & x' & w & Hb & Ib & Lw & Mw).
  assert (Sb : spelled (at_name b) b) by (eapply spelled_inside; eassumption).
  assert (Kids : forall m k y, In (EToken m k) (entries (at_matches z)) -> In y (RootSpec.all_of k) -> (m = bs "assigneeNames" /\ k = x /\ In (at_name y) (below_names ts)) \/ (m = bs "totalListValue" /\ In (at_name y) (below_list ts) /\ spelled (at_name y) y)).
  { intros m k y Ik Hy. assert (Sk := proj1 (spelled_token ts blanks _ z m k S Ik)). destruct (for_kids z x S I m k Ik) as [[-> ->]| ->].
    - left. split; [reflexivity|]. split; [reflexivity|]. exact (proj2 (spelled_below ts blanks x _ (below_names ts) y (leads_ok _ Ln) in_below_names Sk Hy)).
    - right. split; [reflexivity|]. destruct (spelled_below ts blanks k _ (below_list ts) y (leads_ok _ Ll) in_below_list Sk Hy) as [Q1 Q2]. split; assumption. }
  assert (Eb : b = z).
  { destruct z as [zn zi zms]. destruct (step_down _ _ _ _ Hb) as [->|(m & k & Ik & Hy)]; [reflexivity|]. exfalso. destruct (names_in _ b x' Sb Ib) as [E|E], (Kids m k b Ik Hy) as [(_ & _ & K)|(_ & K & _)]; rewrite E in K; [exact (not_in_ok _ _ N4 K)|exact (not_in_ok _ _ N2 K)|exact (not_in_ok _ _ N5 K)|exact (not_in_ok _ _ N3 K)]. }
  subst b. assert (Ex : x' = x). { destruct (for_kids z x S I _ _ Ib) as [[_ E]|E]; [exact E|apply bs_inj in E; discriminate]. } subst x'.
  destruct (last_in _ _ _ Lw) as [Iw Ew]. assert (Kw : exists m k, In (EToken m k) (entries (at_matches z)) /\ In w (RootSpec.all_of k)).
  { destruct z as [zn zi zms]. rewrite within_kids in Iw. apply in_concat in Iw. destruct Iw as (al & Hal & Iw). apply in_map_iff in Hal. destruct Hal as (k & <- & Ik). apply kids_in in Ik. destruct Ik as (m & Ik). exists m, k. auto. }
  destruct Kw as (m & k & Ik & Hw). destruct (Kids m k w Ik Hw) as [(-> & -> & _)|(-> & K & Sw)].
  - left. destruct (for_names z x S I) as (c & d & Ic & Id). assert (Hx := kid_in z _ x I).
    destruct x as [xn xi xms]. destruct (step_down _ _ _ _ Hw) as [->|(m & kk & Ikk & Hwk)]; [eapply has_entry; [exact Mw|exact Ic|reflexivity]|]. exfalso.
    assert (Lk := length_below w kk Hwk). rewrite Ew in Lk. rewrite at_disc_entries in Lk. cbn [at_matches] in Ic, Id.
    assert (Nc : at_discovery c <> []) by (apply Fu; eapply all_trans; [|exact Hx]; eapply kid_in; exact Ic). assert (Nd : at_discovery d <> []) by (apply Fu; eapply all_trans; [|exact Hx]; eapply kid_in; exact Id).
    destruct (list_eq_dec Byte.byte_eq_dec m (bs "assigneeName")) as [->|Nm].
    + assert (Q := length_in _ (EToken (bs "assigneeName") kk) (EToken (bs "commaAssigneeName") c) Ikk Ic ltac:(intros E; injection E as E _; discriminate) Nc). cbn [en_text] in Q. lia.
    + assert (Q := length_in _ (EToken m kk) (EToken (bs "assigneeName") d) Ikk Id ltac:(intros E; injection E as E _; exact (Nm E)) Nd). cbn [en_text] in Q. lia.
  - right. intros kn Hk Nk. destruct (deep_node kn _ Hk w p eq_refl Mw) as (b & Hb' & [Ob _]). destruct (spelled_below ts blanks w _ (below_list ts) b (leads_ok _ Ll) K Sw Hb') as [Sb' Kb]. rewrite Nk in Ob. apply in_map_iff in Ob. destruct Ob as ([n t|n t] & En & He); cbn in En; subst n.
    + exact (no_text bitsize parse_float ts blanks grammar_fits "assigneeName" _ b t eq_refl Sb' He).
    + destruct (spelled_token _ _ _ _ _ t Sb' He) as (_ & tk & l & e & It & Et & Il & Ie & R). apply (not_in_ok _ _ N1). eapply (leads_ok _ Ll); [exact It|rewrite Et; exact Kb|exact Il|exact Ie|exact R].
Qed.
(* ---- the index of a fetcher ---- *)
Lemma no_colon z q : mirrors z q -> spelled (at_name z) z -> ~ In ":"%byte (at_discovery z) -> one_index q.
Proof.
  intros M S Nc k Hk Nk. destruct (deep_node k _ Hk z q eq_refl M) as (b & Hb & Ob). destruct (of_tree_length b k Ob) as [Len Ne]. rewrite Nk in Len. assert (Sb := spelled_inside ts blanks _ z b S Hb). destruct (spelled_line _ _ _ _ Sb) as (t & l & It & Et & Il & Fl).
  assert (C : count (bs "indexValue") (entries (at_matches b)) <= 1); [|destruct (no_list k); [congruence|]; cbn in *; lia].
  destruct checks as ((_ & _ & _ & Ls & _) & (_ & Ob' & _) & _). unfold once_but_b in Ob'. rewrite forallb_forall in Ob'. specialize (Ob' t It). apply Bool.orb_true_iff in Ob'. destruct Ob' as [E|O].
  - apply bytes_eqb_eq in E. destruct (lines_ok _ _ t l Ls It E Il) as (ws & [<-|[]] & Al). destruct (PathSpec.elements l) as [|x1 [|x2 es]]; cbn [alike] in Al; rewrite ?Bool.andb_false_r in Al; try discriminate Al. apply andb_prop in Al. destruct Al as [_ Al]. apply andb_prop in Al. destruct Al as [A2 _]. apply like_rule in A2. destruct A2 as (r2 & E2 & N2 & C2 & F2).
    destruct (line_cons _ _ _ _ _ Fl) as (bl & rest & El & Fb & [(a & b' & -> & Ha & Hb')|(-> & _)]).
    + exfalso. apply Nc. apply (text_below b z _ Hb). rewrite text_of_entries. destruct (firm_there _ _ _ _ _ _ F2 Hb') as (r & w & Er & En & Iw & j & W). assert (r = r2) by congruence. subst r. apply in_concat. exists w. split; [|exact (spells_has r2 j w _ C2 W)]. apply in_map_iff. exists (EText (bs "COLON") w). split; [reflexivity|]. rewrite El. apply in_or_app. right. apply in_or_app. right. exact Iw.
    + rewrite El, app_nil_r. rewrite count_none; [lia|]. intros e He. rewrite Forall_forall in Fb. destruct (Fb e He) as (r & j & w & Ir & _ & ->). cbn. destruct grammar_fits as (_ & G2 & _). apply (G2 "indexValue" eq_refl). exact Ir.
  - rewrite forallb_forall in O. specialize (O l Il). apply once_ok in O. destruct grammar_fits as (_ & G2 & _). destruct (G2 "indexValue" eq_refl) as [N1 N2]. exact (line_once ts blanks (bs "indexValue") _ _ Fl N2 (fun e ru He Er => N1 t l e ru It Il He Er) O).
Qed.
Lemma fetcher_text t : spelled (bs "listElementFetcher") t -> comment_free t -> ~ In ":"%byte (at_discovery t).
Proof.
  intros S F. destruct checks as (_ & _ & (_ & _ & Lf) & _ & (_ & _ & B) & _). exact (text_avoids ts blanks ":"%byte t (bs "listElementFetcher") (below_fetcher ts) (leads_ok _ Lf) in_below_fetcher (no_byte_ok _ _ B) (free_plain _ t (or_introl eq_refl) F) S).
Qed.

(* ---- all of it ---- *)
Lemma counts_below y r m : mirrors y r -> spelled m y -> comment_free y -> full y -> forall n q, SureProofs.called n q r -> counts n q.
Proof.
  intros M S F Fu n q Hq. destruct (called_from y r n q M Hq) as (b & t & z & Hb & I & L & Mz). destruct (last_in _ _ _ L) as [Iz Ez]. assert (Hz : In z (RootSpec.all_of y)) by (eapply all_trans; [apply within_in; exact Iz|exact Hb]). assert (Ht : In t (RootSpec.all_of y)) by (eapply all_trans; [eapply kid_in; exact I|exact Hb]).
  assert (Sz := spelled_inside ts blanks m y z S Hz). assert (Sb := spelled_inside ts blanks m y b S Hb). assert (St := proj1 (spelled_token ts blanks _ b (bs n) t Sb I)). split; intros ->.
  - intros Hh. destruct (entry_has z q "assigneeNames" _ Mz Sz eq_refl Hh) as (x & Ix). assert (E := same_for z t x Sz St (free_below y z F Hz) (free_below y t F Ht) Ez Ix). rewrite E in Sz. exact (for_parts z q Mz Sz (full_below y z Fu Hz) Hh).
  - apply (no_colon z q Mz Sz). rewrite Ez. apply fetcher_text; [exact St|exact (free_below y t F Ht)].
Qed.
Lemma free_never y r n : mirrors y r -> spelled (bs n) y -> comment_free y -> full y -> never bitsize parse_float n r.
Proof.
  intros M S F Fu. apply (never_all bitsize parse_float ts blanks grammar_fits (r_height r) r y (bs n) (le_n _) M S (counts_below y r (bs n) M S F Fu)).
  - destruct (spelled_line _ _ _ _ S) as (t & l & It & Et & _). destruct grammar_fits as (G1 & _). exact (G1 t n It Et).
  - split; intros ->; [exact (for_parts y r M S Fu)|]. apply (no_colon y r M); [rewrite (spelled_name _ _ _ _ S); exact S|]. apply fetcher_text; assumption.
Qed.
End Main.
