From Coq Require Import Strings.String Strings.Byte Lia.
From Verif Require Import Go GoLemmas DomainModel DomainSpec CardModel CardSpec CardProofs PatModel PatSpec PatProofs RuleModel RuleSpec RuleProofs PathModel PathSpec LexModel LexSpec LexProofs LexProofs2.

(* ---- complete lines ---- *)
Scheme el_reads_ind' := Minimality for el_reads Sort Prop
  with line_reads_ind' := Minimality for line_reads Sort Prop
  with spaced_reads_ind' := Minimality for spaced_reads Sort Prop
  with cont_reads_ind' := Minimality for cont_reads Sort Prop
  with el_times_ind' := Minimality for el_times Sort Prop.
Combined Scheme reads_mutind from el_reads_ind', line_reads_ind', spaced_reads_ind', cont_reads_ind', el_times_ind'.
Section Strict.
Variable channels : nat -> list path.
Hypothesis Hch : forall p, among channels p -> sturdy p.
Lemma optional_last_tail i l : optional_last (i :: l) -> optional_last l.
Proof. intros H a c b c' E. apply (H (i :: a) c b c'). rewrite E. reflexivity. Qed.
Lemma all_absent d ch nx l : (forall c, In (ICont c) l -> may_be_absent c) -> line_reads channels False d ch nx l [] [].
Proof.
  revert ch nx. induction l as [|[|c] l IH]; intros ch nx H; [constructor|apply lr_switch; apply IH; intros; apply H; right; assumption|].
  apply lr_cont with (s1 := []); [apply sr_here; apply cr_absent; apply H; left; reflexivity|]. apply IH. intros; apply H; right; assumption.
Qed.
Definition line_in (p : path) (l : line) : Prop := optional_last l /\
  forall c, In (ICont c) l -> occurs_in p c /\ ((exists r k, c = PRule r k) \/ (exists e sp k, c = PToken e sp k)).
Lemma line_in_tail p i l : line_in p (i :: l) -> line_in p l.
Proof. intros [H1 H2]. split; [apply (optional_last_tail i); exact H1|]. intros c Hc. apply H2. right. exact Hc. Qed.
Lemma strict :
  (forall d ch e s s', el_reads channels True d ch e s s' -> forall p, d = pa_deps p -> sturdy p -> element_of p e -> el_reads channels False d ch e s s') /\
  (forall d ch nx l s s', line_reads channels True d ch nx l s s' -> forall p, d = pa_deps p -> sturdy p -> line_in p l -> line_reads channels False d ch nx l s s') /\
  (forall d ch nx c s s', spaced_reads channels True d ch nx c s s' -> forall p, d = pa_deps p -> sturdy p -> occurs_in p c -> ((exists r k, c = PRule r k) \/ (exists e sp k, c = PToken e sp k)) -> spaced_reads channels False d ch nx c s s') /\
  (forall d ch c s s', cont_reads channels True d ch c s s' -> forall p, d = pa_deps p -> sturdy p -> occurs_in p c -> ((exists r k, c = PRule r k) \/ (exists e sp k, c = PToken e sp k)) -> cont_reads channels False d ch c s s') /\
  (forall d ch e n s s', el_times channels True d ch e n s s' -> forall p, d = pa_deps p -> sturdy p -> element_of p e -> el_times channels False d ch e n s s').
Proof.
  apply reads_mutind.
  - intros d ch e l s s' Il _ IH p -> Hp Oe. apply (er_line _ _ (pa_deps p) ch e l s s' Il). apply (IH p eq_refl Hp). destruct (Hp e Oe) as [_ H]. destruct (H l Il) as [H1 H2].
    split; [exact H1|]. intros c Hc. split; [|apply H2; exact Hc]. apply (occ_el p e); [exact Oe|left; exists l; auto].
  - intros d ch e s ls _ En p -> Hp Oe. destruct (Hp e Oe) as [H _]. congruence.
  - intros. constructor.
  - intros d ch nx l s s' _ IH p -> Hp Hl. apply lr_switch. apply (IH p eq_refl Hp). apply (line_in_tail p _ l Hl).
  - intros d ch nx c l s s1 s2 _ IHc _ IHl p -> Hp Hl. destruct Hl as [Ho Hl'] eqn:E. clear E. destruct (Hl' c (or_introl eq_refl)) as [Oc Kc].
    apply lr_cont with (s1 := s1); [apply (IHc p eq_refl Hp Oc Kc)|]. apply (IHl p eq_refl Hp). apply (line_in_tail p (ICont c)). split; assumption.
  - intros d ch nx c l s _ H p -> Hp [Ho Hl]. destruct (Hl c (or_introl eq_refl)) as [Oc Kc].
    destruct H as [[-> Ab]|[(n & sp & k & ->)|(ls & ->)]].
    + apply lr_cont with (s1 := []); [apply sr_here; apply cr_absent; exact Ab|]. apply all_absent. intros c' Hc'. apply (Ho [] c l c' eq_refl Ab Hc').
    + destruct Kc as [(? & ? & E)|(? & ? & ? & E)]; discriminate.
    + destruct Kc as [(? & ? & E)|(? & ? & ? & E)]; discriminate.
  - intros d ch nx c s s' _ IH p -> Hp Oc Kc. apply sr_here. apply (IH p eq_refl Hp Oc Kc).
  - intros d nx c q s s1 s' Iq _ IHq _ IHc p -> Hp Oc Kc. apply sr_channel with (p := q) (s1 := s1); [exact Iq|apply (IHq q eq_refl (Hch q Iq)); left; reflexivity|]. apply (IHc p eq_refl Hp Oc Kc).
  - intros d ch r k n s s' R V p -> Hp Oc Kc. apply cr_rule with (n := n); assumption.
  - intros d ch e sp k n s s' _ IH V p -> Hp Oc Kc. apply cr_token with (n := n); [|exact V]. apply (IH p eq_refl Hp). right. right. exists sp, k. exact Oc.
  - intros d ch e name sp k n s s' _ _ _ _ p -> Hp Oc Kc. destruct Kc as [(? & ? & E)|(? & ? & ? & E)]; discriminate.
  - intros d ch c s Ab p -> Hp Oc Kc. apply cr_absent. exact Ab.
  - intros d ch ls s p -> Hp Oc Kc. destruct Kc as [(? & ? & E)|(? & ? & ? & E)]; discriminate.
  - intros. constructor.
  - intros d ch e n s s1 s2 _ IH1 _ IH2 p -> Hp Oe. apply et_more with (s1 := s1); [apply (IH1 p eq_refl Hp Oe)|apply (IH2 p eq_refl Hp Oe)].
Qed.
End Strict.
Lemma to_token_complete channels root fuel script st t :
  (forall p, among channels p -> good_path p) -> good_path root -> (forall p, among channels p -> sturdy p) -> sturdy root ->
  fst (to_token channels fuel root script st) = Ok t -> tok_valid t = true ->
  exists rest, script = tok_disc t ++ rest /\ el_reads channels False (pa_deps root) true (pa_element root) script rest /\ tok_disc t <> [].
Proof.
  intros Gc Gr Sc Sr H V. destruct (to_token_sound channels Gc root fuel script st t Gr H V) as (rest & E & R & N). exists rest. split; [exact E|]. split.
  - apply (proj1 (strict channels Sc) _ _ _ _ _ R root eq_refl Sr). left. reflexivity.
  - apply N. apply (Sr (pa_element root)). left. reflexivity.
Qed.

(* ---- choosing a line ---- *)
Section Best.
Variable f : pcontainer -> gmap element -> bytes -> bool -> bool -> M (option block).
Variables (d : gmap element) (script : bytes) (ch : bool).
Notation eval := (fun l => line_to_matches f l d script ch).
Lemma line_nonempty l st bl st' : line_to_matches f l d script ch st = (Ok (Some bl), st') -> bl <> [].
Proof. unfold line_to_matches. intros H. apply mbind_ok in H. destruct H as (o & s1 & _ & H). apply ret_ok in H. destruct H as [H _]. destruct o as [[|]|]; inversion H. discriminate. Qed.
Definition sel (outs : list (option (list block))) (big : nat) (v iv : option (nat * list block)) : Prop :=
  match v with
  | Some (i, bl) => longest_first outs i bl /\ big = length (text bl)
  | None => (forall j bl, ~ candidate outs j bl) /\ big = 0
  end /\
  match iv with Some (i, bl) => last_failed outs i bl | None => forall j bl, ~ failed outs j bl end.
Lemma nth_snoc {A} (l : list A) x j y : nth_error (l ++ [x]) j = Some y <-> nth_error l j = Some y \/ (j = length l /\ x = y).
Proof.
  destruct (Nat.lt_ge_cases j (length l)) as [L|L].
  - rewrite nth_error_app1 by exact L. split; [auto|]. intros [H|[-> _]]; [exact H|lia].
  - rewrite nth_error_app2 by exact L. split.
    + destruct (j - length l) as [|k] eqn:E; cbn; [intros H; inversion H; right; split; [lia|reflexivity]|destruct k; discriminate].
    + intros [H|[-> ->]]; [exfalso; apply nth_error_Some in L || idtac; assert (nth_error l j <> None) by congruence; apply nth_error_Some in H0; lia|]. rewrite Nat.sub_diag. reflexivity.
Qed.
Lemma cand_snoc outs o j bl : candidate (outs ++ [o]) j bl <-> candidate outs j bl \/ (j = length outs /\ o = Some bl /\ forallb b_valid bl = true /\ text bl <> []).
Proof. unfold candidate. rewrite nth_snoc. intuition. Qed.
Lemma fail_snoc outs o j bl : failed (outs ++ [o]) j bl <-> failed outs j bl \/ (j = length outs /\ o = Some bl /\ forallb b_valid bl = false).
Proof. unfold failed. rewrite nth_snoc. intuition. Qed.
Lemma cand_lt outs j bl : candidate outs j bl -> j < length outs.
Proof. intros [H _]. apply nth_error_Some. congruence. Qed.
Lemma fail_lt outs j bl : failed outs j bl -> j < length outs.
Proof. intros [H _]. apply nth_error_Some. congruence. Qed.
Lemma text_disc i bl : forallb b_valid bl = true -> lm_disc (LM i bl) = text bl.
Proof. apply lm_disc_valid. Qed.
Lemma best_loop_sel ls : forall done outs big v iv st v' iv' st', length outs = done -> sel outs big v iv ->
  best_loop f ls done d script ch big v iv st = (Ok (v', iv'), st') ->
  exists outs' big', lines_run eval ls st outs' st' /\ sel (outs ++ outs') big' v' iv'.
Proof.
  induction ls as [|l ls IH]; intros done outs big v iv st v' iv' st' Ld S H; cbn [best_loop] in H.
  - mstep. match goal with H : (_, _) = (_, _) |- _ => inversion H; subst end. exists [], big. rewrite app_nil_r. split; [constructor|exact S].
  - apply mbind_ok in H. destruct H as (o & st1 & E & H).
    assert (Go : forall big' v1 iv1, sel (outs ++ [o]) big' v1 iv1 -> best_loop f ls (Datatypes.S done) d script ch big' v1 iv1 st1 = (Ok (v', iv'), st') ->
      exists outs' big', lines_run eval (l :: ls) st outs' st' /\ sel (outs ++ outs') big' v' iv').
    { intros big' v1 iv1 S1 H1. apply (IH _ (outs ++ [o])) in H1; [|rewrite app_length; cbn; lia|exact S1]. destruct H1 as (outs' & b' & R & S'). exists (o :: outs'), b'. split; [eapply lsr_cons; [exact E|exact R]|]. rewrite <- app_assoc in S'. exact S'. }
    destruct S as [Sv Si]. destruct o as [bl|].
    + assert (Nb := line_nonempty l st bl st1 E). destruct (lm_valid (LM done bl)) eqn:V; cbn [negb] in H; cbn [lm_valid] in V.
      * rewrite text_disc in H by exact V.
        assert (Si' : match iv with Some (i, b) => last_failed (outs ++ [Some bl]) i b | None => forall j b, ~ failed (outs ++ [Some bl]) j b end).
        { destruct iv as [[i b]|].
          - destruct Si as [S1 S2]. split; [apply fail_snoc; left; exact S1|]. intros j b' Hj. apply fail_snoc in Hj. destruct Hj as [Hj|(_ & E2 & V2)]; [apply (S2 j b' Hj)|]. inversion E2; subst. congruence.
          - intros j b' Hj. apply fail_snoc in Hj. destruct Hj as [Hj|(_ & E2 & V2)]; [apply (Si j b' Hj)|]. inversion E2; subst. congruence. }
        destruct (big <? length (text bl)) eqn:L.
        -- apply Nat.ltb_lt in L. apply (Go _ _ _) in H; [exact H|]. split; [|exact Si']. split; [|reflexivity]. split.
           ++ apply cand_snoc. right. split; [symmetry; exact Ld|]. split; [reflexivity|]. split; [exact V|]. intros Z. rewrite Z in L. cbn in L. lia.
           ++ intros j b' Hj. apply cand_snoc in Hj. destruct Hj as [Hj|(-> & E2 & _ & _)].
              ** assert (length (text b') <= big). { destruct v as [[i0 b0]|]; [destruct Sv as [[_ S2] ->]; apply (S2 j b' Hj)|destruct Sv as [S2 _]; exfalso; apply (S2 j b' Hj)]. }
                 split; lia.
              ** inversion E2; subst. split; lia.
        -- apply Nat.ltb_ge in L. apply (Go _ _ _) in H; [exact H|]. split; [|exact Si']. destruct v as [[i0 b0]|].
           ++ destruct Sv as [[S1 S2] Eb]. split; [|exact Eb]. split; [apply cand_snoc; left; exact S1|]. intros j b' Hj. apply cand_snoc in Hj. destruct Hj as [Hj|(-> & E2 & _ & _)]; [apply (S2 j b' Hj)|].
              inversion E2; subst. split; [lia|]. apply cand_lt in S1. lia.
           ++ destruct Sv as [S1 Eb]. split; [|exact Eb]. intros j b' Hj. apply cand_snoc in Hj. destruct Hj as [Hj|(-> & E2 & _ & N2)]; [apply (S1 j b' Hj)|]. inversion E2; subst. apply N2. apply length_zero_iff_nil. lia.
      * assert (Lb : 0 <? length bl = true) by (apply Nat.ltb_lt; destruct bl; [congruence|cbn; lia]). rewrite Lb in H. apply (Go _ _ _) in H; [exact H|].
        assert (CC : forall j b', candidate (outs ++ [Some bl]) j b' <-> candidate outs j b').
        { intros j b'. rewrite cand_snoc. split; [intros [Hj|(_ & E2 & V2 & _)]; [exact Hj|inversion E2; subst; congruence]|auto]. }
        split.
        -- destruct v as [[i0 b0]|]; [destruct Sv as [[S1 S2] Eb]; split; [split; [apply CC; exact S1|intros j b' Hj; apply CC in Hj; apply (S2 j b' Hj)]|exact Eb]|].
           destruct Sv as [S1 Eb]. split; [intros j b' Hj; apply CC in Hj; apply (S1 j b' Hj)|exact Eb].
        -- split; [apply fail_snoc; right; repeat split; [symmetry; exact Ld|exact V]|]. intros j b' Hj. apply fail_snoc in Hj. destruct Hj as [Hj|(-> & _)]; [apply fail_lt in Hj; lia|lia].
    + apply (Go _ _ _) in H; [exact H|].
      assert (CC : forall j b', candidate (outs ++ [None]) j b' <-> candidate outs j b') by (intros j b'; rewrite cand_snoc; split; [intros [Hj|(_ & E2 & _)]; [exact Hj|discriminate]|auto]).
      assert (FF : forall j b', failed (outs ++ [None]) j b' <-> failed outs j b') by (intros j b'; rewrite fail_snoc; split; [intros [Hj|(_ & E2 & _)]; [exact Hj|discriminate]|auto]).
      split.
      * destruct v as [[i0 b0]|]; [destruct Sv as [[S1 S2] Eb]; split; [split; [apply CC; exact S1|intros j b' Hj; apply CC in Hj; apply (S2 j b' Hj)]|exact Eb]|].
        destruct Sv as [S1 Eb]. split; [intros j b' Hj; apply CC in Hj; apply (S1 j b' Hj)|exact Eb].
      * destruct iv as [[i b]|]; [destruct Si as [S1 S2]; split; [apply FF; exact S1|intros j b' Hj; apply FF in Hj; apply (S2 j b' Hj)]|intros j b' Hj; apply FF in Hj; apply (Si j b' Hj)].
Qed.
Lemma best_line_chosen ls st o st' : best_line f ls d script ch st = (Ok o, st') -> exists outs, lines_run eval ls st outs st' /\ chosen outs o.
Proof.
  unfold best_line. intros H. apply mbind_ok in H. destruct H as ([v iv] & s1 & E & H). mstep. subst.
  apply (best_loop_sel ls 0 [] 0 None None) in E; [|reflexivity|].
  - destruct E as (outs & big & R & [Sv Si]). cbn [app] in *. exists outs. split; [exact R|]. destruct v as [[i bl]|]; [left; apply Sv|]. destruct iv as [[i bl]|]; [right; split; [apply Sv|exact Si]|split; [apply Sv|exact Si]].
  - split; [split; [intros j bl [Hn _]; destruct j; discriminate|reflexivity]|intros j bl [Hn _]; destruct j; discriminate].
Qed.
End Best.
Lemma to_token_chosen channels root fuel script st t : fst (to_token channels fuel root script st) = Ok t ->
  exists outs st', lines_run (fun l => line_to_matches (cbm channels fuel) l (pa_deps root) script true) (el_must (pa_element root)) {| ls_rec := []; ls_pre := ls_pre st; ls_tick := ls_tick st |} outs st' /\
    chosen outs (the_must t) /\ tok_el t = pa_element root.
Proof.
  unfold to_token, element_to_token, element_to_content. intros H. destruct (mbind _ _ _) as [r st'] eqn:E in H. cbn [fst] in H. subst r.
  apply mbind_ok in E. destruct E as (c & s1 & E & H). apply mbind_ok in E. destruct E as (m & s2 & Em & E). mstep. subst s1.
  assert (Et : t = Tok (pa_element root) (pa_deps root) c) by (destruct (el_name _); congruence). subst t.
  apply best_line_chosen in Em. destruct Em as (outs & R & C). exists outs, s2. split; [exact R|]. split; [|reflexivity].
  assert (Hmust : the_must (Tok (pa_element root) (pa_deps root) c) = m).
  { unfold the_must, tok_content. destruct m as [m|]; [|mstep; subst; reflexivity]. destruct (el_not _); [|mstep; subst; reflexivity]. apply mbind_ok in E. destruct E as (n & s3 & _ & E). mstep; subst. reflexivity. }
  rewrite Hmust. exact C.
Qed.

(* ---- facts about every part of an answered tree ---- *)
Section Parts.
Variable channels : nat -> list path.
Variable QT : tokmatch -> Prop.
Variable QR : rulematch -> Prop.
Definition Q (n : node) : Prop := match n with NTM t => QT t | NRM r => QR r | _ => True end.
Definition all_of (n : node) : Prop := forall x, inside x n -> Q x.
Hypothesis HT : forall f fuel e sp k d s ch st t st', token_to_match f fuel e sp k d s ch st = (Ok t, st') -> QT t.
Hypothesis HR : forall r k s ch st x st', rule_to_match r k s ch st = (Ok x, st') -> QR x.
Lemma all_of_parts n : Q n -> (forall c, part_of c n -> all_of c) -> all_of n.
Proof. intros Hn Hc x Hx. inversion Hx; subst; [exact Hn|]. apply (Hc b); assumption. Qed.
Definition oblocks (o : option block) : Prop := match o with Some b => all_of (NBlock b) | None => True end.
Definition okf (f : pcontainer -> gmap element -> bytes -> bool -> bool -> M (option block)) : Prop :=
  forall c d s ch nx st o st', f c d s ch nx st = (Ok o, st') -> oblocks o.
Section Step.
Variable f : pcontainer -> gmap element -> bytes -> bool -> bool -> M (option block).
Hypothesis Hf : okf f.
Lemma line_loop_parts l : forall d s ch nx acc st bl st', line_loop f l d s ch nx acc st = (Ok (Some bl), st') -> Forall (fun b => all_of (NBlock b)) acc -> Forall (fun b => all_of (NBlock b)) bl.
Proof.
  induction l as [|[|c] l IH]; intros d s ch nx acc st bl st' H Ha; cbn [line_loop] in H.
  - mstep. match goal with H : Some _ = Some _ |- _ => inversion H; subst end. exact Ha.
  - eapply IH; [exact H|exact Ha].
  - apply mbind_ok in H. destruct H as (o & s1 & E & H). apply Hf in E. destruct o as [b|].
    + destruct (b_valid b); cbn [negb] in H.
      * destruct (has_prefix _ _); [|mstep; discriminate]. eapply IH; [exact H|]. apply Forall_app. split; [exact Ha|constructor; [exact E|constructor]].
      * mstep. match goal with H : Some _ = Some _ |- _ => inversion H; subst end. constructor; [exact E|constructor].
    + mstep. match goal with H : Some _ = Some _ |- _ => inversion H; subst end. exact Ha.
Qed.
Lemma best_line_parts ls d s ch st m st' : best_line f ls d s ch st = (Ok (Some m), st') -> all_of (NLine m).
Proof.
  intros H. apply best_line_chosen in H. destruct H as (outs & R & C). destruct m as [i bl].
  assert (Hn : nth_error outs i = Some (Some bl)) by (destruct C as [[[C _] _]|[_ [[C _] _]]]; exact C).
  apply all_of_parts; [exact I|]. intros c Hc. inversion Hc; subst.
  assert (F : Forall (fun o => match o with Some bl => Forall (fun b => all_of (NBlock b)) bl | None => True end) outs).
  { clear -R Hf. induction R as [st|l ls o outs st st1 st2 E R IH]; constructor; [|exact IH]. destruct o as [bl|]; [|exact I].
    unfold line_to_matches in E. apply mbind_ok in E. destruct E as (o & s1 & E & H). mstep. destruct o as [[|b o]|]; try discriminate. match goal with H : Some _ = Some _ |- _ => inversion H; subst end. eapply line_loop_parts; [exact E|constructor]. }
  rewrite Forall_forall in F. apply nth_error_In in Hn. specialize (F _ Hn). cbn in F. rewrite Forall_forall in F. apply F. assumption.
Qed.
Lemma element_parts e d s ch st t st' : element_to_token f e d s ch st = (Ok t, st') -> all_of (NTok t).
Proof.
  intros H. unfold element_to_token in H. apply mbind_ok in H. destruct H as (c & s1 & E & H). mstep. assert (Et : t = Tok e d c) by (destruct (el_name _); congruence). subst t.
  unfold element_to_content in E. apply mbind_ok in E. destruct E as (m & s2 & Em & E).
  apply all_of_parts; [exact I|]. intros x Hx. destruct m as [m|]; [|mstep; subst c; inversion Hx].
  apply best_line_parts in Em. destruct (el_not e) as [ls|].
  - apply mbind_ok in E. destruct E as (n & s3 & En & E). mstep. subst. inversion Hx; subst; [exact Em|]. apply best_line_parts in En. exact En.
  - mstep. subst. inversion Hx; subst. exact Em.
Qed.
Lemma find_parts s chs : forall st m st', find_in_channels f chs s st = (Ok (Some m), st') -> all_of (NLine m).
Proof.
  induction chs as [|p chs IH]; intros st m st' H; cbn [find_in_channels] in H; [mstep; discriminate|]. apply mbind_ok in H. destruct H as (t & s1 & E & H). apply element_parts in E.
  destruct (tok_valid t); [|eapply IH; exact H]. mstep. destruct (tok_content t) as [[m' n]|] eqn:Ec; [|discriminate]. match goal with H : Ok _ = Ok _ |- _ => inversion H; subst end.
  destruct t as [e d c]. cbn in Ec. subst c. intros x Hx. apply E. eapply in_part; [exact Hx|constructor].
Qed.
Lemma tokens_parts e d pmax ch : forall fuel acc s st l st', token_loop f fuel e d pmax ch acc s st = (Ok l, st') -> Forall (fun t => all_of (NTok t)) acc -> Forall (fun t => all_of (NTok t)) l.
Proof.
  induction fuel as [|n IH]; intros acc s st l st' H Ha; [discriminate|]. cbn [token_loop] in H. apply mbind_ok in H. destruct H as (t & s1 & E & H). apply element_parts in E.
  assert (Ha' : Forall (fun t => all_of (NTok t)) (acc ++ [t])) by (apply Forall_app; split; [exact Ha|constructor; [exact E|constructor]]).
  destruct (tok_valid t); cbn [negb] in H; [|mstep; subst; exact Ha]. destruct (tok_content t) as [[m x]|]; [|mstep; discriminate].
  destruct (has_prefix _ _); [|mstep; subst; exact Ha']. match type of H with (if ?b then _ else _) _ = _ => destruct b end; [mstep; subst; exact Ha'|]. eapply IH; [exact H|exact Ha'].
Qed.
Lemma token_match_parts fuel e sp k d s ch st t st' : token_to_match f fuel e sp k d s ch st = (Ok t, st') -> all_of (NTM t).
Proof.
  intros H. assert (Qt := HT _ _ _ _ _ _ _ _ _ _ _ H). unfold token_to_match in H. destruct (delimiter k) as [mn mx]. apply mbind_ok in H. destruct H as (l & s1 & E & H). apply tokens_parts in E; [|constructor]. mstep.
  destruct s; [discriminate|]. destruct (forallb _ sp); [|discriminate]. match goal with H : Ok _ = Ok _ |- _ => inversion H; subst end.
  apply all_of_parts; [exact Qt|]. intros c Hc. inversion Hc; subst. rewrite Forall_forall in E. apply E. assumption.
Qed.
Lemma container_parts fuel c d s ch st m st' : container_to_match f fuel c d s ch st = (Ok (Some m), st') -> all_of (NMatch m).
Proof.
  intros H. assert (Tk : forall t, all_of (NTM t) -> all_of (NMatch (token_or_skip t))).
  { intros t Ht. unfold token_or_skip. destruct (_ && _); (apply all_of_parts; [exact I|]; intros x Hx; inversion Hx; subst; exact Ht). }
  destruct c as [e sp k|r k|nm sp k|ls]; cbn [container_to_match] in H.
  - apply mbind_ok in H. destruct H as (t & s1 & E & H). mstep. match goal with H : Some _ = Some _ |- _ => inversion H; subst end. apply Tk. eapply token_match_parts; exact E.
  - apply mbind_ok in H. destruct H as (x & s1 & E & H). mstep. match goal with H : Some _ = Some _ |- _ => inversion H; subst end. apply HR in E.
    assert (Er : all_of (NRM x)) by (apply all_of_parts; [exact E|]; intros c Hc; inversion Hc).
    unfold rule_or_skip. destruct (_ && _); (apply all_of_parts; [exact I|]; intros y Hy; inversion Hy; subst; exact Er).
  - match type of H with (if ?b then _ else _) = _ => destruct b end; [discriminate|]. apply mbind_ok in H. destruct H as (e & s1 & _ & H). apply mbind_ok in H. destruct H as (t & s2 & E & H). mstep. match goal with H : Some _ = Some _ |- _ => inversion H; subst end. apply Tk. eapply token_match_parts; exact E.
  - apply mbind_ok in H. destruct H as (o & s1 & E & H). mstep. destruct o as [l|]; [|discriminate]. match goal with H : Some _ = Some _ |- _ => inversion H; subst end. apply best_line_parts in E.
    apply all_of_parts; [exact I|]; intros x Hx; inversion Hx; subst; exact E.
Qed.
Lemma cbm_step_parts n : okf (cbm_step channels f n).
Proof.
  intros c d s ch nx st o st' H. unfold cbm_step in H. destruct s as [|b s].
  - mstep. destruct (cont_card c) as [k| | |]; try discriminate. cbn [bind] in *. destruct (is_valid k 0); [match goal with H : Ok _ = Ok _ |- _ => inversion H; subst end; exact I|].
    destruct (build_next n c d); try discriminate. cbn [bind] in *. match goal with H : Ok _ = Ok _ |- _ => inversion H; subst end. apply all_of_parts; [exact I|]. intros x Hx. inversion Hx.
  - apply mbind_ok in H. destruct H as (o1 & s1 & E & H). destruct o1 as [bl|].
    + mstep. subst. destruct ch; [|mstep; discriminate]. unfold find_channel_block in E. apply mbind_ok in E. destruct E as (m & s2 & Em & E). destruct m as [m|]; [|mstep; discriminate]. apply find_parts in Em.
      destruct (has_prefix _ _); [|mstep; discriminate]. apply mbind_ok in E. destruct E as (x & s3 & Ex & E). apply Hf in Ex. mstep. destruct x as [x|]; [|discriminate]. match goal with H : Some _ = Some _ |- _ => inversion H; subst end.
      apply all_of_parts; [exact I|]. intros y Hy. inversion Hy; subst; assumption.
    + apply mbind_ok in H. destruct H as (m & s2 & Em & H). mstep. subst. destruct m as [m|]; [|exact I]. apply container_parts in Em. apply all_of_parts; [exact I|]. intros y Hy. inversion Hy; subst; assumption.
Qed.
End Step.
Lemma cbm_parts n : okf (cbm channels n).
Proof. induction n as [|n IH]; intros c d s ch nx st o st' H; [discriminate|]. cbn [cbm] in H. exact (cbm_step_parts (cbm channels n) IH n c d s ch nx st o st' H). Qed.
Lemma to_token_parts root fuel script st t : fst (to_token channels fuel root script st) = Ok t -> all_of (NTok t).
Proof. intros H. unfold to_token in H. destruct (element_to_token _ _ _ _ _ _) as [r st'] eqn:E. cbn in H. subst r. apply (element_parts (cbm channels fuel) (cbm_parts fuel) _ _ _ _ _ _ _ E). Qed.
End Parts.

(* repetition *)
Definition within_max (c : cardinality) (n : nat) : Prop := forall m, snd (delimiter c) = Some m -> (N.of_nat n <= N.max 1 m)%N.
Lemma token_loop_max f e d pmax ch m : pmax = Some m -> forall fuel acc s st l st', token_loop f fuel e d pmax ch acc s st = (Ok l, st') -> (acc = [] \/ (N.of_nat (length acc) < m)%N) -> (N.of_nat (length l) <= N.max 1 m)%N.
Proof.
  intros Em. induction fuel as [|n IH]; intros acc s st l st' H Ha; [discriminate|]. cbn [token_loop] in H. apply mbind_ok in H. destruct H as (t & s1 & E & H).
  assert (La : (N.of_nat (length acc) <= N.max 1 m)%N) by (destruct Ha as [->|Ha]; cbn [length]; lia).
  assert (La' : (N.of_nat (length (acc ++ [t])) <= N.max 1 m)%N) by (rewrite app_length; cbn [length]; destruct Ha as [->|Ha]; cbn [length]; lia).
  destruct (tok_valid t); cbn [negb] in H; [|mstep; subst; exact La]. destruct (tok_content t) as [[x y]|]; [|mstep; discriminate].
  destruct (has_prefix _ _); [|mstep; subst; exact La']. rewrite Em in H. destruct (m <=? N.of_nat (length (acc ++ [t])))%N eqn:L; [mstep; subst; exact La'|]. rewrite <- Em in H. eapply IH; [exact H|]. right. apply N.leb_gt in L. exact L.
Qed.
Lemma token_loop_valid f e d pmax ch : forall fuel acc s st l st', token_loop f fuel e d pmax ch acc s st = (Ok l, st') -> Forall (fun t => tok_valid t = true /\ tok_el t = e) acc -> Forall (fun t => tok_valid t = true /\ tok_el t = e) l.
Proof.
  induction fuel as [|n IH]; intros acc s st l st' H Ha; [discriminate|]. cbn [token_loop] in H. apply mbind_ok in H. destruct H as (t & s1 & E & H).
  destruct (tok_valid t) eqn:V; cbn [negb] in H; [|mstep; subst; exact Ha].
  assert (Et : tok_el t = e) by (unfold element_to_token in E; apply mbind_ok in E; destruct E as (c & s2 & _ & E); mstep; destruct (el_name e); [discriminate|]; match goal with H : Ok _ = Ok _ |- _ => inversion H; subst end; reflexivity).
  assert (Ha' : Forall (fun t => tok_valid t = true /\ tok_el t = e) (acc ++ [t])) by (apply Forall_app; split; [exact Ha|constructor; [split; assumption|constructor]]).
  destruct (tok_content t) as [[x y]|]; [|mstep; discriminate]. destruct (has_prefix _ _); [|mstep; subst; exact Ha'].
  match type of H with (if ?b then _ else _) _ = _ => destruct b end; [mstep; subst; exact Ha'|]. eapply IH; [exact H|exact Ha'].
Qed.
Lemma token_match_facts f fuel e sp k d s ch st t st' : token_to_match f fuel e sp k d s ch st = (Ok t, st') ->
  within_max (tm_card t) (length (tm_toks t)) /\ Forall (fun x => tok_valid x = true /\ tok_el x = tm_el t) (tm_toks t).
Proof.
  intros H. unfold token_to_match in H. destruct (delimiter k) as [mn mx] eqn:Ed. apply mbind_ok in H. destruct H as (l & s1 & E & H). mstep. destruct s; [discriminate|]. destruct (forallb _ sp); [|discriminate].
  match goal with H : Ok _ = Ok _ |- _ => inversion H; subst end. cbn [tm_card tm_toks tm_el]. split.
  - intros m Em. rewrite Ed in Em. cbn in Em. eapply token_loop_max; [exact Em|exact E|left; reflexivity].
  - eapply token_loop_valid; [exact E|constructor].
Qed.
Lemma rule_loop_facts r m local sl : forall fuel acc s st l st', rule_loop fuel r (Some m) local sl acc s st = (Ok l, st') -> (acc = [] \/ (N.of_nat (length acc) < m)%N) -> (N.of_nat (length l) <= N.max 1 m)%N.
Proof.
  induction fuel as [|n IH]; intros acc s st l st' H Ha; [discriminate|]. cbn [rule_loop] in H.
  assert (La : (N.of_nat (length acc) <= N.max 1 m)%N) by (destruct Ha as [->|Ha]; cbn [length]; lia).
  destruct (to_result r s) as [x| | |]; try discriminate; [|mstep; subst; exact La]. destruct (rr_matches x); [|mstep; subst; exact La]. destruct (first_index x) as [i|]; [|discriminate].
  assert (La' : (N.of_nat (length (acc ++ [x])) <= N.max 1 m)%N) by (rewrite app_length; cbn [length]; destruct Ha as [->|Ha]; cbn [length]; lia).
  destruct (_ && _); [inversion H; subst; exact La'|]. destruct (_ <=? _); [inversion H; subst; exact La'|]. destruct (_ <? _); [discriminate|].
  destruct (m <=? N.of_nat (length (acc ++ [x])))%N eqn:L; [inversion H; subst; exact La'|]. eapply IH; [exact H|]. right. apply N.leb_gt. exact L.
Qed.
(* the prefix permission is only ever taken away *)
Definition keeps {A} (m : M A) : Prop := forall s, ls_pre s = false -> ls_pre (snd (m s)) = false.
Lemma rule_loop_keeps r pmax local sl : forall fuel acc s, keeps (rule_loop fuel r pmax local sl acc s).
Proof.
  induction fuel as [|n IH]; intros acc s st P; [exact P|]. cbn [rule_loop]. destruct (to_result r s) as [x| | |]; try exact P. destruct (rr_matches x); [|exact P]. destruct (first_index x) as [i|]; [|exact P].
  assert (P' : ls_pre (if 0 <? i then {| ls_rec := ls_rec st; ls_pre := false; ls_tick := ls_tick st |} else st) = false) by (destruct (0 <? i); [reflexivity|exact P]).
  destruct (_ && _); [exact P'|]. destruct (_ <=? _); [exact P'|]. destruct (_ <? length (rr_content x)); [exact P'|]. match goal with |- context [if ?b then (Ok _, _) else _] => destruct b end; [exact P'|]. apply IH. exact P'.
Qed.
Lemma rule_loop_first r pmax local sl fuel s st l st' x l' : rule_loop fuel r pmax local sl [] s st = (Ok l, st') -> l = x :: l' -> exists i, first_index x = Some i /\ (0 < i -> ls_pre st' = false).
Proof.
  intros H El. destruct fuel as [|n]; [discriminate|]. cbn [rule_loop] in H. destruct (to_result r s) as [y| | |]; try discriminate; [|mstep; subst; discriminate]. destruct (rr_matches y); [|mstep; subst; discriminate].
  destruct (first_index y) as [i|] eqn:Fi; [|discriminate].
  assert (Fin : x = y -> (0 < i -> ls_pre st' = false) -> exists i, first_index x = Some i /\ (0 < i -> ls_pre st' = false)) by (intros -> Hi; exists i; auto).
  destruct (_ && _).
  { inversion H; subst. inversion H1; subst. apply Fin; [reflexivity|]. intros Hi. apply Nat.ltb_lt in Hi. rewrite Hi. reflexivity. }
  destruct (_ <=? _).
  { inversion H; subst. inversion H1; subst. apply Fin; [reflexivity|]. intros Hi. apply Nat.ltb_lt in Hi. rewrite Hi. reflexivity. }
  destruct (length s <? _); [discriminate|].
  match type of H with (if ?b then (Ok _, _) else _) = _ => destruct b end.
  { inversion H; subst. inversion H1; subst. apply Fin; [reflexivity|]. intros Hi. apply Nat.ltb_lt in Hi. rewrite Hi. reflexivity. }
  assert (Hk := rule_loop_keeps r pmax local sl n ([] ++ [y]) (skipn (length (rr_content y)) s) (if 0 <? i then {| ls_rec := ls_rec st; ls_pre := false; ls_tick := ls_tick st |} else st)).
  rewrite H in Hk. cbn [snd] in Hk.
  assert (Ha : exists l2, l = ([] ++ [y]) ++ l2).
  { clear -H. revert H. generalize ([] ++ [y]) as acc, (skipn (length (rr_content y)) s) as s0, (if 0 <? i then {| ls_rec := ls_rec st; ls_pre := false; ls_tick := ls_tick st |} else st) as st0.
    induction n as [|n IH]; intros acc s0 st0 H; [discriminate|]. cbn [rule_loop] in H.
    destruct (to_result r s0) as [z| | |]; try discriminate; [|mstep; subst; exists []; rewrite app_nil_r; reflexivity]. destruct (rr_matches z); [|mstep; subst; exists []; rewrite app_nil_r; reflexivity]. destruct (first_index z) as [j|]; [|discriminate].
    destruct (_ && _); [inversion H; subst; exists [z]; reflexivity|]. destruct (_ <=? _); [inversion H; subst; exists [z]; reflexivity|]. destruct (length s0 <? _); [discriminate|].
    match type of H with (if ?b then (Ok _, _) else _) = _ => destruct b end; [inversion H; subst; exists [z]; reflexivity|]. apply IH in H. destruct H as [l2 ->]. exists (z :: l2). rewrite <- app_assoc. reflexivity. }
  destruct Ha as [l2 ->]. cbn in El. inversion El; subst. apply Fin; [reflexivity|]. intros Hi. apply Hk. apply Nat.ltb_lt in Hi. rewrite Hi. reflexivity.
Qed.
Lemma rule_match_facts r k s ch st x st' : rule_to_match r k s ch st = (Ok x, st') ->
  within_max (rm_card x) (length (rm_results x)) /\ (rm_valid x = true -> forall y l, rm_results x = y :: l -> first_index y = Some 0).
Proof.
  intros H. unfold rule_to_match in H. destruct (delimiter k) as [mn mx] eqn:Ed. apply mbind_ok in H. destruct H as (l & s1 & E & H). inversion H; subst. cbn [rm_card rm_results]. split.
  - intros m Em. rewrite Ed in Em. cbn in Em. subst mx. eapply rule_loop_facts; [exact E|left; reflexivity].
  - intros V y l' ->. destruct (rule_loop_first _ _ _ _ _ _ _ _ _ y l' E eq_refl) as (i & Fi & Hp). rewrite Fi. f_equal.
    unfold rm_valid, rm_exact in V. cbn [rm_results rm_prefix] in V. apply andb_prop in V. destruct V as [_ V]. rewrite Fi in V. destruct i as [|i]; [reflexivity|]. rewrite (Hp ltac:(lia)) in V. cbn in V. discriminate.
Qed.
Lemma answer_parts channels root fuel script st t : fst (to_token channels fuel root script st) = Ok t -> forall n, inside n (NTok t) ->
  match n with
  | NTM x => within_max (tm_card x) (length (tm_toks x)) /\ Forall (fun y => tok_valid y = true /\ tok_el y = tm_el x) (tm_toks x)
  | NRM x => within_max (rm_card x) (length (rm_results x)) /\ (rm_valid x = true -> forall y l, rm_results x = y :: l -> first_index y = Some 0)
  | _ => True
  end.
Proof.
  intros H n Hn. set (QT := fun x => within_max (tm_card x) (length (tm_toks x)) /\ Forall (fun y => tok_valid y = true /\ tok_el y = tm_el x) (tm_toks x)).
  set (QR := fun x => within_max (rm_card x) (length (rm_results x)) /\ (rm_valid x = true -> forall y l, rm_results x = y :: l -> first_index y = Some 0)).
  assert (K := to_token_parts channels QT QR ltac:(intros; eapply token_match_facts; eassumption) ltac:(intros; eapply rule_match_facts; eassumption) root fuel script st t H n Hn).
  destruct n; exact K.
Qed.
(* valid parts are within their cardinality, and a token part satisfies its specifiers *)
Lemma filter_repeat_eq name x n : length (filter (bytes_eqb name) (repeat x n)) = if bytes_eqb x name then n else 0.
Proof.
  destruct (bytes_eqb x name) eqn:E.
  - apply bytes_eqb_eq in E. subst x. induction n as [|n IH]; [reflexivity|]. cbn [repeat filter]. rewrite (proj2 (bytes_eqb_eq name name) eq_refl). cbn [length]. rewrite IH. reflexivity.
  - induction n as [|n IH]; [reflexivity|]. cbn [repeat filter]. destruct (bytes_eqb name x) eqn:E2; [|exact IH]. apply bytes_eqb_eq in E2. subst x. rewrite (proj2 (bytes_eqb_eq name name) eq_refl) in E. discriminate.
Qed.
Lemma block_amount_names name b : block_amount name b = length (filter (bytes_eqb name) (matched_names (past_channels b))).
Proof.
  revert b. fix IH 1. intros [m c|b c|n c]; [|exact (IH b)|reflexivity].
  destruct m as [t|r|t|r|l]; cbn [block_amount past_channels matched_names]; try reflexivity; rewrite filter_repeat_eq; reflexivity.
Qed.
Lemma filter_concat_sum {A} (f : bytes -> bool) (g : A -> list bytes) l : length (filter f (concat (map g l))) = sum (map (fun x => length (filter f (g x))) l).
Proof. induction l as [|x l IH]; [reflexivity|]. cbn [map concat]. rewrite filter_app, app_length, IH. reflexivity. Qed.
Lemma sum_filter {A} (p : A -> bool) (g : A -> nat) l : sum (map g (filter p l)) = sum (map (fun x => if p x then g x else 0) l).
Proof. induction l as [|x l IH]; [reflexivity|]. cbn [filter map sum fold_right]. destruct (p x); cbn [map sum fold_right]; unfold sum in IH; rewrite IH; reflexivity. Qed.
Lemma occurrences_spec name toks : spec_amount name toks = occurrences name toks.
Proof.
  unfold spec_amount, occurrences. rewrite filter_concat_sum, sum_filter. f_equal. apply map_ext. intros t. destruct (tok_valid t); [|reflexivity].
  destruct t as [e d [[[i bl] n]|]]; [|reflexivity]. unfold line_names. cbn [tok_content]. rewrite filter_concat_sum, sum_filter. f_equal. apply map_ext. intros b. rewrite block_amount_names. reflexivity.
Qed.
Lemma valid_token_match x : tm_valid x = true <->
  is_valid (tm_card x) (N.of_nat (length (tm_toks x))) = true /\ Forall (fun t => tok_valid t = true) (tm_toks x) /\
  Forall (fun s => specific_is_valid (sp_card s) (N.of_nat (occurrences (sp_name s) (tm_toks x))) = true) (tm_specs x).
Proof.
  destruct x as [e sp i k l]. cbn [tm_card tm_toks tm_specs tm_valid]. rewrite !andb_true_iff, !forallb_forall, !Forall_forall. split.
  - intros (H1 & H2 & H3). split; [exact H2|]. split; [exact H3|]. intros s Hs. rewrite <- occurrences_spec. apply (H1 s Hs).
  - intros (H1 & H2 & H3). split; [|split; assumption]. intros s Hs. specialize (H3 s Hs). rewrite <- occurrences_spec in H3. exact H3.
Qed.

(* ---- history ---- *)
Section Keeps.
Variable channels : nat -> list path.
Definition fkeeps (f : pcontainer -> gmap element -> bytes -> bool -> bool -> M (option block)) : Prop := forall c d s ch nx, keeps (f c d s ch nx).
Lemma keeps_ret {A} (a : A) : keeps (ret a). Proof. intros s H. exact H. Qed.
Lemma keeps_lift {A} (a : res A) : keeps (lift a). Proof. intros s H. exact H. Qed.
Lemma keeps_bind {A B} (m : M A) (f : A -> M B) : keeps m -> (forall a, keeps (f a)) -> keeps (mbind m f).
Proof. intros Hm Hf s H. unfold mbind. specialize (Hm s H). destruct (m s) as [[a| | |] s1]; cbn [snd] in *; try exact Hm. apply Hf. exact Hm. Qed.
Section Step.
Variable f : pcontainer -> gmap element -> bytes -> bool -> bool -> M (option block).
Hypothesis Hf : fkeeps f.
Lemma line_keeps l : forall d s ch nx acc, keeps (line_loop f l d s ch nx acc).
Proof.
  induction l as [|[|c] l IH]; intros; cbn [line_loop]; [apply keeps_ret|apply IH|]. apply keeps_bind; [apply Hf|]. intros [b|]; [|apply keeps_ret]. destruct (negb _); [apply keeps_ret|]. destruct (has_prefix _ _); [apply IH|apply keeps_ret].
Qed.
Lemma best_keeps ls d s ch : keeps (best_line f ls d s ch).
Proof.
  apply keeps_bind; [|intros; apply keeps_ret]. generalize 0 at 1 as i. generalize 0 as big. generalize (@None (nat * list block)) at 1 as v. generalize (@None (nat * list block)) as iv.
  induction ls as [|l ls IH]; intros iv v big i; cbn [best_loop]; [apply keeps_ret|]. apply keeps_bind; [apply keeps_bind; [apply line_keeps|intros; apply keeps_ret]|]. intros [bl|]; [|apply IH]. destruct (negb _); [apply IH|]. destruct (_ <? _); apply IH.
Qed.
Lemma element_keeps e d s ch : keeps (element_to_token f e d s ch).
Proof.
  apply keeps_bind; [|intros; apply keeps_lift]. apply keeps_bind; [apply best_keeps|]. intros [m|]; [|apply keeps_ret]. destruct (el_not e); [|apply keeps_ret]. apply keeps_bind; [apply best_keeps|intros; apply keeps_ret].
Qed.
Lemma tokens_keeps e d pmax ch : forall fuel acc s, keeps (token_loop f fuel e d pmax ch acc s).
Proof.
  induction fuel as [|n IH]; intros acc s; cbn [token_loop]; [apply keeps_lift|]. apply keeps_bind; [apply element_keeps|]. intros t. destruct (negb _); [apply keeps_ret|]. destruct (tok_content t) as [[m x]|]; [|apply keeps_lift].
  destruct (has_prefix _ _); [|apply keeps_ret]. match goal with |- context [if ?b then _ else _] => destruct b end; [apply keeps_ret|apply IH].
Qed.
Lemma token_match_keeps fuel e sp k d s ch : keeps (token_to_match f fuel e sp k d s ch).
Proof. unfold token_to_match. destruct (delimiter k). apply keeps_bind; [apply tokens_keeps|intros; apply keeps_lift]. Qed.
Lemma find_keeps chs s : keeps (find_in_channels f chs s).
Proof. induction chs as [|p chs IH]; cbn [find_in_channels]; [apply keeps_ret|]. apply keeps_bind; [apply element_keeps|]. intros t. destruct (tok_valid t); [apply keeps_lift|exact IH]. Qed.
Lemma cbm_step_keeps n : fkeeps (cbm_step channels f n).
Proof.
  intros c d s ch nx. unfold cbm_step. destruct s as [|b s]; [apply keeps_lift|]. apply keeps_bind.
  - destruct ch; [|apply keeps_ret]. apply keeps_bind.
    + intros st P. apply find_keeps. exact P.
    + intros [m|]; [|apply keeps_ret]. destruct (has_prefix _ _); [|apply keeps_ret]. apply keeps_bind; [apply Hf|intros; apply keeps_ret].
  - intros [x|]; [apply keeps_ret|]. apply keeps_bind; [|intros; apply keeps_ret]. destruct c as [e sp k|r k|nm sp k|ls]; cbn [container_to_match].
    + apply keeps_bind; [apply token_match_keeps|intros; apply keeps_ret].
    + apply keeps_bind; [|intros; apply keeps_ret]. intros st P. unfold rule_to_match. destruct (delimiter k). 
      match goal with |- context [mbind ?m ?g st] => assert (KK : keeps (mbind m g)) end; [|apply KK; exact P]. apply keeps_bind; [apply rule_loop_keeps|]. intros l st2 P2. exact P2.
    + intros st P. match goal with |- context [if ?b then _ else _] => destruct b end; [exact P|].
      match goal with |- context [mbind ?m ?g ?st0] => assert (KK : keeps (mbind m g)) end; [|apply KK; exact P]. apply keeps_bind; [apply keeps_lift|]. intros e. apply keeps_bind; [apply token_match_keeps|intros; apply keeps_ret].
    + apply keeps_bind; [apply best_keeps|intros; apply keeps_ret].
Qed.
End Step.
Lemma cbm_keeps n : fkeeps (cbm channels n).
Proof. induction n as [|n IH]; intros c d s ch nx; [apply keeps_lift|]. cbn [cbm]. apply cbm_step_keeps. exact IH. Qed.
Lemma to_token_keeps root fuel script st : ls_pre st = false -> ls_pre (snd (to_token channels fuel root script st)) = false.
Proof. intros P. unfold to_token. apply element_keeps; [apply cbm_keeps|exact P]. Qed.
End Keeps.
(* ---- the orders of the channel map matter only as far as they differ ---- *)
Definition at_tick (k : nat) (s : lst) : lst := {| ls_rec := ls_rec s; ls_pre := ls_pre s; ls_tick := k |}.
Definition tickless {A} (m : M A) : Prop := forall s k, fst (m (at_tick k s)) = fst (m s) /\ exists k', snd (m (at_tick k s)) = at_tick k' (snd (m s)).
Section Tickless.
Variable channels : nat -> list path.
Hypothesis Hc : forall k, channels k = channels 0.
Definition ftickless (f : pcontainer -> gmap element -> bytes -> bool -> bool -> M (option block)) : Prop := forall c d s ch nx, tickless (f c d s ch nx).
Lemma tl_ret {A} (a : A) : tickless (ret a). Proof. intros s k. split; [reflexivity|exists k; reflexivity]. Qed.
Lemma tl_lift {A} (a : res A) : tickless (lift a). Proof. intros s k. split; [reflexivity|exists k; reflexivity]. Qed.
Lemma tl_bind {A B} (m : M A) (f : A -> M B) : tickless m -> (forall a, tickless (f a)) -> tickless (mbind m f).
Proof.
  intros Hm Hf s k. unfold mbind. destruct (Hm s k) as [E [k' E']]. destruct (m (at_tick k s)) as [r s1]. destruct (m s) as [r' s2]. cbn [fst snd] in E, E'. subst r' s1.
  destruct r as [a| | |]; [apply Hf|split; [reflexivity|exists k'; reflexivity]|split; [reflexivity|exists k'; reflexivity]|split; [reflexivity|exists k'; reflexivity]].
Qed.
Lemma tl_rule_loop r pmax local sl : forall fuel acc s, tickless (rule_loop fuel r pmax local sl acc s).
Proof.
  induction fuel as [|n IH]; intros acc s st k; [apply tl_lift|]. cbn [rule_loop]. destruct (to_result r s) as [x| | |]; try apply tl_lift. destruct (rr_matches x); [|apply tl_ret]. destruct (first_index x) as [i|]; [|apply tl_lift].
  assert (E : (if 0 <? i then {| ls_rec := ls_rec (at_tick k st); ls_pre := false; ls_tick := ls_tick (at_tick k st) |} else at_tick k st) = at_tick k (if 0 <? i then {| ls_rec := ls_rec st; ls_pre := false; ls_tick := ls_tick st |} else st)) by (destruct (0 <? i); reflexivity).
  rewrite E. generalize (if 0 <? i then {| ls_rec := ls_rec st; ls_pre := false; ls_tick := ls_tick st |} else st). intros st2.
  destruct (_ && _); [split; [reflexivity|exists k; reflexivity]|]. destruct (_ <=? _); [split; [reflexivity|exists k; reflexivity]|]. destruct (_ <? length (rr_content x)); [split; [reflexivity|exists k; reflexivity]|].
  match goal with |- context [if ?b then (Ok _, _) else _] => destruct b end; [split; [reflexivity|exists k; reflexivity]|]. apply IH.
Qed.
Section Step.
Variable f : pcontainer -> gmap element -> bytes -> bool -> bool -> M (option block).
Hypothesis Hf : ftickless f.
Lemma tl_line l : forall d s ch nx acc, tickless (line_loop f l d s ch nx acc).
Proof.
  induction l as [|[|c] l IH]; intros; cbn [line_loop]; [apply tl_ret|apply IH|]. apply tl_bind; [apply Hf|]. intros [b|]; [|apply tl_ret]. destruct (negb _); [apply tl_ret|]. destruct (has_prefix _ _); [apply IH|apply tl_ret].
Qed.
Lemma tl_best ls d s ch : tickless (best_line f ls d s ch).
Proof.
  apply tl_bind; [|intros; apply tl_ret]. generalize 0 at 1 as i. generalize 0 as big. generalize (@None (nat * list block)) at 1 as v. generalize (@None (nat * list block)) as iv.
  induction ls as [|l ls IH]; intros iv v big i; cbn [best_loop]; [apply tl_ret|]. apply tl_bind; [apply tl_bind; [apply tl_line|intros; apply tl_ret]|]. intros [bl|]; [|apply IH]. destruct (negb _); [apply IH|]. destruct (_ <? _); apply IH.
Qed.
Lemma tl_element e d s ch : tickless (element_to_token f e d s ch).
Proof.
  apply tl_bind; [|intros; apply tl_lift]. apply tl_bind; [apply tl_best|]. intros [m|]; [|apply tl_ret]. destruct (el_not e); [|apply tl_ret]. apply tl_bind; [apply tl_best|intros; apply tl_ret].
Qed.
Lemma tl_tokens e d pmax ch : forall fuel acc s, tickless (token_loop f fuel e d pmax ch acc s).
Proof.
  induction fuel as [|n IH]; intros acc s; cbn [token_loop]; [apply tl_lift|]. apply tl_bind; [apply tl_element|]. intros t. destruct (negb _); [apply tl_ret|]. destruct (tok_content t) as [[m x]|]; [|apply tl_lift].
  destruct (has_prefix _ _); [|apply tl_ret]. match goal with |- context [if ?b then _ else _] => destruct b end; [apply tl_ret|apply IH].
Qed.
Lemma tl_token_match fuel e sp k d s ch : tickless (token_to_match f fuel e sp k d s ch).
Proof. unfold token_to_match. destruct (delimiter k). apply tl_bind; [apply tl_tokens|intros; apply tl_lift]. Qed.
Lemma tl_find chs s : tickless (find_in_channels f chs s).
Proof. induction chs as [|p chs IH]; cbn [find_in_channels]; [apply tl_ret|]. apply tl_bind; [apply tl_element|]. intros t. destruct (tok_valid t); [apply tl_lift|exact IH]. Qed.
Lemma tl_step n : ftickless (cbm_step channels f n).
Proof.
  intros c d s ch nx. unfold cbm_step. destruct s as [|b s]; [apply tl_lift|]. apply tl_bind.
  - destruct ch; [|apply tl_ret]. apply tl_bind.
    + intros st k. unfold range_channels. cbn [at_tick ls_rec ls_pre ls_tick]. rewrite (Hc k), (Hc (ls_tick st)).
      apply (tl_find (channels 0) (b :: s) {| ls_rec := ls_rec st; ls_pre := ls_pre st; ls_tick := S (ls_tick st) |} (S k)).
    + intros [m|]; [|apply tl_ret]. destruct (has_prefix _ _); [|apply tl_ret]. apply tl_bind; [apply Hf|intros; apply tl_ret].
  - intros [x|]; [apply tl_ret|]. apply tl_bind; [|intros; apply tl_ret]. destruct c as [e sp k|r k|nm sp k|ls]; cbn [container_to_match].
    + apply tl_bind; [apply tl_token_match|intros; apply tl_ret].
    + apply tl_bind; [|intros; apply tl_ret]. intros st j. unfold rule_to_match. destruct (delimiter k). cbn [at_tick ls_pre].
      match goal with |- context [mbind ?m ?g (at_tick j st)] => assert (KK : tickless (mbind m g)) end; [|apply KK]. apply tl_bind; [apply tl_rule_loop|]. intros l st2 j2. cbn. split; [reflexivity|exists j2; reflexivity].
    + intros st j. cbn [at_tick ls_rec ls_pre ls_tick]. match goal with |- context [if ?b then _ else _] => destruct b end; [split; [reflexivity|exists j; reflexivity]|].
      match goal with |- context [mbind ?m ?g ?st0] => assert (KK : tickless (mbind m g)) end; [|exact (KK {| ls_rec := minsert (ls_rec st) nm (b :: s); ls_pre := ls_pre st; ls_tick := ls_tick st |} j)]. apply tl_bind; [apply tl_lift|]. intros e. apply tl_bind; [apply tl_token_match|intros; apply tl_ret].
    + apply tl_bind; [apply tl_best|intros; apply tl_ret].
Qed.
End Step.
Lemma tl_cbm n : ftickless (cbm channels n).
Proof. induction n as [|n IH]; intros c d s ch nx; [apply tl_lift|]. cbn [cbm]. apply tl_step. exact IH. Qed.
Lemma to_token_pre root fuel script st st' : ls_pre st = ls_pre st' -> fst (to_token channels fuel root script st) = fst (to_token channels fuel root script st').
Proof.
  intros E. unfold to_token. destruct (tl_element (cbm channels fuel) (tl_cbm fuel) (pa_element root) (pa_deps root) script true {| ls_rec := []; ls_pre := ls_pre st'; ls_tick := ls_tick st' |} (ls_tick st)) as [H _].
  rewrite <- H. unfold at_tick. cbn [ls_rec ls_pre ls_tick]. rewrite E. reflexivity.
Qed.
End Tickless.
Lemma no_permission_history channels root fuel scripts script : (forall k, channels k = channels 0) ->
  fst (to_token channels fuel root script (lexer_after channels root fuel scripts (lst_init false))) = fst (to_token channels fuel root script (lst_init false)).
Proof.
  intros Hc. apply to_token_pre; [exact Hc|]. cbn [lst_init ls_pre]. unfold lexer_after. rewrite <- (app_nil_r scripts). generalize (lst_init false), (eq_refl : ls_pre (lst_init false) = false). rewrite app_nil_r.
  induction scripts as [|x scripts IH]; intros st P; cbn [fold_left]; [exact P|]. apply IH. apply to_token_keeps. exact P.
Qed.
Lemma rev_case {A} (l : list A) : l = [] \/ exists l' x, l = l' ++ [x].
Proof. induction l as [|x l IH] using rev_ind; [left; reflexivity|right; exists l, x; reflexivity]. Qed.
(* with a permission, one call takes it away and everything afterwards is as without *)
Lemma history_two_phases channels root fuel scripts : (forall k, channels k = channels 0) -> exists before after, scripts = before ++ after /\
  (forall a x b, before = a ++ x :: b -> fst (to_token channels fuel root x (lexer_after channels root fuel a (lst_init true))) = fst (to_token channels fuel root x (lst_init true))) /\
  (forall a x b, after = a ++ x :: b -> fst (to_token channels fuel root x (lexer_after channels root fuel (before ++ a) (lst_init true))) = fst (to_token channels fuel root x (lst_init false))).
Proof.
  intros Hc. induction scripts as [|y scripts IH] using rev_ind.
  - exists [], []. split; [reflexivity|]. split; intros [|aa al] x b E; discriminate.
  - destruct IH as (before & after & -> & H1 & H2). destruct (ls_pre (lexer_after channels root fuel (before ++ after) (lst_init true))) eqn:P.
    + (* still permitted: all of after can move to before *)
      assert (All : forall a b, before ++ after = a ++ b -> ls_pre (lexer_after channels root fuel a (lst_init true)) = true).
      { intros a b E. destruct (ls_pre (lexer_after channels root fuel a (lst_init true))) eqn:Pa; [reflexivity|]. exfalso.
        rewrite E in P. clear E. unfold lexer_after in P, Pa. rewrite fold_left_app in P. revert P Pa. generalize (fold_left (fun st s => snd (to_token channels fuel root s st)) a (lst_init true)). clear. intros st P Pa. revert st P Pa.
        induction b as [|x b IH]; intros st P Pa; cbn in P; [congruence|]. apply (IH (snd (to_token channels fuel root x st)) P). apply to_token_keeps. exact Pa. }
      exists ((before ++ after) ++ [y]), []. split; [rewrite app_nil_r; reflexivity|]. split; [|intros [|aa al] x b E; discriminate].
      intros a x b E. apply to_token_pre; [exact Hc|]. cbn [lst_init ls_pre].
      destruct (rev_case b) as [->|(b0 & z & ->)].
      * apply app_inj_tail in E. destruct E as [<- _]. exact P.
      * assert (E2 : (before ++ after) ++ [y] = (a ++ x :: b0) ++ [z]) by (rewrite E, <- app_assoc; reflexivity). apply app_inj_tail in E2. destruct E2 as [E2 _]. apply (All a (x :: b0) E2).
    + exists before, (after ++ [y]). split; [rewrite app_assoc; reflexivity|]. split; [exact H1|]. intros a x b E.
      destruct (rev_case b) as [->|(b0 & z & ->)].
      * apply app_inj_tail in E. destruct E as [<- <-]. apply to_token_pre; [exact Hc|]. exact P.
      * assert (E2 : after ++ [y] = (a ++ x :: b0) ++ [z]) by (rewrite E, <- app_assoc; reflexivity). apply app_inj_tail in E2. destruct E2 as [E2 _]. apply (H2 a x b0 E2).
Qed.
