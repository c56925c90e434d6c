(* CharProofs2.v - a valid answer of the lexer cuts no character. *)
From Coq Require Import Strings.String Strings.Byte Lia.
From Verif Require Import Go GoLemmas DomainModel DomainSpec CardModel CardSpec PatModel PatSpec PatProofs RuleModel RuleSpec RuleProofs PathModel PathSpec LexModel LexSpec LexProofs Utf8Spec CharSpec CharProofs.
Open Scope list_scope.

Lemma to_result_utf8 r s x : good_rule r -> rule_utf8 r -> utf8_text s -> to_result r s = Ok x -> result_utf8 x.
Proof.
  intros G U H E. unfold rule_utf8 in U. unfold result_utf8. destruct (rl_content r) as [c|ps k] eqn:Ec.
  - destruct c as [|b c]; [unfold to_result in E; rewrite Ec in E; inversion E; split; [constructor|exact I]|].
    destruct (proj1 (constant_rule_exact r s (b :: c) x Ec ltac:(discriminate)) E) as (_ & [(k & Hk & Em)|(_ & Em)]); unfold rr_content; rewrite Em; [|split; [constructor|exact I]].
    split; [|constructor; [|constructor]; constructor; [exact U|constructor]]. cbn. exact U.
  - destruct (good_rule_pattern r ps k G Ec) as [Hps [Hf|(m & Em & B)]].
    + destruct (proj1 (pattern_rule_exact r s ps k x (proj1 G) Ec Hf) E) as (_ & Ne & rest & He & Ha & Hs).
      destruct (eats_utf8 _ _ _ _ U He H) as [F _]. rewrite rr_content_taken. split; [|unfold found in F; destruct (rr_matches x); [exact F|exact I]].
      apply utf8_concat. apply Forall_map. eapply Forall_impl; [|exact F]. intros a Ha'. apply taken_utf8. exact Ha'.
    + rewrite (huge_maximum r s ps k m Ec Em B) in E. inversion E. split; [constructor|exact I].
Qed.

(* ---- what is left of a text ---- *)
Definition deps_utf8 (d : gmap element) : Prop := forall n e, mlookup d n = Some e -> el_utf8 e.
Lemma cont_el e sp k : cont_utf8 (PToken e sp k) -> el_utf8 e.
Proof. intros G c Hc r Hr. apply G. apply (ri_token e sp k c r Hc Hr). Qed.
Lemma el_line e : el_utf8 e -> forall l c, In l (el_must e) -> In (ICont c) l -> cont_utf8 c.
Proof. intros G l c Hl Hc. apply G. left. exists l. auto. Qed.
Section Chan.
Variable channels : nat -> list path.
Hypothesis Hg : forall p, among channels p -> good_path p.
Hypothesis Hu : forall p, among channels p -> path_utf8 p.
Variable lenient : Prop.
Scheme el_ind := Induction for el_reads Sort Prop
  with line_ind := Induction for line_reads Sort Prop
  with spaced_ind := Induction for spaced_reads Sort Prop
  with cont_ind := Induction for cont_reads Sort Prop
  with times_ind := Induction for el_times Sort Prop.
Combined Scheme reading_ind from el_ind, line_ind, spaced_ind, cont_ind, times_ind.
Lemma reading_utf8 :
  (forall d ch e s s', el_reads channels lenient d ch e s s' -> deps_utf8 d -> el_utf8 e -> utf8_text s -> utf8_text s') /\
  (forall d ch nx l s s', line_reads channels lenient d ch nx l s s' -> deps_utf8 d -> (forall c, In (ICont c) l -> cont_utf8 c) -> utf8_text s -> utf8_text s') /\
  (forall d ch nx c s s', spaced_reads channels lenient d ch nx c s s' -> deps_utf8 d -> cont_utf8 c -> utf8_text s -> utf8_text s') /\
  (forall d ch c s s', cont_reads channels lenient d ch c s s' -> deps_utf8 d -> cont_utf8 c -> utf8_text s -> utf8_text s') /\
  (forall d ch e n s s', el_times channels lenient d ch e n s s' -> deps_utf8 d -> el_utf8 e -> utf8_text s -> utf8_text s').
Proof.
  apply reading_ind with
    (P := fun d ch e s s' _ => deps_utf8 d -> el_utf8 e -> utf8_text s -> utf8_text s')
    (P0 := fun d ch nx l s s' _ => deps_utf8 d -> (forall c, In (ICont c) l -> cont_utf8 c) -> utf8_text s -> utf8_text s')
    (P1 := fun d ch nx c s s' _ => deps_utf8 d -> cont_utf8 c -> utf8_text s -> utf8_text s')
    (P2 := fun d ch c s s' _ => deps_utf8 d -> cont_utf8 c -> utf8_text s -> utf8_text s')
    (P3 := fun d ch e n s s' _ => deps_utf8 d -> el_utf8 e -> utf8_text s -> utf8_text s'); try (intros; assumption).
  - intros d ch e l s s' Il R IH Hd He Hs. apply IH; [exact Hd| |exact Hs]. intros c Hc. apply (el_line e He l c Il Hc).
  - intros d ch nx l s s' R IH Hd Hl Hs. apply IH; [exact Hd| |exact Hs]. intros c Hc. apply Hl. right. exact Hc.
  - intros d ch nx c l s s1 s2 R1 IH1 R2 IH2 Hd Hl Hs. apply IH2; [exact Hd|intros c' Hc; apply Hl; right; exact Hc|]. apply IH1; [exact Hd|apply Hl; left; reflexivity|exact Hs].
  - intros d ch nx c s s' R IH. exact IH.
  - intros d nx c p s s1 s' A R1 IH1 R2 IH2 Hd Hc Hs. apply IH2; [exact Hd|exact Hc|]. destruct (Hu p A) as [He Hd']. apply IH1; [exact Hd'|exact He|exact Hs].
  - intros d ch r k n s s' R V Hd Hc Hs. apply (rule_times_utf8 r n s s'); [apply Hc; constructor|exact R|exact Hs].
  - intros d ch e sp k n s s' R IH V Hd Hc Hs. apply IH; [exact Hd|apply (cont_el e sp k Hc)|exact Hs].
  - intros d ch e name sp k n s s' L R IH V Hd Hc Hs. apply IH; [exact Hd|apply (Hd name e L)|exact Hs].
  - intros d ch e n s s1 s2 R1 IH1 R2 IH2 Hd He Hs. apply IH2; [exact Hd|exact He|]. apply IH1; assumption.
Qed.
End Chan.
Lemma utf8_init a b : utf8_text (a ++ b) -> utf8_text b -> utf8_text a.
Proof.
  intros H Hb. destruct b as [|x b]; [rewrite app_nil_r in H; exact H|]. apply (utf8_before (a ++ x :: b) H a (x :: b) []); [rewrite app_nil_r; reflexivity|discriminate|exact Hb].
Qed.
Lemma utf8_taken w s : is_prefix w s -> utf8_text s -> utf8_text (LexModel.cut w s) -> utf8_text w.
Proof. intros P Hs Hr. rewrite (prefix_cut w s P) in Hs. exact (utf8_init _ _ Hs Hr). Qed.

(* ---- the parts of an answer ---- *)
Definition all_utf8 (n : node) : Prop := forall x, made_of x n -> part_utf8 x.
Lemma all_parts n : part_utf8 n -> (forall c, held c n -> (forall m, c = NLine m -> lm_valid m = true) -> all_utf8 c) -> all_utf8 n.
Proof. intros Hn Hc x Hx. inversion Hx; subst; [exact Hn|]. apply (Hc b); assumption. Qed.
Lemma all_self n : all_utf8 n -> part_utf8 n.
Proof. intros H. apply H. constructor. Qed.
Lemma line_parts i bl : forallb b_valid bl = true -> Forall (fun b => all_utf8 (NBlock b)) bl -> all_utf8 (NLine (LM i bl)).
Proof.
  intros V F. apply all_parts; [|intros c Hc; inversion Hc; subst; intros _; rewrite Forall_forall in F; apply F; assumption].
  cbn. rewrite V, join_concat. apply utf8_concat. apply Forall_map. eapply Forall_impl; [|exact F]. intros b Hb. exact (all_self _ Hb).
Qed.
Section Parts.
Variable channels : nat -> list path.
Hypothesis Hg : forall p, among channels p -> good_path p.
Hypothesis Hu : forall p, among channels p -> path_utf8 p.
Notation reading := (reading_utf8 channels Hu True).
Definition keeps (f : pcontainer -> gmap element -> bytes -> bool -> bool -> M (option block)) : Prop :=
  forall c d s ch nx st b st', good_cont c -> good_deps d -> cont_utf8 c -> deps_utf8 d -> utf8_text s -> f c d s ch nx st = (Ok (Some b), st') ->
  b_valid b = true -> is_prefix (b_disc b) s -> all_utf8 (NBlock b).
Section Step.
Variable f : pcontainer -> gmap element -> bytes -> bool -> bool -> M (option block).
Hypothesis Hf : sound channels f.
Hypothesis Hk : keeps f.

Lemma line_loop_utf8 l : forall d s ch nx acc st bl st', good_line l -> good_deps d -> (forall c, In (ICont c) l -> cont_utf8 c) -> deps_utf8 d -> utf8_text s ->
  line_loop f l d s ch nx acc st = (Ok (Some bl), st') -> forallb b_valid bl = true -> exists bl', bl = acc ++ bl' /\ Forall (fun b => all_utf8 (NBlock b)) bl'.
Proof.
  induction l as [|[|c] l IH]; intros d s ch nx acc st bl st' Gl Gd Ul Ud Us H V; cbn [line_loop] in H.
  - mstep. match goal with H : Some _ = Some _ |- _ => inversion H; subst end. exists []. rewrite app_nil_r. split; [reflexivity|constructor].
  - apply IH in H; [exact H|intros c Hc; apply Gl; right; exact Hc|exact Gd|intros c Hc; apply Ul; right; exact Hc|exact Ud|exact Us|exact V].
  - apply mbind_ok in H. destruct H as (o & s1 & E & H). assert (Gc := Gl c (or_introl eq_refl)). assert (Uc := Ul c (or_introl eq_refl)). assert (S := Hf c d s ch nx st o s1 Gc Gd E).
    destruct o as [b|].
    + destruct (b_valid b) eqn:Vb; cbn [negb] in H.
      * destruct (has_prefix (b_disc b) s) eqn:Hp; [|mstep; discriminate]. apply has_prefix_is_prefix in Hp.
        assert (Ur : utf8_text (LexModel.cut (b_disc b) s)) by (apply (proj1 (proj2 (proj2 reading)) _ _ _ _ _ _ (S eq_refl Hp)); assumption).
        apply IH in H; [|intros c' Hc; apply Gl; right; exact Hc|exact Gd|intros c' Hc; apply Ul; right; exact Hc|exact Ud|exact Ur|exact V]. destruct H as (bl' & -> & F).
        exists (b :: bl'). rewrite <- app_assoc. split; [reflexivity|]. constructor; [|exact F]. apply (Hk _ _ _ _ _ _ _ _ Gc Gd Uc Ud Us E Vb Hp).
      * mstep. match goal with H : Some _ = Some _ |- _ => inversion H; subst end. cbn in V. rewrite Vb in V. discriminate.
    + mstep. match goal with H : Some _ = Some _ |- _ => inversion H; subst end. exists []. rewrite app_nil_r. split; [reflexivity|constructor].
Qed.
Lemma line_utf8 l d s ch st bl st' : good_line l -> good_deps d -> (forall c, In (ICont c) l -> cont_utf8 c) -> deps_utf8 d -> utf8_text s ->
  line_to_matches f l d s ch st = (Ok (Some bl), st') -> forallb b_valid bl = true -> Forall (fun b => all_utf8 (NBlock b)) bl.
Proof.
  intros Gl Gd Ul Ud Us H V. unfold line_to_matches in H. apply mbind_ok in H. destruct H as (o & s1 & E & H). mstep. destruct o as [[|b o]|]; try discriminate.
  match goal with H : Some _ = Some _ |- _ => inversion H; subst end. apply line_loop_utf8 in E; [|assumption..]. destruct E as (bl' & E' & F). cbn in E'. rewrite E'. exact F.
Qed.
Definition best_ok (v : option (nat * list block)) : Prop := match v with Some (_, bl) => forallb b_valid bl = true /\ Forall (fun b => all_utf8 (NBlock b)) bl | None => True end.
Lemma best_loop_utf8 d s ch ls : (forall l, In l ls -> good_line l) -> good_deps d -> (forall l c, In l ls -> In (ICont c) l -> cont_utf8 c) -> deps_utf8 d -> utf8_text s ->
  forall i big v inv st v' inv' st', best_ok v -> match inv with Some (i, bl) => forallb b_valid bl = false | None => True end ->
  best_loop f ls i d s ch big v inv st = (Ok (v', inv'), st') -> best_ok v' /\ match inv' with Some (i, bl) => forallb b_valid bl = false | None => True end.
Proof.
  intros Gl Gd Ul Ud Us. induction ls as [|l ls IH]; intros i big v inv st v' inv' st' Hv Hi H; cbn [best_loop] in H.
  - mstep. match goal with H : (_, _) = (_, _) |- _ => inversion H; subst end. auto.
  - assert (IH' := IH (fun l' I => Gl l' (or_intror I)) (fun l' c I => Ul l' c (or_intror I))). clear IH.
    apply mbind_ok in H. destruct H as (o & s1 & E & H). destruct o as [bl|]; [|apply IH' in H; assumption].
    destruct (lm_valid (LM i bl)) eqn:V; cbn [negb] in H.
    + destruct (big <? length (lm_disc (LM i bl))) eqn:L; [|apply IH' in H; assumption].
      apply IH' in H; [exact H| |exact Hi]. split; [exact V|]. apply (line_utf8 l d s ch st bl s1); try assumption; [apply Gl; left; reflexivity|intros c; apply Ul; left; reflexivity].
    + apply IH' in H; [exact H|exact Hv|]. destruct (0 <? length bl); [exact V|exact Hi].
Qed.
Lemma best_line_utf8 ls d s ch st m st' : (forall l, In l ls -> good_line l) -> good_deps d -> (forall l c, In l ls -> In (ICont c) l -> cont_utf8 c) -> deps_utf8 d -> utf8_text s ->
  best_line f ls d s ch st = (Ok (Some m), st') -> lm_valid m = true -> all_utf8 (NLine m).
Proof.
  intros Gl Gd Ul Ud Us H V. unfold best_line in H. apply mbind_ok in H. destruct H as ([v inv] & s1 & E & H). mstep.
  apply best_loop_utf8 in E; [|assumption..|exact I|exact I]. destruct E as [Hv Hi].
  destruct v as [[i bl]|].
  - match goal with H : Some _ = Some _ |- _ => inversion H; subst end. destruct Hv as [Vb F]. apply line_parts; assumption.
  - destruct inv as [[i bl]|]; [|discriminate]. match goal with H : Some _ = Some _ |- _ => inversion H; subst end. cbn [lm_valid] in V. rewrite V in Hi. discriminate.
Qed.
Lemma element_utf8 e d s ch st t st' : good_el e -> good_deps d -> el_utf8 e -> deps_utf8 d -> utf8_text s -> element_to_token f e d s ch st = (Ok t, st') -> tok_valid t = true ->
  all_utf8 (NTok t).
Proof.
  intros Ge Gd Ue Ud Us H V. destruct (element_sound channels f Hf e d s ch st t st' Ge Gd H V) as (m & n & Ec & Ed & P & R & _).
  assert (Ht : part_utf8 (NTok t)). { cbn. rewrite Ed. apply (utf8_taken _ s P Us). apply (proj1 reading _ _ _ _ _ R); assumption. }
  apply all_parts; [exact Ht|]. intros c Hc Hl. inversion Hc; subst. cbn in Ec. inversion Ec; subst. specialize (Hl m eq_refl).
  unfold element_to_token in H. apply mbind_ok in H. destruct H as (co & s1 & E & H). mstep. destruct (el_name e) eqn:En; [discriminate|].
  match goal with H : Ok _ = Ok _ |- _ => inversion H; subst end. unfold element_to_content in E. apply mbind_ok in E. destruct E as (mu & s2 & Em & E).
  assert (mu = Some m). { destruct mu as [m'|]; [|mstep; discriminate]. destruct (el_not e0); [apply mbind_ok in E; destruct E as (? & ? & _ & E)|]; mstep; congruence. }
  subst mu. apply (best_line_utf8 (el_must e0) d0 s ch st m s2); try assumption; [apply good_must; exact Ge|apply el_line; exact Ue].
Qed.
Lemma token_loop_utf8 e d pmax ch : good_el e -> good_deps d -> el_utf8 e -> deps_utf8 d -> forall fuel acc s st l st', utf8_text s -> token_loop f fuel e d pmax ch acc s st = (Ok l, st') ->
  exists l', l = acc ++ l' /\ Forall (fun t => all_utf8 (NTok t)) l'.
Proof.
  intros Ge Gd Ue Ud. induction fuel as [|n IH]; intros acc s st l st' Us H; [discriminate|]. cbn [token_loop] in H.
  apply mbind_ok in H. destruct H as (t & s1 & E & H). destruct (tok_valid t) eqn:V; cbn [negb] in H.
  - destruct (element_sound channels f Hf _ _ _ _ _ _ _ Ge Gd E V) as (m & no & Ec & Ed & P & R & N). rewrite Ec in H. rewrite (proj2 (has_prefix_is_prefix _ _) P) in H.
    assert (Ht : all_utf8 (NTok t)) by (apply (element_utf8 e d s ch st t s1); assumption).
    match type of H with (if ?b then _ else _) _ = _ => destruct b end.
    + mstep. subst. exists [t]. split; [reflexivity|constructor; [exact Ht|constructor]].
    + apply IH in H; [|apply (proj1 reading _ _ _ _ _ R); assumption]. destruct H as (l' & -> & F). exists (t :: l'). rewrite <- app_assoc. split; [reflexivity|constructor; assumption].
  - mstep. subst. exists []. rewrite app_nil_r. split; [reflexivity|constructor].
Qed.
Lemma token_match_utf8 fuel e sp k d s ch st t st' : good_el e -> good_deps d -> el_utf8 e -> deps_utf8 d -> utf8_text s -> token_to_match f fuel e sp k d s ch st = (Ok t, st') -> all_utf8 (NTM t).
Proof.
  intros Ge Gd Ue Ud Us H. unfold token_to_match in H. destruct (delimiter k) as [mn mx]. apply mbind_ok in H. destruct H as (l & s1 & E & H). mstep.
  apply (token_loop_utf8 e d mx ch Ge Gd Ue Ud) in E; [|exact Us]. destruct E as (l' & E' & F). cbn in E'. subst l.
  destruct s as [|b s]; [discriminate|]. destruct (forallb _ sp); [|discriminate]. match goal with H : Ok _ = Ok _ |- _ => inversion H; subst end.
  apply all_parts.
  - cbn. rewrite join_concat. apply utf8_concat. apply Forall_map. eapply Forall_impl; [|exact F]. intros b' Hb. exact (all_self _ Hb).
  - intros c Hc _. inversion Hc; subst. rewrite Forall_forall in F. apply F. assumption.
Qed.
Lemma rule_run_utf8 r s l : good_rule r -> rule_utf8 r -> rule_run r s l -> utf8_text s -> is_prefix (join [] (map rr_content l)) s -> Forall result_utf8 l.
Proof.
  intros G U H. induction H as [s|s x l E N H IH]; intros Us P; [constructor|].
  rewrite join_concat in *. cbn [map concat length] in *. apply prefix_cut_app in P. destruct P as [P1 P2].
  assert (Hx := to_result_utf8 r s x G U Us E). constructor; [exact Hx|]. apply IH; [|exact P2]. assert (E2 := prefix_cut _ _ P1). rewrite E2 in Us. apply utf8_tail in Us; [exact Us|]. exact (proj1 Hx).
Qed.
Lemma skip_utf8 (m : mtch) : m_disc m = [] -> (forall c, ~ held c (NMatch m)) -> all_utf8 (NMatch m).
Proof. intros E N. apply all_parts; [cbn; rewrite E; constructor|]. intros c Hc. destruct (N c Hc). Qed.
Lemma token_or_skip_utf8 t : all_utf8 (NTM t) -> all_utf8 (NMatch (token_or_skip t)).
Proof.
  intros H. unfold token_or_skip. destruct (is_valid _ _ && _).
  - apply skip_utf8; [reflexivity|]. intros c Hc. inversion Hc.
  - apply all_parts; [exact (all_self _ H)|]. intros c Hc _. inversion Hc; subst. exact H.
Qed.
Lemma container_utf8 fuel c d s ch st m st' : good_cont c -> good_deps d -> cont_utf8 c -> deps_utf8 d -> utf8_text s -> container_to_match f fuel c d s ch st = (Ok (Some m), st') ->
  m_valid m = true -> is_prefix (m_disc m) s -> all_utf8 (NMatch m).
Proof.
  intros Gc Gd Uc Ud Us H V P. destruct c as [e sp k|r k|name sp k|ls]; cbn [container_to_match] in H.
  - apply mbind_ok in H. destruct H as (t & s1 & E & H). mstep. match goal with H : Some _ = Some _ |- _ => inversion H; subst end. apply token_or_skip_utf8.
    assert (Ge : good_el e) by (intros c Hc r Hr; apply Gc; apply (ri_token e sp k c r Hc Hr)).
    apply (token_match_utf8 _ _ _ _ _ _ _ _ _ _ Ge Gd (cont_el _ _ _ Uc) Ud Us E).
  - apply mbind_ok in H. destruct H as (x & s1 & E & H). mstep. match goal with H : Some _ = Some _ |- _ => inversion H; subst end. unfold rule_to_match in E. destruct (delimiter k) as [mn mx] eqn:Ed. apply mbind_ok in E. destruct E as (l & s2 & E & E').
    apply rule_loop_run in E; [|apply Gc; constructor]. destruct E as (l' & -> & Rn). inversion E'; subst x. subst s2. clear E'. unfold rule_or_skip in *. cbn [rm_card] in *.
    match goal with |- context [if ?b then _ else _] => destruct b eqn:Sk end.
    + apply skip_utf8; [reflexivity|]. intros c Hc. inversion Hc.
    + cbn [m_disc] in P. unfold rm_disc in P. cbn [rm_results app] in P.
      assert (F : Forall result_utf8 l') by (apply (rule_run_utf8 r s l'); [apply Gc; apply ri_rule|apply Uc; apply ri_rule|exact Rn|exact Us|exact P]).
      apply all_parts.
      * cbn. unfold rm_disc. cbn [rm_results]. rewrite join_concat. apply utf8_concat. apply Forall_map. eapply Forall_impl; [|exact F]. intros a [Ha _]. exact Ha.
      * intros c Hc _. inversion Hc; subst. apply all_parts; [exact F|]. intros c Hc'. inversion Hc'.
  - match type of H with (if ?b then _ else _) = _ => destruct b eqn:G end; [discriminate|].
    apply mbind_ok in H. destruct H as (e & s1 & E & H). apply lift_ok in E. destruct E as [E Es1]; subst s1. apply mbind_ok in H. destruct H as (t & s2 & Et & H). mstep. match goal with H : Some _ = Some _ |- _ => inversion H; subst end.
    unfold dep_fetch in E. destruct (mlookup d name) as [e'|] eqn:El; [|discriminate]. inversion E; subst e'. apply token_or_skip_utf8.
    apply (token_match_utf8 _ _ _ _ _ _ _ _ _ _ (Gd name e El) Gd (Ud name e El) Ud Us Et).
  - apply mbind_ok in H. destruct H as (x & s1 & E & H). mstep. destruct x as [x|]; [|discriminate]. match goal with H : Some _ = Some _ |- _ => inversion H; subst end.
    apply skip_utf8; [reflexivity|]. intros c Hc. inversion Hc.
Qed.
Lemma cbm_step_utf8 n : keeps (cbm_step channels f n).
Proof.
  intros c d s ch nx st b st' Gc Gd Uc Ud Us H V P. assert (S := cbm_step_sound channels Hg f Hf n c d s ch nx st (Some b) st' Gc Gd H V P).
  assert (Hb : utf8_text (b_disc b)) by (apply (utf8_taken _ s P Us); apply (proj1 (proj2 (proj2 reading)) _ _ _ _ _ _ S); assumption).
  unfold cbm_step in H. destruct s as [|x s].
  - mstep. subst st'. destruct (cont_card c) as [k| | |] eqn:Ek; try discriminate. cbn [bind] in *. destruct (is_valid k 0) eqn:Vk; [discriminate|].
    destruct (build_next n c d); try discriminate. cbn [bind] in *. match goal with H : Ok _ = Ok _ |- _ => inversion H; subst end. discriminate.
  - apply mbind_ok in H. destruct H as (o1 & s1 & E & H). destruct o1 as [bl|].
    + mstep. match goal with H : Some _ = Some _ |- _ => inversion H; subst end. destruct ch; [|mstep; discriminate]. unfold find_channel_block in E. apply mbind_ok in E. destruct E as (m & s2 & Em & E). destruct m as [m|]; [|mstep; discriminate].
      unfold range_channels in Em. destruct (channels_sound channels f Hf (x :: s) _ _ _ _ (channels_good channels Hg _) Em) as (Pm & p & Hp & R & _). rewrite (proj2 (has_prefix_is_prefix _ _) Pm) in E.
      apply mbind_ok in E. destruct E as (y & s3 & Ex & E). mstep. destruct y as [y|]; [|discriminate]. match goal with H : Some _ = Some _ |- _ => inversion H; subst end.
      apply all_parts; [exact Hb|]. intros c' Hc _. inversion Hc; subst. cbn [b_valid b_disc] in V, P. apply prefix_cut_app in P.
      assert (Ap : among channels p) by (eexists; exact Hp). destruct (Hu p Ap) as [Upe Upd].
      apply (Hk _ _ _ _ _ _ _ _ Gc Gd Uc Ud (proj1 reading _ _ _ _ _ R Upd Upe Us) Ex V). tauto.
    + apply mbind_ok in H. destruct H as (m & s2 & Em & H). mstep. destruct m as [m|]; [|discriminate]. match goal with H : Some _ = Some _ |- _ => inversion H; subst end.
      apply all_parts; [exact Hb|]. intros c' Hc _. inversion Hc; subst. apply (container_utf8 _ _ _ _ _ _ _ _ Gc Gd Uc Ud Us Em V). exact P.
Qed.
End Step.
Lemma cbm_utf8 n : keeps (cbm channels n).
Proof.
  induction n as [|n IH].
  - intros c d s ch nx st b st' _ _ _ _ _ H. discriminate.
  - intros c d s ch nx st b st' Gc Gd Uc Ud Us H. cbn [cbm] in H. exact (cbm_step_utf8 (cbm channels n) (cbm_sound channels Hg n) IH n c d s ch nx st b st' Gc Gd Uc Ud Us H).
Qed.
Theorem answer_utf8 root fuel script st t : good_path root -> path_utf8 root -> utf8_text script -> fst (to_token channels fuel root script st) = Ok t -> tok_valid t = true ->
  (exists rest, script = tok_disc t ++ rest /\ utf8_text rest) /\ forall x, made_of x (NTok t) -> part_utf8 x.
Proof.
  intros Gr Ur Us H V. destruct (to_token_sound channels Hg root fuel script st t Gr H V) as (rest & E & R & _). split.
  - exists rest. split; [exact E|]. apply (proj1 reading _ _ _ _ _ R); [exact (proj2 Ur)|exact (proj1 Ur)|exact Us].
  - unfold to_token in H. destruct (element_to_token _ _ _ _ _ _) as [r st'] eqn:Et. cbn [fst] in H. subst r.
    exact (element_utf8 (cbm channels fuel) (cbm_sound channels Hg fuel) (cbm_utf8 fuel) _ _ _ _ _ _ _ (proj1 Gr) (proj2 Gr) (proj1 Ur) (proj2 Ur) Us Et V).
Qed.
End Parts.
