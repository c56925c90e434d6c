(* EndProofs4.v - lexing ends on grammars whose left recursions are guarded. *)
From Coq Require Import Strings.String Strings.Byte Sorting.Permutation Lia.
From Verif Require Import Go GoLemmas DomainModel DomainSpec CardModel CardSpec PatModel PatSpec PatProofs RuleModel RuleSpec RuleProofs PathModel PathSpec PathProofs LexModel LexSpec LexProofs LexProofs2 LexProofs3 OrdSpec OrdProofs EndSpec EndProofs EndProofs2 EndProofs3.
Open Scope list_scope.

Lemma lines_ok_each still ok ls : (forall l, In l ls -> line_ok still ok [] l = true) -> lines_ok still ok [] ls = true.
Proof. induction ls as [|l ls IH]; intros H; [reflexivity|]. cbn [lines_ok]. rewrite (H l (or_introl eq_refl)). replace (if line_quiet still l then [] else []) with (@nil bytes) by (destruct (line_quiet still l); reflexivity). apply IH. intros l' Hl. apply H. right. exact Hl. Qed.
Lemma term_pre {A} (P Q : lst -> Prop) (m : M A) : term P m -> (forall st, Q st -> P st) -> term Q m.
Proof. intros H I st Hq E. apply H; [apply I; exact Hq|exact E]. Qed.

Section Bound.
Variable channels : nat -> list path.
Hypothesis Hmap : same_map channels.
Hypothesis Hsimple : forall p, among channels p -> exists r, simple_channel p r.
Variable still : list bytes.
Variable depth : nat.
Variable p : path.
Hypothesis Hp : settles still depth p.
Notation d := (pa_deps p).
Notation found := (found channels).
Definition need (n len : nat) : nat := len * (depth + 2) + (depth + 2) + n.
Notation yes := (fun _ : lst => True).

Lemma cpar fuel c s ch nx : occurs_in p c -> par (quiet still c) (cbm channels fuel c d s ch nx) (consumes c).
Proof. intros Oc. eapply par_weak; [apply (cbm_par channels Hsimple still depth p Hp fuel c s ch nx Oc)|auto|intros o [H _]; exact H]. Qed.
Lemma epar fuel e s ch : element_of p e -> par false (element_to_token (cbm channels fuel) e d s ch) tok_consumes.
Proof.
  intros He. apply element_par; [apply (el_facts still depth p Hp e He)|]. intros l Hl c s0 ch0 nx Hc. eapply par_weak; [apply cpar|discriminate|auto]. apply (occ_el p e); [exact He|left; exists l; auto].
Qed.
Section Step.
Variable f : nat.
Definition T0 : Prop := forall r k s ch nx, occurs_in p (PRule r k) -> need 0 (length s) <= f -> term yes (cbm channels f (PRule r k) d s ch nx).
Definition T1 : Prop := forall c s ch nx, occurs_in p c -> need (depth + 1) (length s) <= f -> term yes (cbm channels f c d s ch nx).
Definition T2 : Prop := forall n A c s b, occurs_in p c -> n <= depth -> guarded (mlookup d) still n A c = true -> (b = true -> s <> [] -> ~ found s) -> need n (length s) <= f -> term (armed A s) (cbm channels f c d s b b).
Definition T3 : Prop := forall n c s, occurs_in p c -> n <= depth -> behind (mlookup d) n c = true -> s <> [] -> found s -> need n (length s) <= f -> term yes (cbm channels f c d s true true).
Hypothesis H0 : T0.
Hypothesis H1 : T1.
Hypothesis H2 : T2.
Hypothesis H3 : T3.
Lemma el_lines e A s b ok n : element_of p e -> n <= depth -> need n (length s) <= f -> (forall A c, occurs_in p c -> ok A c = true -> term (armed A s) (cbm channels f c d s b b)) -> lines_ok still ok A (el_must e) = true ->
  term (armed A s) (element_to_token (cbm channels f) e d s b).
Proof.
  intros He Ln L Hok Hl. apply (element_guarded (cbm channels f) d still (length s) (occurs_in p)) with (ok := ok); try assumption.
  - intros c s0 ch nx Oc. apply cpar. exact Oc.
  - intros c s0 ch nx Oc Ls. apply H1; [exact Oc|]. unfold need in *. nia.
  - intros r k s0 ch nx Oc Ls. apply H0; [exact Oc|]. unfold need in *. nia.
  - reflexivity.
  - apply (el_facts still depth p Hp e He).
  - intros l Il c Ic. apply (occ_el p e); [exact He|left; exists l; auto].
Qed.
(* any element *)
Lemma el_any e s b : element_of p e -> need depth (length s) <= f -> term yes (element_to_token (cbm channels f) e d s b).
Proof.
  intros He L. destruct (el_facts still depth p Hp e He) as (_ & _ & Hl).
  assert (G : (b = true -> s <> [] -> ~ found s) -> term yes (element_to_token (cbm channels f) e d s b)).
  { intros Nf. apply (term_pre (armed [] s)); [|intros; apply armed_none]. apply (el_lines e [] s b (guarded (mlookup d) still depth) depth); try assumption; [lia| |].
    - intros A c Oc Og. apply (H2 depth); try assumption. lia.
    - apply lines_ok_each. intros l Il. apply (Hl l Il). }
  destruct b; [|apply G; discriminate]. destruct s as [|x s]; [apply G; congruence|]. destruct (range_answer channels Hmap Hsimple x s) as [[F _]|[F _]]; [|apply G; auto].
  apply (term_pre (armed [] (x :: s))); [|intros; apply armed_none]. apply (el_lines e [] (x :: s) true (fun _ c => behind (mlookup d) depth c) depth); try assumption; [lia| |].
  - intros A c Oc Ob. eapply term_pre; [apply (H3 depth); try assumption; [lia|discriminate]|intros; exact I].
  - apply lines_ok_each. intros l Il. rewrite <- (start_line still). apply (Hl l Il).
Qed.
(* a token is repeated *)
Lemma token_term e pm b A s : element_of p e -> term (armed A s) (element_to_token (cbm channels f) e d s b) ->
  (forall s', length s' < length s -> term yes (element_to_token (cbm channels f) e d s' b)) ->
  forall fuel acc, length s < fuel -> term (armed A s) (token_loop (cbm channels f) fuel e d pm b acc s).
Proof.
  intros He Hf Hs.
  assert (Sh : forall fuel acc s', length s' < length s -> length s' < fuel -> term yes (token_loop (cbm channels f) fuel e d pm b acc s')).
  { induction fuel as [|k IH]; intros acc s' Ls Lf; [lia|]. cbn [token_loop]. apply term_bind; [apply Hs; exact Ls|]. intros st t st' _ E R. destruct (epar f e s' b He st t st' E R) as (Ht & E1 & _). split; [exact E1|].
    destruct (tok_valid t) eqn:V; cbn [negb]; [|discriminate]. destruct (Ht V) as (N & m & -> & Em). destruct (has_prefix (lm_disc m) s') eqn:Pf; [|discriminate]. match goal with |- context [if ?c then _ else _] => destruct c end; [discriminate|].
    apply cut_len in Pf. assert (length (lm_disc m) <> 0) by (rewrite Em; destruct (tok_disc t); [congruence|discriminate]). apply IH; [lia|lia|exact I|exact E1]. }
  intros [|k] acc L; [lia|]. cbn [token_loop]. apply term_bind; [exact Hf|]. intros st t st' _ E R. destruct (epar f e s b He st t st' E R) as (Ht & E1 & _). split; [exact E1|].
  destruct (tok_valid t) eqn:V; cbn [negb]; [|discriminate]. destruct (Ht V) as (N & m & -> & Em). destruct (has_prefix (lm_disc m) s) eqn:Pf; [|discriminate]. match goal with |- context [if ?c then _ else _] => destruct c end; [discriminate|].
  apply cut_len in Pf. assert (length (lm_disc m) <> 0) by (rewrite Em; destruct (tok_disc t); [congruence|discriminate]). apply Sh; [lia|lia|exact I|exact E1].
Qed.
Lemma match_term e sp k b A s : element_of p e -> length s < f -> term (armed A s) (element_to_token (cbm channels f) e d s b) ->
  (forall s', length s' < length s -> term yes (element_to_token (cbm channels f) e d s' b)) ->
  term (armed A s) (token_to_match (cbm channels f) f e sp k d s b).
Proof.
  intros He Lf Hf Hs. unfold token_to_match. destruct (delimiter k) as [mn mx]. apply term_bind; [apply token_term; assumption|]. intros st l st' _ E R. split.
  - apply (token_loop_par (cbm channels f) d false e mx b) in R; [apply R|intros s0; apply epar; exact He|constructor|exact E].
  - destruct s; [discriminate|]. destruct (forallb _ sp); discriminate.
Qed.
Lemma cont_term c A s b : occurs_in p c -> s <> [] -> need 0 (length s) <= S f ->
  (forall e sp k, c = PToken e sp k -> term (armed A s) (element_to_token (cbm channels f) e d s b)) ->
  (forall x sp k e, c = PRec x sp k -> mlookup d x = Some e -> listed x A = false -> term (armed (x :: A) s) (element_to_token (cbm channels f) e d s b)) ->
  term (armed A s) (container_to_match (cbm channels f) f c d s b).
Proof.
  intros Oc Ns L Ht Hr. assert (Lp : 0 < length s) by (destruct s; [congruence|cbn; lia]).
  assert (Sh : forall e, element_of p e -> forall s', length s' < length s -> term yes (element_to_token (cbm channels f) e d s' b)) by (intros e He s' Ls; apply el_any; [exact He|unfold need in *; nia]).
  assert (Lf : length s < f) by (unfold need in L; nia).
  destruct c as [e sp k|r k|x sp k|ls]; cbn [container_to_match].
  - assert (He := inner_el p e sp k Oc). apply term_bind; [apply match_term; [exact He|exact Lf|apply (Ht e sp k eq_refl)|apply Sh; exact He]|]. intros st t st' _ E R. split; [|discriminate].
    apply (token_match_par (cbm channels f) d false) in R; [apply R|intros s0; apply epar; exact He|exact E].
  - assert (G := proj1 (proj2 Hp) r k Oc). apply term_bind; [intros st _ _; apply (rule_match_fin r k s b G st)|]. intros st t st' _ E R. split; [|discriminate]. apply (rule_match_par false r k s b G st t st' E R).
  - intros st Ar E. destruct (mlookup (ls_rec st) x) as [pr|] eqn:El; [destruct (bytes_eqb pr s) eqn:Eb; [discriminate|]|].
    + assert (NA : listed x A = false) by (destruct (listed x A) eqn:X; [|reflexivity]; apply listed_in in X; rewrite (Ar x X) in El; inversion El; subst; rewrite bytes_eqb_refl in Eb; discriminate).
      match goal with |- fst (?m ?s0) <> _ => assert (F : term (armed (x :: A) s) m) end; [|apply F; [apply armed_more; exact Ar|exact E]].
      apply term_bind; [apply term_lift; unfold dep_fetch; destruct (mlookup d x); discriminate|]. intros st0 e st' Ar0 E0 R. apply lift_ok in R. destruct R as [R <-]. split; [exact E0|]. unfold dep_fetch in R. destruct (mlookup d x) as [e'|] eqn:Ee; [|discriminate]. inversion R; subst e'.
      assert (He := el_dep p x e Ee). match goal with |- fst (?m ?s0) <> _ => assert (F : term (armed (x :: A) s) m) end; [|apply F; assumption].
      apply term_bind; [apply match_term; [exact He|exact Lf|apply (Hr x sp k e eq_refl Ee NA)|apply Sh; exact He]|]. intros st1 t st2 _ E1 R1. split; [|discriminate]. apply (token_match_par (cbm channels f) d false) in R1; [apply R1|intros s0; apply epar; exact He|exact E1].
    + assert (NA : listed x A = false) by (destruct (listed x A) eqn:X; [|reflexivity]; apply listed_in in X; rewrite (Ar x X) in El; discriminate).
      match goal with |- fst (?m ?s0) <> _ => assert (F : term (armed (x :: A) s) m) end; [|apply F; [apply armed_more; exact Ar|exact E]].
      apply term_bind; [apply term_lift; unfold dep_fetch; destruct (mlookup d x); discriminate|]. intros st0 e st' Ar0 E0 R. apply lift_ok in R. destruct R as [R <-]. split; [exact E0|]. unfold dep_fetch in R. destruct (mlookup d x) as [e'|] eqn:Ee; [|discriminate]. inversion R; subst e'.
      assert (He := el_dep p x e Ee). match goal with |- fst (?m ?s0) <> _ => assert (F : term (armed (x :: A) s) m) end; [|apply F; assumption].
      apply term_bind; [apply match_term; [exact He|exact Lf|apply (Hr x sp k e eq_refl Ee NA)|apply Sh; exact He]|]. intros st1 t st2 _ E1 R1. split; [|discriminate]. apply (token_match_par (cbm channels f) d false) in R1; [apply R1|intros s0; apply epar; exact He|exact E1].
  - exfalso. apply (proj1 (proj2 (proj2 Hp) _ Oc) ls eq_refl).
Qed.
(* the text behind a channel *)
Lemma block_term c A x s nx : 1 <= f -> (found (x :: s) -> forall s', length s' < length (x :: s) -> term yes (cbm channels f c d s' nx nx)) -> term (armed A (x :: s)) (find_channel_block channels (cbm channels f) c d (x :: s) nx).
Proof.
  intros Lf Hc st Ar E. destruct f as [|g]; [lia|]. unfold find_channel_block, mbind. destruct (range_answer channels Hmap Hsimple x s) as [[F Ra]|[F Ra]].
  - destruct (Ra g st E) as (m & -> & Nm & Pm). rewrite Pm. apply cut_len in Pm. assert (length (lm_disc m) <> 0) by (destruct (lm_disc m); [congruence|discriminate]).
    assert (K := Hc F (cut (lm_disc m) (x :: s)) ltac:(lia) {| ls_rec := ls_rec st; ls_pre := ls_pre st; ls_tick := S (ls_tick st) |} I E).
    destruct (cbm channels (S g) c d (cut (lm_disc m) (x :: s)) nx nx _) as [[o| | |] s1]; cbn [fst] in *; try discriminate. contradiction.
  - rewrite (Ra g st E). discriminate.
Qed.
Lemma block_out c x s nx st o st' : 1 <= f -> occurs_in p c -> ls_pre st = false -> find_channel_block channels (cbm channels f) c d (x :: s) nx st = (Ok o, st') ->
  ls_pre st' = false /\ (~ found (x :: s) -> o = None /\ ls_rec st' = ls_rec st) /\ (o = None -> found (x :: s) -> may_be_absent c \/ exists y sp k, c = PRec y sp k).
Proof.
  intros Lf Oc E R. destruct f as [|g]; [lia|]. unfold find_channel_block in R. apply mbind_ok in R. destruct R as (om & s1 & R1 & R2). destruct (range_answer channels Hmap Hsimple x s) as [[F Ra]|[F Ra]].
  - destruct (Ra g st E) as (m & Em & Nm & Pm). rewrite Em in R1. inversion R1; subst om s1. rewrite Pm in R2. apply mbind_ok in R2. destruct R2 as (ob & s2 & R2 & R3). apply ret_ok in R3. destruct R3 as [<- <-].
    destruct (cbm_par channels Hsimple still depth p Hp (S g) c _ nx nx Oc {| ls_rec := ls_rec st; ls_pre := ls_pre st; ls_tick := S (ls_tick st) |} ob s2 E R2) as ((_ & Hn) & E2 & _). split; [exact E2|]. split; [intros X; contradiction|]. intros Eo _. destruct ob as [b|]; [discriminate|]. destruct (Hn eq_refl) as [[_ H]|H]; auto.
  - rewrite (Ra g st E) in R1. inversion R1; subst. apply ret_ok in R2. destruct R2 as [<- <-]. split; [exact E|]. split; [intros _; split; reflexivity|]. intros _ X. contradiction.
Qed.
Lemma end_term c ch nx A n : occurs_in p c -> need n 0 <= S f -> term (armed A []) (cbm_step channels (cbm channels f) f c d [] ch nx).
Proof.
  intros Oc L. cbn [cbm_step]. apply term_lift. destruct (cont_card c) as [k| | |] eqn:Ek; cbn [bind]; try discriminate; [|destruct c; discriminate]. destruct (is_valid k 0); [discriminate|].
  assert (B := proj2 (proj2 (proj2 Hp) c Oc)). assert (M := build_next_mono depth f c d ltac:(unfold need in L; lia)). unfold rle in M. rewrite (M B). destruct (build_next depth c d); cbn; congruence.
Qed.
Lemma step_term c A x s ch nx : 1 <= f -> occurs_in p c -> need 0 (length (x :: s)) <= S f ->
  (ch = true -> found (x :: s) -> forall s', length s' < length (x :: s) -> term yes (cbm channels f c d s' nx nx)) ->
  (* what is left when nothing stands behind a channel *)
  forall A', (forall st, armed A (x :: s) st -> (ch = true -> ~ found (x :: s)) -> armed A' (x :: s) st) -> (A' = [] \/ (ch = true -> ~ found (x :: s))) ->
  ((ch = true -> found (x :: s) -> may_be_absent c \/ exists y sp k, c = PRec y sp k) -> term (armed A' (x :: s)) (container_to_match (cbm channels f) f c d (x :: s) nx)) ->
  term (armed A (x :: s)) (cbm_step channels (cbm channels f) f c d (x :: s) ch nx).
Proof.
  intros Lf Oc L Hb A' HA HA' Hc. cbn [cbm_step]. destruct ch.
  - apply term_bind; [apply block_term; [exact Lf|apply Hb; reflexivity]|]. intros st o st' Ar E R. destruct (block_out c x s nx st o st' Lf Oc E R) as (E1 & Nf & Fn). split; [exact E1|]. destruct o as [b|]; [discriminate|].
    assert (Ar' : armed A' (x :: s) st').
    { destruct HA' as [->|HA']; [apply armed_none|]. apply (armed_same A' (x :: s) st); [apply (proj2 (Nf (HA' eq_refl)))|apply HA; assumption]. }
    assert (K := Hc (fun _ F => Fn eq_refl F) st' Ar' E1). unfold mbind. destruct (container_to_match (cbm channels f) f c d (x :: s) nx st') as [[m| | |] s1]; cbn [fst] in *; try discriminate. contradiction.
  - intros st Ar E. unfold mbind. cbn [ret]. assert (K := Hc ltac:(discriminate) st (HA st Ar ltac:(discriminate)) E). destruct (container_to_match (cbm channels f) f c d (x :: s) nx st) as [[m| | |] s1]; cbn [fst] in *; try discriminate. contradiction.
Qed.
End Step.
Lemma all_terms f : T0 f /\ T1 f /\ T2 f /\ T3 f.
Proof.
  induction f as [|f (H0 & H1 & H2 & H3)].
  - unfold T0, T1, T2, T3, need. repeat split; intros; lia.
  - assert (P0 : T0 (S f)).
    { intros r k s ch nx Oc L. cbn [cbm]. destruct s as [|x s]; [apply (term_pre (armed [] [])); [apply (end_term f _ ch nx [] 0 Oc L)|intros; apply armed_none]|].
      apply (term_pre (armed [] (x :: s))); [|intros; apply armed_none]. apply (step_term f) with (A' := []); try assumption; [unfold need in L; lia| |intros; apply armed_none|left; reflexivity|].
      - intros _ _ s' Ls. apply H0; [exact Oc|unfold need in *; nia].
      - intros _. apply (cont_term f H0 H1 H2 H3); try assumption; [discriminate|discriminate|discriminate]. }
    assert (P1 : T1 (S f)).
    { intros c s ch nx Oc L. cbn [cbm]. destruct s as [|x s]; [apply (term_pre (armed [] [])); [apply (end_term f _ ch nx [] _ Oc L)|intros; apply armed_none]|].
      apply (term_pre (armed [] (x :: s))); [|intros; apply armed_none]. apply (step_term f) with (A' := []); try assumption; [unfold need in L; lia|unfold need in *; lia| |intros; apply armed_none|left; reflexivity|].
      - intros _ _ s' Ls. apply H1; [exact Oc|unfold need in *; nia].
      - intros _. apply (cont_term f H0 H1 H2 H3); try assumption; [discriminate|unfold need in *; lia| |].
        + intros e sp k ->. eapply term_pre; [apply (el_any f H0 H1 H2 H3); [apply (inner_el p e sp k Oc)|unfold need in *; lia]|intros; exact I].
        + intros y sp k e -> El _. eapply term_pre; [apply (el_any f H0 H1 H2 H3); [apply (el_dep p y); exact El|unfold need in *; lia]|intros; exact I]. }
    assert (P2 : T2 (S f)).
    { intros n A c s b Oc Ln G Nf L. cbn [cbm]. destruct s as [|x s]; [apply (end_term f _ b b A _ Oc L)|].
      assert (Nf' : b = true -> ~ found (x :: s)) by (intros Hb; apply Nf; [exact Hb|discriminate]).
      apply (step_term f) with (A' := A); try assumption; [unfold need in L; lia|unfold need in *; lia| |auto|right; exact Nf'|].
      - intros Hb F. exfalso. exact (Nf' Hb F).
      - intros _. apply (cont_term f H0 H1 H2 H3); try assumption; [discriminate|unfold need in *; lia| |].
        + intros e sp k ->. destruct n as [|n]; [discriminate|]. apply (el_lines f H0 H1 e A (x :: s) b (guarded (mlookup d) still n) n); [apply (inner_el p e sp k Oc)|lia|unfold need in *; lia| |exact G].
          intros A1 c1 Oc1 G1. apply (H2 n); try assumption; [lia|unfold need in *; lia].
        + intros y sp k e -> El NA. destruct n as [|n]; cbn [guarded] in G; rewrite NA in G; [discriminate|]. rewrite El in G.
          apply (el_lines f H0 H1 e (y :: A) (x :: s) b (guarded (mlookup d) still n) n); [apply (el_dep p y); exact El|lia|unfold need in *; lia| |exact G].
          intros A1 c1 Oc1 G1. apply (H2 n); try assumption; [lia|unfold need in *; lia]. }
    assert (P3 : T3 (S f)).
    { intros n c s Oc Ln G Ns F L. cbn [cbm]. destruct s as [|x s]; [congruence|].
      assert (St : forall e m, element_of p e -> n = S m -> forallb (start_ok (behind (mlookup d) m)) (el_must e) = true -> term yes (element_to_token (cbm channels f) e d (x :: s) true)).
      { intros e m He -> Gs. apply (term_pre (armed [] (x :: s))); [|intros; apply armed_none]. apply (el_lines f H0 H1 e [] (x :: s) true (fun _ c => behind (mlookup d) m c) m); [exact He|lia|unfold need in *; lia| |].
        - intros A c' Oc' Ob. eapply term_pre; [apply (H3 m); try assumption; [lia|unfold need in *; lia]|intros; exact I].
        - apply lines_ok_each. intros l Il. rewrite <- (start_line still). rewrite forallb_forall in Gs. apply Gs. exact Il. }
      apply (term_pre (armed [] (x :: s))); [|intros; apply armed_none]. apply (step_term f) with (A' := []); try assumption; [unfold need in L; lia|unfold need in *; lia| |intros; apply armed_none|left; reflexivity|].
      - intros _ _ s' Ls. apply H1; [exact Oc|unfold need in *; nia].
      - intros Hab. specialize (Hab eq_refl F). apply (cont_term f H0 H1 H2 H3); try assumption; [unfold need in *; lia| |].
        + intros e sp k ->. destruct Hab as [Hab|(y & sp' & k' & X)]; [|discriminate]. apply absent_b_iff in Hab. destruct n as [|n]; cbn [behind] in G; rewrite Hab in G; [discriminate|]. eapply term_pre; [apply (St e n); [apply (inner_el p e sp k Oc)|reflexivity|exact G]|intros; exact I].
        + intros y sp k e -> El _. destruct n as [|n]; cbn [behind] in G; rewrite El in G; [discriminate|]. eapply term_pre; [apply (St e n); [apply (el_dep p y); exact El|reflexivity|exact G]|intros; exact I]. }
    auto.
Qed.
Lemma settled_ends script st fuel : ls_pre st = false -> (length script + 2) * (depth + 2) <= fuel -> fst (to_token channels fuel p script st) <> NoFuel.
Proof.
  intros E L. destruct (all_terms fuel) as (H0 & H1 & H2 & H3). unfold to_token. apply (el_any fuel H0 H1 H2 H3); [left; reflexivity|unfold need; nia|exact I|exact E].
Qed.
End Bound.
