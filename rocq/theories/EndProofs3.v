(* EndProofs3.v - lexing ends on grammars whose left recursions are guarded: the bound. *)
From Coq Require Import Strings.String Strings.Byte Sorting.Permutation Lia.
From Verif Require Import Go GoLemmas DomainModel DomainSpec CardModel CardSpec PatModel PatSpec PatProofs RuleModel RuleSpec RuleProofs PathModel PathSpec PathProofs LexModel LexSpec LexProofs LexProofs2 LexProofs3 OrdSpec OrdProofs EndSpec EndProofs EndProofs2.
Open Scope list_scope.

Definition term {A} (P : lst -> Prop) (m : M A) : Prop := forall st, P st -> ls_pre st = false -> fst (m st) <> NoFuel.
Lemma term_ret {A} P (a : A) : term P (ret a).
Proof. intros st _ _. discriminate. Qed.
Lemma term_lift {A} P (r : res A) : r <> NoFuel -> term P (lift r).
Proof. intros H st _ _. exact H. Qed.
Lemma term_bind {A B} (P : lst -> Prop) (m : M A) (f : A -> M B) : term P m -> (forall st a st', P st -> ls_pre st = false -> m st = (Ok a, st') -> ls_pre st' = false /\ fst (f a st') <> NoFuel) -> term P (mbind m f).
Proof.
  intros Hm Hf st Hs E. assert (N := Hm st Hs E). unfold mbind. destruct (m st) as [[a| | |] s1] eqn:R; cbn [fst] in *; try discriminate; [|contradiction]. apply (Hf st a s1 Hs E R).
Qed.
(* the notes that are known *)
Definition armed (A : list bytes) (s : bytes) (st : lst) : Prop := forall x, In x A -> mlookup (ls_rec st) x = Some s.
Lemma armed_none s st : armed [] s st.
Proof. intros x []. Qed.
Lemma armed_same A s st st' : ls_rec st' = ls_rec st -> armed A s st -> armed A s st'.
Proof. intros E H x Hx. rewrite E. apply H. exact Hx. Qed.
Lemma armed_more A s st x : armed A s st -> armed (x :: A) s {| ls_rec := minsert (ls_rec st) x s; ls_pre := ls_pre st; ls_tick := ls_tick st |}.
Proof.
  intros H y [<-|Hy]; cbn [ls_rec]; [apply mlookup_same|]. destruct (list_eq_dec byte_eq_dec x y) as [->|N]; [apply mlookup_same|]. rewrite mlookup_other by exact N. apply H. exact Hy.
Qed.
Lemma start_line still ok A l : start_ok ok l = line_ok still (fun _ c => ok c) A l.
Proof. revert A. induction l as [|[|c] l IH]; intros A; cbn [start_ok line_ok]; [reflexivity|reflexivity|]. destruct (ok c); [|reflexivity]. destruct (absent_b c); [apply IH|reflexivity]. Qed.
Lemma cut_nil (s : bytes) : cut [] s = s.
Proof. reflexivity. Qed.
Lemma cut_len m s : has_prefix m s = true -> length m + length (cut m s) = length s.
Proof. intros P. apply has_prefix_is_prefix in P. rewrite (prefix_cut _ _ P) at 2. rewrite app_length. reflexivity. Qed.

Section Line.
Variable f : pcontainer -> gmap element -> bytes -> bool -> bool -> M (option block).
Variable d : gmap element.
Variable still : list bytes.
Variable len : nat.
Variable occ : pcontainer -> Prop.
Hypothesis Hpar : forall c s ch nx, occ c -> par (quiet still c) (f c d s ch nx) (consumes c).
Hypothesis Hshort : forall c s ch nx, occ c -> length s < len -> term (fun _ => True) (f c d s ch nx).
Hypothesis Hrule : forall r k s ch nx, occ (PRule r k) -> length s <= len -> term (fun _ => True) (f (PRule r k) d s ch nx).
Definition all_occ (l : line) : Prop := forall c, In (ICont c) l -> occ c.
Lemma line_short l : all_occ l -> forall s ch nx acc, length s < len -> term (fun _ => True) (line_loop f l d s ch nx acc).
Proof.
  induction l as [|[|c] l IH]; intros Ho s ch nx acc L; cbn [line_loop]; [apply term_ret|apply IH; [intros c Hc; apply Ho; right; exact Hc|exact L]|].
  apply term_bind; [apply Hshort; [apply Ho; left; reflexivity|exact L]|]. intros st o st' _ E R.
  destruct (Hpar c s ch nx (Ho c (or_introl eq_refl)) st o st' E R) as (_ & E1 & _). split; [exact E1|]. destruct o as [b|]; [|discriminate]. destruct (negb (b_valid b)); [discriminate|]. destruct (has_prefix (b_disc b) s) eqn:Pf; [|discriminate].
  apply IH; [intros c' Hc; apply Ho; right; exact Hc| |exact I|exact E1]. apply cut_len in Pf. lia.
Qed.
Lemma line_rules l : all_occ l -> rules_first l = true -> forall s ch nx acc, length s <= len -> term (fun _ => True) (line_loop f l d s ch nx acc).
Proof.
  induction l as [|[|c] l IH]; intros Ho Hr s ch nx acc L; cbn [line_loop]; [apply term_ret|apply IH; [intros c Hc; apply Ho; right; exact Hc|exact Hr|exact L]|].
  cbn [rules_first] in Hr. destruct c as [|r k| |]; try discriminate.
  apply term_bind; [apply Hrule; [apply Ho; left; reflexivity|exact L]|]. intros st o st' _ E R.
  destruct (Hpar _ s ch nx (Ho _ (or_introl eq_refl)) st o st' E R) as (Co & E1 & _). split; [exact E1|]. destruct o as [b|]; [|discriminate]. destruct (b_valid b) eqn:V; cbn [negb]; [|discriminate]. destruct (has_prefix (b_disc b) s) eqn:Pf; [|discriminate].
  apply cut_len in Pf. assert (Ho' : all_occ l) by (intros c' Hc; apply Ho; right; exact Hc).
  destruct (b_disc b) as [|x w] eqn:Eb.
  - assert (Ab := Co V Eb). apply absent_b_iff in Ab. rewrite Ab in Hr. apply IH; [exact Ho'|exact Hr|rewrite cut_nil; exact L|exact I|exact E1].
  - apply line_short; [exact Ho'|cbn [length] in Pf; lia|exact I|exact E1].
Qed.
Variable ok : list bytes -> pcontainer -> bool.
Variable s : bytes.
Hypothesis Hs : length s = len.
Variable b : bool.
Hypothesis Hok : forall A c, occ c -> ok A c = true -> term (armed A s) (f c d s b b).
Lemma line_guarded l : all_occ l -> forall A acc, line_ok still ok A l = true -> term (armed A s) (line_loop f l d s b b acc).
Proof.
  induction l as [|[|c] l IH]; intros Ho A acc Hl; cbn [line_loop]; [apply term_ret| |].
  - intros st _ E. apply line_rules; [intros c Hc; apply Ho; right; exact Hc|exact Hl|lia|exact I|exact E].
  - cbn [line_ok] in Hl. destruct (ok A c) eqn:Oc; [|discriminate].
    apply term_bind; [apply Hok; [apply Ho; left; reflexivity|exact Oc]|]. intros st o st' Ar E R.
    destruct (Hpar _ s b b (Ho _ (or_introl eq_refl)) st o st' E R) as (Co & E1 & Rq). split; [exact E1|]. destruct o as [x|]; [|discriminate]. destruct (b_valid x) eqn:V; cbn [negb]; [|discriminate]. destruct (has_prefix (b_disc x) s) eqn:Pf; [|discriminate].
    apply cut_len in Pf. assert (Ho' : all_occ l) by (intros c' Hc; apply Ho; right; exact Hc). destruct (b_disc x) as [|y w] eqn:Eb.
    + assert (Ab := Co V Eb). apply absent_b_iff in Ab. rewrite Ab in Hl. rewrite cut_nil. assert (Eb' : (if b then b else false) = b) by (destruct b; reflexivity). rewrite Eb'.
      apply (IH Ho' _ (acc ++ [x]) Hl); [|exact E1]. destruct (quiet still c); [apply (armed_same A s st); [apply Rq; reflexivity|exact Ar]|apply armed_none].
    + apply line_short; [exact Ho'|cbn [length] in Pf; lia|exact I|exact E1].
Qed.
Lemma matches_guarded l A : all_occ l -> line_ok still ok A l = true -> term (armed A s) (line_to_matches f l d s b).
Proof.
  intros Ho Hl. unfold line_to_matches. apply term_bind; [apply line_guarded; assumption|]. intros st o st' _ E R. split; [|discriminate].
  apply (line_loop_par f d false l) in R; [apply R|intros c s0 ch nx Hc; eapply par_weak; [apply Hpar; apply Ho; exact Hc|discriminate|auto]|exact E].
Qed.
Lemma line_keep l : all_occ l -> forall s ch, par (line_quiet still l) (line_to_matches f l d s ch) any.
Proof.
  intros Ho s0 ch0. apply line_par. intros c s1 ch nx Hc. eapply par_weak; [apply Hpar; apply Ho; exact Hc| |auto]. intros Hq. unfold line_quiet in Hq. rewrite forallb_forall in Hq. apply (Hq (ICont c) Hc).
Qed.
Lemma best_guarded ls : (forall l, In l ls -> all_occ l) -> forall A i big v iv, lines_ok still ok A ls = true -> term (armed A s) (best_loop f ls i d s b big v iv).
Proof.
  induction ls as [|l ls IH]; intros Ho A i big v iv Hl; cbn [best_loop]; [apply term_ret|]. cbn [lines_ok] in Hl. destruct (line_ok still ok A l) eqn:Ol; [|discriminate].
  apply term_bind; [apply matches_guarded; [apply Ho; left; reflexivity|exact Ol]|]. intros st o st' Ar E R.
  destruct (line_keep l (Ho l (or_introl eq_refl)) s b st o st' E R) as (_ & E1 & Rq). split; [exact E1|].
  assert (Ar' : armed (if line_quiet still l then A else []) s st') by (destruct (line_quiet still l); [apply (armed_same A s st); [apply Rq; reflexivity|exact Ar]|apply armed_none]).
  assert (Ho' : forall l, In l ls -> all_occ l) by (intros l' Hl'; apply Ho; right; exact Hl').
  destruct o as [bl|]; [|apply (IH Ho' _ _ _ _ _ Hl); [exact Ar'|exact E1]]. destruct (negb _); [apply (IH Ho' _ _ _ _ _ Hl); [exact Ar'|exact E1]|]. destruct (_ <? _); apply (IH Ho' _ _ _ _ _ Hl); try exact Ar'; exact E1.
Qed.
Lemma element_guarded e A : el_not e = None -> (forall l, In l (el_must e) -> all_occ l) -> lines_ok still ok A (el_must e) = true -> term (armed A s) (element_to_token f e d s b).
Proof.
  intros En Ho Hl. assert (Pb : forall st o st', ls_pre st = false -> best_line f (el_must e) d s b st = (Ok o, st') -> ls_pre st' = false).
  { intros st o st' E R. unfold best_line in R. apply mbind_ok in R. destruct R as (r & s1 & R1 & R2). apply ret_ok in R2. destruct R2 as [_ <-].
    apply (best_loop_par f d false (el_must e) 0 s b 0 None None) in R1; [apply R1| |exact I|exact I|exact E]. intros l Hi c s0 ch nx Hc. eapply par_weak; [apply Hpar; apply (Ho l Hi); exact Hc|discriminate|auto]. }
  unfold element_to_token. apply term_bind.
  - unfold element_to_content. apply term_bind.
    + unfold best_line. apply term_bind; [apply best_guarded; assumption|]. intros st r st' _ E R. split; [|discriminate].
      apply (best_loop_par f d false (el_must e) 0 s b 0 None None) in R; [apply R| |exact I|exact I|exact E]. intros l Hi c s0 ch nx Hc. eapply par_weak; [apply Hpar; apply (Ho l Hi); exact Hc|discriminate|auto].
    + intros st o st' _ E R. split; [apply (Pb st o st' E R)|]. rewrite En. destruct o; discriminate.
  - intros st o st' _ E R. split; [|destruct (el_name e); discriminate]. unfold element_to_content in R. apply mbind_ok in R. destruct R as (m & s1 & R1 & R2). rewrite En in R2. assert (E1 := Pb st m s1 E R1). destruct m; apply ret_ok in R2; destruct R2 as [_ <-]; exact E1.
Qed.
End Line.
