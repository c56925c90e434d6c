(* TextRefProofs.v - the regular expressions of the references. *)
From Coq Require Import Strings.String Strings.Byte Lia.
From Verif Require Import Go GoLemmas DomainModel CardModel PatModel RuleModel RuleProofs PathModel Regex RegexProofs TextModel TextBytes TextSpec Utf8Spec Utf8Proofs TextRefSpec TextProofs TextProofs2 TextProofs3.
Open Scope list_scope.
Local Arguments in_class : simpl never.

Definition implements {X} (r : re) (P : bytes -> X -> bytes -> Prop) (mk : X -> caps -> caps) : Prop :=
  forall (A : Type) (k : bytes -> caps -> option A) s cs y, total k -> (exec r s cs k = Some y <-> exists x rest, P s x rest /\ k rest (mk x cs) = Some y).
Lemma after_any_width {X} (P : bytes -> X -> bytes -> Prop) s x rest :
  after_any P s x rest <-> (exists b r, s = b :: r /\ b <> x0a) /\ P (skipn (rune_width s) s) x rest.
Proof.
  split.
  - intros (w & u & E & F & N & H). assert (Z : s <> []). { intros ->. apply first_not_empty in F. destruct w; [contradiction|discriminate]. }
    apply (first_character_width s w Z) in F. rewrite F in E. rewrite <- (firstn_skipn (rune_width s) s) in E at 1. apply app_inv_head in E. rewrite E. split; [|exact H].
    destruct s as [|b r]; [contradiction|]. exists b, r. split; [reflexivity|]. intros ->. apply N. rewrite F.
    rewrite <- (width_char (x0a :: r) [x0a] r eq_refl); [reflexivity|]. exists 10%N. split; [left; reflexivity|reflexivity].
  - intros [(b & r & -> & N) H]. exists (firstn (rune_width (b :: r)) (b :: r)), (skipn (rune_width (b :: r)) (b :: r)). split; [symmetry; apply firstn_skipn|]. split; [apply first_character_width; [discriminate|reflexivity]|]. split; [|exact H].
    intros E. destruct (rune_width (b :: r)); [discriminate|]. cbn [firstn] in E. congruence.
Qed.
Section Impl.
Context {X : Type} (r : re) (P : bytes -> X -> bytes -> Prop) (mk : X -> caps -> caps) (I : implements r P mk).
Lemma impl_none {A} (k : bytes -> caps -> option A) s cs : total k -> (exec r s cs k = None <-> forall x rest, ~ P s x rest).
Proof.
  intros T. split.
  - intros E x rest H. destruct (k rest (mk x cs)) as [y|] eqn:K; [|exact (T _ _ K)]. assert (Z : exec r s cs k = Some y) by (apply (I A); eauto). congruence.
  - intros H. destruct (exec r s cs k) as [y|] eqn:E; [|reflexivity]. apply (I A) in E; [|exact T]. destruct E as (x & rest & K & _). exfalso. exact (H x rest K).
Qed.
Lemma impl_fun s x rest x' rest' : (forall x x', mk x [] = mk x' [] -> x = x') -> P s x rest -> P s x' rest' -> x = x' /\ rest = rest'.
Proof.
  intros J H H'. assert (T : total (fun (t : bytes) (cs : caps) => Some (t, cs))) by (intros t cs; discriminate).
  assert (E : exec r s [] (fun t cs => Some (t, cs)) = Some (rest, mk x [])) by (apply (I _ _ s [] _ T); eauto).
  assert (E' : exec r s [] (fun t cs => Some (t, cs)) = Some (rest', mk x' [])) by (apply (I _ _ s [] _ T); eauto).
  rewrite E in E'. injection E' as -> E'. auto.
Qed.
Lemma impl_one b : implements (RSeq (ROne (of_ranges [(b, b)])) r) (after_text P [b]) mk.
Proof.
  intros A k s cs y T. change (exec (RSeq (ROne (of_ranges [(b, b)])) r) s cs k) with (match s with c :: t => if in_class (of_ranges [(b, b)]) c then exec r t cs k else None | [] => None end). split.
  - destruct s as [|c t]; [discriminate|]. destruct (in_class _ c) eqn:E; [|discriminate]. apply in_lit in E. subst c. intros H. apply (I A) in H; [|exact T]. destruct H as (x & rest & H & K). exists x, rest. split; [exists t; split; [reflexivity|exact H]|exact K].
  - intros (x & rest & (u & -> & H) & K). cbn [app]. rewrite (proj2 (in_lit b b) eq_refl). apply (I A); [exact T|]. eauto.
Qed.
Lemma impl_blanks : (forall b s x rest, blank b -> ~ P (b :: s) x rest) -> implements (RSeq (RStar true c_ws) r) (after_blanks P) mk.
Proof.
  intros N A k s cs y T. change (exec (RSeq (RStar true c_ws) r) s cs k) with (star_greedy c_ws (fun t => exec r t cs k) s). rewrite star_greedy_det.
  - rewrite (I A _ _ _ _ T). split.
    + intros (x & rest & H & K). exists x, rest. split; [|exact K]. exists (takec c_ws s), (dropc c_ws s). split; [apply take_drop|]. split; [apply (all_iff c_ws _ _ in_ws); apply takec_all|]. split; [|exact H].
      intros b u E B. rewrite E in H. exact (N b u x rest B H).
    + intros (x & rest & (w & u & -> & W & U & H) & K). exists x, rest. split; [|exact K]. destruct (span_unique c_ws w u) as [_ ->]; [apply (all_iff c_ws _ _ in_ws); exact W| |exact H]. destruct u as [|b u]; [constructor|]. cbn. destruct (in_class c_ws b) eqn:B; [|reflexivity]. exfalso. apply in_ws in B. exact (U b u eq_refl B).
  - intros b t B. apply (impl_none k _ _ T). intros x rest. apply N. apply in_ws. exact B.
Qed.
Lemma impl_any : implements (RSeq RDot r) (after_any P) mk.
Proof.
  intros A k s cs y T. change (exec (RSeq RDot r) s cs k) with (match s with b :: t => if Byte.eqb b x0a then None else exec r (skipn (rune_width s) s) cs k | [] => None end). split.
  - destruct s as [|b t]; [discriminate|]. destruct (Byte.eqb b x0a) eqn:E; [discriminate|]. intros H. apply (I A) in H; [|exact T]. destruct H as (x & rest & H & K). exists x, rest. split; [|exact K]. apply after_any_width. split; [|exact H]. exists b, t. split; [reflexivity|]. intros ->. discriminate.
  - intros (x & rest & A0 & K). apply after_any_width in A0. destruct A0 as [(b & t & -> & Nb) H]. rewrite (eqb_ne b x0a Nb). apply (I A); [exact T|]. eauto.
Qed.
Lemma impl_name i : implements (RSeq (RCap i (n_run c_lower c_alpha)) r) (longest_name P) (fun y cs => mk (snd y) ((i, fst y) :: cs)).
Proof.
  intros A k s cs y T.
  change (exec (RSeq (RCap i (n_run c_lower c_alpha)) r) s cs k) with (match s with b :: t => if in_class c_lower b then star_greedy c_alpha (fun u => exec r u ((i, firstn (length s - length u) s) :: cs) k) t else None | [] => None end). split.
  - destruct s as [|b t]; [discriminate|]. destruct (in_class c_lower b) eqn:E; [|discriminate]. intros H. apply star_greedy_some in H. destruct H as (u & v & Et & Hu & H & L). apply (I A) in H; [|exact T]. destruct H as (x & rest & H & K).
    assert (Ef : firstn (length (b :: t) - length v) (b :: t) = b :: u) by (rewrite Et; exact (firstn_diff (b :: u) v)).
    rewrite Ef in K. exists (b :: u, x), rest. split; [|exact K]. exists v. cbn [fst snd]. split; [cbn; rewrite Et; reflexivity|]. split; [exists b, u; split; [reflexivity|]; split; [apply in_lower; exact E|]; apply (all_iff c_alpha _ _ in_alpha); exact Hu|]. split; [exact H|].
    intros n' u' x' r' Es (b' & w' & -> & Hb & Hw) Ln H'. cbn [app] in Es. injection Es as -> Es. assert (Z := L w' u' Es (proj2 (all_iff c_alpha _ _ in_alpha) Hw)). cbn [length] in Ln. specialize (Z ltac:(lia)). exact (proj1 (impl_none k _ _ T) Z x' r' H').
  - intros ([n x] & rest & (v & -> & (b & u & -> & Hb & Hu) & H & L) & K). cbn [fst snd] in *. cbn [app]. rewrite (proj2 (in_lower b) Hb). apply star_greedy_some. exists u, v. split; [reflexivity|]. split; [apply (all_iff c_alpha _ _ in_alpha); exact Hu|]. split.
    + apply (I A); [exact T|]. exists x, rest. split; [exact H|]. rewrite <- K. f_equal. f_equal. f_equal. f_equal. exact (firstn_diff (b :: u) v).
    + intros u' v' E' Hu' Ln. apply (impl_none k _ _ T). intros x' r'. apply (L (b :: u') v' x' r'); [cbn; rewrite E'; reflexivity| |cbn; lia]. exists b, u'. split; [reflexivity|]. split; [exact Hb|]. apply (all_iff c_alpha _ _ in_alpha). exact Hu'.
Qed.
End Impl.
Lemma impl_text {X} (r : re) (P : bytes -> X -> bytes -> Prop) mk t : implements r P mk -> implements (fold_right (fun b r => RSeq (ROne (of_ranges [(b, b)])) r) r t) (after_text P t) mk.
Proof.
  intros I. induction t as [|b t IH]; cbn [fold_right].
  - intros A k s cs y T. rewrite (I A _ _ _ _ T). split; intros (x & rest & H & K); exists x, rest; (split; [|exact K]); [exists s; split; [reflexivity|exact H]|destruct H as (u & -> & H); exact H].
  - assert (J := impl_one _ _ _ IH b). intros A k s cs y T. rewrite (J A _ _ _ _ T). split; intros (x & rest & H & K); exists x, rest; (split; [|exact K]).
    + destruct H as (u & -> & v & -> & H). exists v. split; [reflexivity|exact H].
    + destruct H as (u & -> & H). exists (t ++ u). split; [reflexivity|]. exists u. split; [reflexivity|exact H].
Qed.
Lemma impl_done : implements (RSeq (RStar true c_ws) REps) (after_blanks done) (fun _ cs => cs).
Proof.
  intros A k s cs y T. change (exec (RSeq (RStar true c_ws) REps) s cs k) with (star_greedy c_ws (fun t => k t cs) s). rewrite star_greedy_all by apply T. split.
  - intros H. exists tt, (dropc c_ws s). split; [|exact H]. exists (takec c_ws s), (dropc c_ws s). split; [apply take_drop|]. split; [apply (all_iff c_ws _ _ in_ws); apply takec_all|]. split; [|reflexivity]. intros b u E B. assert (S := dropc_stops c_ws s). rewrite E in S. cbn in S. apply in_ws in B. congruence.
  - intros (x & rest & (w & u & -> & W & U & ->) & K). destruct (span_unique c_ws w u) as [_ ->]; [apply (all_iff c_ws _ _ in_ws); exact W| |exact K]. destruct u as [|b u]; [constructor|]. cbn. destruct (in_class c_ws b) eqn:B; [|reflexivity]. exfalso. apply in_ws in B. exact (U b u eq_refl B).
Qed.
(* ---- the three expressions ---- *)
Definition kw (t : bytes) (r : re) : re := fold_right (fun b r => RSeq (ROne (of_ranges [(b, b)])) r) r t.
Definition sp (r : re) : re := RSeq (RStar true c_ws) r.
Definition nm (i : nat) (r : re) : re := RSeq (RCap i (n_run c_lower c_alpha)) r.
Definition ref_re : re := kw (bs "reference") (sp (nm 1 (sp (nm 2 (RSeq RDot (nm 3 (sp REps))))))).
Definition rep_re : re := kw (bs "replace") (sp (nm 1 (RSeq RDot (nm 2 (sp (nm 3 (sp REps))))))).
Definition inc_re : re := kw (bs "include") (sp (nm 1 (sp (kw [dq] (RSeq (RCap 2 (RSeq (RStar true (but dq)) REps)) (kw [dq] (RSeq (RStar false c_ws) REps))))))).
Lemma c_ref : compile reference_text = RSeq (RStar false c_ws) ref_re. Proof. vm_compute. reflexivity. Qed.
Lemma c_rep : compile replace_text = RSeq (RStar false c_ws) rep_re. Proof. vm_compute. reflexivity. Qed.
Lemma c_inc : compile include_text = RSeq (RStar false c_ws) inc_re. Proof. vm_compute. reflexivity. Qed.
Definition mk3 (x : bytes * (bytes * (bytes * unit))) (cs : caps) : caps := (3, fst (snd (snd x))) :: (2, fst (snd x)) :: (1, fst x) :: cs.
Lemma lower_not_blank b : lower b -> ~ blank b.
Proof. intros L [->|[->|[->| ->]]]; unfold lower in L; cbn in L; lia. Qed.
Lemma name_not_blank {X} (P : bytes -> X -> bytes -> Prop) b s x rest : blank b -> ~ longest_name P (b :: s) x rest.
Proof. intros B (u & E & (b' & w & En & L & _) & _). rewrite En in E. injection E as -> _. exact (lower_not_blank _ L B). Qed.
Lemma ref_impl : implements ref_re reference_at mk3.
Proof.
  unfold ref_re, reference_at. apply impl_text. apply impl_blanks; [|intros; apply name_not_blank; assumption].
  apply (impl_name _ _ (fun y cs => (3, fst (snd y)) :: (2, fst y) :: cs)). apply impl_blanks; [|intros; apply name_not_blank; assumption].
  apply (impl_name _ _ (fun y cs => (3, fst y) :: cs)). apply impl_any. apply (impl_name _ _ (fun _ cs => cs)). exact impl_done.
Qed.
Lemma rep_impl : implements rep_re replace_at mk3.
Proof.
  unfold rep_re, replace_at. apply impl_text. apply impl_blanks; [|intros; apply name_not_blank; assumption].
  apply (impl_name _ _ (fun y cs => (3, fst (snd y)) :: (2, fst y) :: cs)). apply impl_any.
  apply (impl_name _ _ (fun y cs => (3, fst y) :: cs)). apply impl_blanks; [|intros; apply name_not_blank; assumption]. apply (impl_name _ _ (fun _ cs => cs)). exact impl_done.
Qed.
(* "body" *)
Definition quoted (s : bytes) (body rest : bytes) : Prop := s = dq :: body ++ dq :: rest /\ ~ In dq body.
Lemma quoted_impl : implements (kw [dq] (RSeq (RCap 2 (RSeq (RStar true (but dq)) REps)) (kw [dq] (RSeq (RStar false c_ws) REps)))) quoted (fun x cs => (2, x) :: cs).
Proof.
  intros A k s cs y T.
  change (exec (kw [dq] (RSeq (RCap 2 (RSeq (RStar true (but dq)) REps)) (kw [dq] (RSeq (RStar false c_ws) REps)))) s cs k) with
    (match s with b :: t => if in_class (of_ranges [(dq, dq)]) b then star_greedy (but dq) (fun u => exec (kw [dq] (RSeq (RStar false c_ws) REps)) u ((2, firstn (length t - length u) t) :: cs) k) t else None | [] => None end).
  assert (Q : forall u cs, exec (kw [dq] (RSeq (RStar false c_ws) REps)) u cs k = match u with b :: t => if in_class (of_ranges [(dq, dq)]) b then k t cs else None | [] => None end).
  { intros u cs'. change (exec (kw [dq] (RSeq (RStar false c_ws) REps)) u cs' k) with (match u with b :: t => if in_class (of_ranges [(dq, dq)]) b then star_lazy c_ws (fun t => k t cs') t else None | [] => None end). destruct u as [|b u]; [reflexivity|]. destruct (in_class _ b); [|reflexivity]. apply (star_lazy_none c_ws (fun t => k t cs')). exact (T u cs'). }
  assert (S : forall t, star_greedy (but dq) (fun u => exec (kw [dq] (RSeq (RStar false c_ws) REps)) u ((2, firstn (length t - length u) t) :: cs) k) t =
    match dropc (but dq) t with b :: u => k u ((2, takec (but dq) t) :: cs) | [] => None end).
  { intros t. rewrite star_but.
    - rewrite Q. assert (D := dropc_stops (but dq) t). assert (E := take_drop (but dq) t). destruct (dropc (but dq) t) as [|b u]; [reflexivity|]. cbn in D. assert (b = dq) by (destruct (Byte.byte_eq_dec b dq) as [K|K]; [exact K|apply in_but in K; congruence]). subst b. rewrite (proj2 (in_lit dq dq) eq_refl). f_equal. f_equal. f_equal. rewrite E at 1 2. exact (firstn_diff (takec (but dq) t) (dq :: u)).
    - intros b u N. rewrite Q. destruct (in_class (of_ranges [(dq, dq)]) b) eqn:B; [|reflexivity]. apply in_lit in B. contradiction. }
  split.
  - destruct s as [|b t]; [discriminate|]. destruct (in_class _ b) eqn:B; [|discriminate]. apply in_lit in B. subst b. rewrite S. assert (D := dropc_stops (but dq) t). assert (E := take_drop (but dq) t). assert (Ta := takec_all (but dq) t). destruct (dropc (but dq) t) as [|b u]; [discriminate|]. intros H. exists (takec (but dq) t), u. split; [|exact H]. cbn in D.
    assert (b = dq) by (destruct (Byte.byte_eq_dec b dq) as [K|K]; [exact K|apply in_but in K; congruence]). subst b. split; [f_equal; exact E|]. intros K. unfold all_in in Ta. rewrite Forall_forall in Ta. apply Ta in K. apply in_but in K. contradiction.
  - intros (body & rest & [-> N] & K). rewrite (proj2 (in_lit dq dq) eq_refl), S. destruct (span_but dq body rest N) as [-> ->]. exact K.
Qed.
Lemma inc_impl : implements inc_re include_at (fun x cs => (2, snd x) :: (1, fst x) :: cs).
Proof.
  assert (J : implements inc_re (after_text (after_blanks (longest_name (after_blanks quoted))) (bs "include")) (fun x cs => (2, snd x) :: (1, fst x) :: cs)).
  { unfold inc_re. apply impl_text. apply impl_blanks; [|intros; apply name_not_blank; assumption]. apply (impl_name _ _ (fun y cs => (2, y) :: cs)). apply impl_blanks; [exact quoted_impl|]. intros b s x rest B [E _]. injection E as -> _. destruct B as [B|[B|[B|B]]]; discriminate. }
  intros A k s cs y T. rewrite (J A k s cs y T). split; intros ([n body] & rest & H & K); exists (n, body), rest; (split; [|exact K]).
  - destruct H as (u & -> & w1 & v & -> & W1 & _ & z & E & Hn & (w2 & q & -> & W2 & _ & [Eq Nq]) & _). cbn [fst snd] in *. subst v q. exists w1, w2. auto.
  - destruct H as (w1 & w2 & -> & Hn & W1 & W2 & Nq). cbn [fst snd] in *. exists (w1 ++ n ++ w2 ++ dq :: body ++ dq :: rest). split; [reflexivity|]. exists w1, (n ++ w2 ++ dq :: body ++ dq :: rest). split; [reflexivity|]. split; [exact W1|].
    assert (Hn' := Hn). destruct Hn' as (b & w & -> & Hb & Hw). split; [intros b' r' E; injection E as -> _; exact (lower_not_blank _ Hb)|]. exists (w2 ++ dq :: body ++ dq :: rest). cbn [fst snd]. split; [reflexivity|]. split; [exact Hn|]. split.
    + exists w2, (dq :: body ++ dq :: rest). split; [reflexivity|]. split; [exact W2|]. split; [|split; [reflexivity|exact Nq]]. intros b' r' E. injection E as <- _. intros [B|[B|[B|B]]]; discriminate.
    + intros n' u' x' r' E (b'' & w'' & -> & _ & Hw'') Ln (w2' & q & -> & W2' & _ & [Eq _]). subst q. cbn [app length] in *. injection E as <- E. exfalso.
      (* the name cannot go on *)
      assert (Z : exists c d, w'' = w ++ c :: d).
      { clear - E Ln. revert w'' E Ln. induction w as [|a w IH]; intros w'' E Ln; cbn [app length] in *; [destruct w'' as [|c d]; [cbn in Ln; lia|exists c, d; reflexivity]|]. destruct w'' as [|c d]; [cbn in Ln; lia|]. cbn [app length] in *. injection E as -> E. destruct (IH d E ltac:(lia)) as (c' & d' & ->). exists c', d'. reflexivity. }
      destruct Z as (c & d & ->). rewrite <- app_assoc in E. apply app_inv_head in E. apply Forall_app in Hw''. destruct Hw'' as [_ Hc]. inversion Hc as [|? ? Hc' _]; subst. destruct w2 as [|c' w2]; cbn [app] in E; injection E as <- E.
      * unfold lower, upper in Hc'. cbn in Hc'. lia.
      * inversion W2 as [|? ? B _]; subst. unfold lower, upper in Hc'. destruct B as [->|[->|[->| ->]]]; cbn in Hc'; lia.
Qed.
