(* RegexBytes.v - for the proofs only: the matcher of Regex.v byte by byte, and the proof that
   it answers the same on the patterns of the code. *)
From Coq Require Import Strings.String Strings.Byte Lia.
From Verif Require Export Go Regex.
Open Scope list_scope.

(* [k] is what must match after the expression *)
Section Star.
Context {A : Type} (c : cls) (k : bytes -> option A).
Fixpoint star_greedy (s : bytes) : option A :=
  match s with
  | b :: r => if in_class c b then match star_greedy r with Some x => Some x | None => k s end else k s
  | [] => k s
  end.
Fixpoint star_lazy (s : bytes) : option A :=
  match k s with
  | Some x => Some x
  | None => match s with b :: r => if in_class c b then star_lazy r else None | [] => None end
  end.
End Star.
Fixpoint exec {A} (r : re) (s : bytes) (cs : caps) (k : bytes -> caps -> option A) : option A :=
  match r with
  | REps => k s cs
  | ROne c => match s with b :: t => if in_class c b then k t cs else None | [] => None end
  | RDot => match s with b :: t => if Byte.eqb b x0a then None else k (skipn (rune_width s) s) cs | [] => None end
  | RStar true c => star_greedy c (fun t => k t cs) s
  | RStar false c => star_lazy c (fun t => k t cs) s
  | RSeq a b => exec a s cs (fun t cs' => exec b t cs' k)
  | ROpt a => match exec a s cs k with Some x => Some x | None => k s cs end
  | RCap i a => exec a s cs (fun t cs' => k t ((i, firstn (length s - length t) s) :: cs'))
  | RNever => None
  end.

(* at the start of the text *)
Definition match_at (r : re) (s : bytes) : option rmatch :=
  exec r s [] (fun t cs => Some {| m_text := firstn (length s - length t) s; m_caps := cs |}).
(* Regexp.FindStringSubmatch *)
Fixpoint find_first (r : re) (s : bytes) : option rmatch :=
  match match_at r s with
  | Some m => Some m
  | None => match s with [] => None | _ :: t => find_first r t end
  end.
(* Regexp.FindAllStringSubmatch(s, -1): successive leftmost matches that do not overlap; an
   empty match right after a match is not reported.  [skip] bytes of a match are left to
   skip, [after]: a match that is not empty ends here. *)
Fixpoint find_from (r : re) (skip : nat) (after : bool) (s : bytes) : list rmatch :=
  match skip, s with
  | S n, _ :: t => find_from r n after t
  | S _, [] => []
  | O, _ =>
    match match_at r s with
    | None => match s with [] => [] | _ :: t => find_from r 0 false t end
    | Some m =>
      match m_text m with
      | [] => (if after then [] else [m]) ++ match s with [] => [] | _ :: t => find_from r 0 false t end
      | _ :: w => m :: match s with [] => [] | _ :: t => find_from r (length w) true t end
      end
    end
  end.
Definition find_all (r : re) (s : bytes) : list rmatch := find_from r 0 false s.


(* ---- the two agree ---- *)
(* a byte above ASCII, so that a text that starts inside a rune starts with one *)
Definition above (b : byte) : Prop := (128 <= Byte.to_N b)%N.
Definition ascii_range (r : byte * byte) : bool := (Byte.to_N (snd r) <? 128)%N.
Definition ascii_class (c : cls) : bool := forallb ascii_range (cl_ranges c).
Lemma above_ranges c b : ascii_class c = true -> above b -> in_class c b = cl_neg c.
Proof.
  intros A B. unfold in_class. replace (existsb (in_range b) (cl_ranges c)) with false; [apply Bool.xorb_false_r|].
  symmetry. unfold ascii_class in A. induction (cl_ranges c) as [|r l IH]; [reflexivity|]. cbn [forallb] in A. apply Bool.andb_true_iff in A. destruct A as [A1 A2].
  cbn [existsb]. rewrite (IH A2), Bool.orb_false_r. unfold ascii_range in A1. apply N.ltb_lt in A1. unfold in_range. apply Bool.andb_false_iff. right.
  apply N.leb_gt. unfold above in B. lia.
Qed.
Lemma between_low lo hi b : (lo <= hi)%N -> between lo hi b = true -> (lo <= Byte.to_N b)%N.
Proof. unfold between. intros _ H. apply Bool.andb_true_iff in H. destruct H as [H _]. apply N.leb_le. exact H. Qed.
(* the bytes of a rune after the first *)
Lemma rune_rest b t : exists w u, t = w ++ u /\ length w = pred (rune_width (b :: t)) /\ Forall above w.
Proof.
  assert (O : rune_width (b :: t) = 1 -> exists w u, t = w ++ u /\ length w = pred (rune_width (b :: t)) /\ Forall above w).
  { intros ->. exists [], t. repeat split. constructor. }
  unfold rune_width in *. destruct t as [|c t]; [apply O; reflexivity|].
  destruct (between 194 223 b && between 128 191 c) eqn:E2.
  { clear O. apply Bool.andb_true_iff in E2. destruct E2 as [_ E2]. apply between_low in E2; [|lia]. exists [c], t. repeat split. constructor; [exact E2|constructor]. }
  destruct t as [|d t]; [apply O; reflexivity|].
  match goal with |- context [if ?x then 3 else _] => destruct x eqn:E3 end.
  { clear O E2. apply Bool.andb_true_iff in E3. destruct E3 as [E3 D]. apply between_low in D; [|lia]. exists [c; d], t. repeat split. constructor; [|constructor; [exact D|constructor]].
    unfold above. repeat (apply Bool.orb_true_iff in E3; destruct E3 as [E3|E3]); apply Bool.andb_true_iff in E3; destruct E3 as [_ E3]; apply between_low in E3; lia. }
  destruct t as [|e t]; [apply O; reflexivity|].
  match goal with |- context [if ?x then 4 else _] => destruct x eqn:E4 end; [|apply O; reflexivity].
  clear O E2 E3. apply Bool.andb_true_iff in E4. destruct E4 as [E4 E]. apply Bool.andb_true_iff in E4. destruct E4 as [E4 D]. apply between_low in D; [|lia]. apply between_low in E; [|lia].
  exists [c; d; e], t. repeat split. constructor; [|constructor; [exact D|constructor; [exact E|constructor]]].
  unfold above. repeat (apply Bool.orb_true_iff in E4; destruct E4 as [E4|E4]); apply Bool.andb_true_iff in E4; destruct E4 as [_ E4]; apply between_low in E4; lia.
Qed.
Lemma rune_ascii b t : ~ above b -> rune_width (b :: t) = 1.
Proof.
  intros N. assert (Z : forall lo hi, (128 <= lo)%N -> between lo hi b = false).
  { intros lo hi L. unfold between. apply Bool.andb_false_iff. left. apply N.leb_gt. unfold above in N. lia. }
  unfold rune_width. destruct t as [|c [|d [|e t]]]; repeat rewrite Z by lia; reflexivity.
Qed.

(* what follows: refuses a text that starts above ASCII, or never fails *)
Inductive mode := Strict | Total | Any.
Definition has_mode {A} (m : mode) (k : bytes -> caps -> option A) : Prop :=
  match m with
  | Strict => forall b t cs, above b -> k (b :: t) cs = None
  | Total => forall t cs, k t cs <> None
  | Any => True
  end.
Definition positive (c : cls) : bool := negb (cl_neg c).
(* the mode of an expression and what follows *)
Fixpoint mode_of (r : re) (m : mode) : mode :=
  match r with
  | REps => m
  | ROne c => if positive c && ascii_class c then Strict else Any
  | RDot => Any
  | RStar _ c => match m with Strict => if positive c && ascii_class c then Strict else Any | Total => Total | Any => Any end
  | RSeq a b => mode_of a (mode_of b m)
  | ROpt a => match m, mode_of a m with Total, _ => Total | Strict, Strict => Strict | _, _ => Any end
  | RCap _ a => mode_of a m
  | RNever => Strict
  end.
Definition cls_eqb (c d : cls) : bool :=
  Bool.eqb (cl_neg c) (cl_neg d) && (length (cl_ranges c) =? length (cl_ranges d)) &&
  forallb (fun p => Byte.eqb (fst (fst p)) (fst (snd p)) && Byte.eqb (snd (fst p)) (snd (snd p))) (combine (cl_ranges c) (cl_ranges d)).
(* "+" on one class, before what refuses a text that starts above ASCII *)
Definition one_or_more (a b : re) (m : mode) : bool :=
  match a, b, m with ROne c, RStar true d, Strict => ascii_class c && cls_eqb c d | _, _, _ => false end.
(* where the two matchers agree *)
Fixpoint agree (r : re) (m : mode) : bool :=
  match r with
  | REps | RDot | RNever => true
  | ROne c => positive c && ascii_class c
  | RStar g c => ascii_class c && (positive c || match m with Strict => true | Total => g | Any => false end)
  | RSeq a b => (agree a (mode_of b m) && agree b m) || one_or_more a b m
  | ROpt a => agree a m
  | RCap _ a => agree a m
  end.

Lemma cls_eqb_eq c d : cls_eqb c d = true -> c = d.
Proof.
  destruct c as [n l], d as [n' l']. unfold cls_eqb. cbn [cl_neg cl_ranges]. intros H. apply Bool.andb_true_iff in H. destruct H as [H F]. apply Bool.andb_true_iff in H. destruct H as [E L].
  apply Bool.eqb_prop in E. subst n'. apply Nat.eqb_eq in L. f_equal. revert l' L F. induction l as [|[a b] l IH]; intros [|[a' b'] l'] L F; cbn in L; try discriminate; [reflexivity|].
  cbn [combine forallb fst snd] in F. apply Bool.andb_true_iff in F. destruct F as [F1 F]. apply Bool.andb_true_iff in F1. destruct F1 as [Fa Fb].
  apply Byte.byte_dec_bl in Fa. apply Byte.byte_dec_bl in Fb. subst. f_equal. apply IH; [injection L; auto|exact F].
Qed.
Lemma positive_in c b : ascii_class c = true -> positive c = true -> in_class c b = true -> ~ above b.
Proof. intros A P I B. rewrite (above_ranges c b A B) in I. unfold positive in P. rewrite I in P. discriminate. Qed.
Lemma not_positive c b : ascii_class c = true -> positive c = false -> above b -> in_class c b = true.
Proof. intros A P B. rewrite (above_ranges c b A B). unfold positive in P. destruct (cl_neg c); [reflexivity|discriminate]. Qed.

Section StarAgree.
Context {A : Type} (c : cls) (k k' : bytes -> option A).
Hypothesis Hk : forall t, k t = k' t.
Hypothesis Hc : ascii_class c = true.
Lemma skip_greedy w u : runes_greedy c k (length w) (w ++ u) = runes_greedy c k 0 u.
Proof. induction w as [|b w IH]; [reflexivity|exact IH]. Qed.
Lemma skip_lazy w u : runes_lazy c k (length w) (w ++ u) = runes_lazy c k 0 u.
Proof. induction w as [|b w IH]; [reflexivity|exact IH]. Qed.
Definition over (w u : bytes) : Prop := positive c = false -> Forall above w -> star_greedy c k' (w ++ u) = star_greedy c k' u.
Lemma greedy_agree : positive c = true \/ (forall w u, over w u) -> forall s, runes_greedy c k 0 s = star_greedy c k' s.
Proof.
  intros H s. remember (length s) as n eqn:L. assert (L' : length s <= n) by lia. clear L. revert s L'. induction n as [|n IH]; intros s L.
  - destruct s; [cbn; apply Hk|cbn in L; lia].
  - destruct s as [|b t]; [cbn; apply Hk|]. cbn [length] in L.
    destruct (in_class c b) eqn:I.
    + assert (E : runes_greedy c k (pred (rune_width (b :: t))) t = star_greedy c k' t).
      { destruct (rune_rest b t) as (w & u & E & Lw & F). rewrite <- Lw. destruct (positive c) eqn:P.
        - rewrite (rune_ascii b t (positive_in c b Hc P I)) in Lw. destruct w; [|discriminate]. cbn in E. subst u. cbn [length]. apply IH. lia.
        - destruct H as [H|H]; [discriminate|]. rewrite E, skip_greedy, (H w u P F). apply IH. subst t. rewrite app_length in L. lia. }
      change (runes_greedy c k 0 (b :: t)) with (if in_class c b then match runes_greedy c k (pred (rune_width (b :: t))) t with Some x => Some x | None => k (b :: t) end else k (b :: t)).
      cbn [star_greedy]. rewrite I, E, Hk. reflexivity.
    + change (runes_greedy c k 0 (b :: t)) with (if in_class c b then match runes_greedy c k (pred (rune_width (b :: t))) t with Some x => Some x | None => k (b :: t) end else k (b :: t)).
      cbn [star_greedy]. rewrite I. apply Hk.
Qed.
Lemma lazy_agree : positive c = true \/ (forall b t, above b -> k' (b :: t) = None) -> forall s, runes_lazy c k 0 s = star_lazy c k' s.
Proof.
  intros H s. remember (length s) as n eqn:L. assert (L' : length s <= n) by lia. clear L. revert s L'. induction n as [|n IH]; intros s L.
  - destruct s; [cbn; rewrite Hk; destruct (k' []); reflexivity|cbn in L; lia].
  - destruct s as [|b t]; [cbn; rewrite Hk; destruct (k' []); reflexivity|]. cbn [length] in L.
    change (runes_lazy c k 0 (b :: t)) with (match k (b :: t) with Some x => Some x | None => if in_class c b then runes_lazy c k (pred (rune_width (b :: t))) t else None end).
    cbn [star_lazy]. rewrite Hk. destruct (k' (b :: t)); [reflexivity|]. destruct (in_class c b) eqn:I; [|reflexivity].
    destruct (rune_rest b t) as (w & u & E & Lw & F). rewrite <- Lw. destruct (positive c) eqn:P.
    + rewrite (rune_ascii b t (positive_in c b Hc P I)) in Lw. destruct w; [|discriminate]. cbn in E. subst u. cbn [length]. apply IH. lia.
    + destruct H as [H|H]; [discriminate|]. rewrite E, skip_lazy. transitivity (star_lazy c k' u).
      * apply IH. subst t. rewrite app_length in L. lia.
      * clear - F H Hc P. induction F as [|a w B F IHw]; [reflexivity|]. cbn [app star_lazy]. rewrite (H a (w ++ u) B), (not_positive c a Hc P B). exact IHw.
Qed.
Lemma over_strict : (forall b t, above b -> k' (b :: t) = None) -> forall w u, over w u.
Proof.
  intros H w u P F. induction F as [|a w B F IHw]; [reflexivity|]. cbn [app star_greedy]. rewrite (not_positive c a Hc P B), IHw, (H a (w ++ u) B). destruct (star_greedy c k' u); reflexivity.
Qed.
Lemma star_greedy_total : (forall t, k' t <> None) -> forall t, star_greedy c k' t <> None.
Proof. intros H t. induction t as [|b t IH]; cbn [star_greedy]; [apply H|]. destruct (in_class c b); [|apply H]. destruct (star_greedy c k' t); [discriminate|contradiction]. Qed.
Lemma over_total : (forall t, k' t <> None) -> forall w u, over w u.
Proof.
  intros H w u P F. induction F as [|a w B F IHw]; [reflexivity|]. cbn [app star_greedy]. rewrite (not_positive c a Hc P B), IHw. assert (T := star_greedy_total H u). destruct (star_greedy c k' u); [reflexivity|contradiction].
Qed.
End StarAgree.

Lemma mode_exec {A} (r : re) : forall m (k : bytes -> caps -> option A), has_mode m k -> has_mode (mode_of r m) (fun t cs => exec r t cs k).
Proof.
  induction r as [|c| |g c|a IHa b IHb|a IHa|i a IHa|]; intros m k H; cbn [mode_of exec].
  - exact H.
  - destruct (positive c && ascii_class c) eqn:E; [|exact I]. apply Bool.andb_true_iff in E. destruct E as [P C]. intros b t cs B. destruct (in_class c b) eqn:I; [|reflexivity]. exfalso. exact (positive_in c b C P I B).
  - exact I.
  - destruct m; [|destruct g; cbn in *|exact I].
    + destruct (positive c && ascii_class c) eqn:E; [|exact I]. apply Bool.andb_true_iff in E. destruct E as [P C]. intros b t cs B.
      assert (Z : in_class c b = false) by (destruct (in_class c b) eqn:I; [exfalso; exact (positive_in c b C P I B)|reflexivity]).
      destruct g; cbn; rewrite Z; [apply H; exact B|]. rewrite (H b t cs B). reflexivity.
    + intros t cs. apply star_greedy_total. intros u. apply H.
    + intros t cs. destruct t as [|b t]; cbn [star_lazy]; [specialize (H [] cs)|specialize (H (b :: t) cs)]; destruct (k _ cs); [discriminate|contradiction|discriminate|contradiction].
  - exact (IHa _ _ (IHb _ _ H)).
  - specialize (IHa m k H). destruct m; [|intros t cs; specialize (H t cs); destruct (exec a t cs k); [discriminate|exact H]|exact I].
    destruct (mode_of a Strict); [|exact I|exact I]. intros b t cs B. rewrite (IHa b t cs B). apply H. exact B.
  - destruct (mode_of a m) eqn:E; [|intros t cs|exact I].
    + intros b t cs B.
      assert (K : has_mode m (fun t' cs' => k t' ((i, firstn (length (b :: t) - length t') (b :: t)) :: cs'))). { destruct m; cbn in *; auto. }
      specialize (IHa m _ K). rewrite E in IHa. exact (IHa b t cs B).
    + assert (K : has_mode m (fun t' cs' => k t' ((i, firstn (length t - length t') t) :: cs'))). { destruct m; cbn in *; auto. }
      specialize (IHa m _ K). rewrite E in IHa. exact (IHa t cs).
  - intros b t cs _. reflexivity.
Qed.
Lemma run_agree {A} (r : re) : forall m (k k' : bytes -> caps -> option A) s cs, agree r m = true -> (forall t cs, k t cs = k' t cs) -> has_mode m k' -> run r s cs k = exec r s cs k'.
Proof.
  induction r as [|c| |g c|a IHa b IHb|a IHa|i a IHa|]; intros m k k' s cs G E H; cbn [agree] in G; cbn [run exec].
  - apply E.
  - apply Bool.andb_true_iff in G. destruct G as [P C]. destruct s as [|b t]; [reflexivity|]. destruct (in_class c b) eqn:I; [|reflexivity]. rewrite (rune_ascii b t (positive_in c b C P I)). apply E.
  - destruct s as [|b t]; [reflexivity|]. destruct (Byte.eqb b x0a); [reflexivity|apply E].
  - apply Bool.andb_true_iff in G. destruct G as [C G]. destruct (positive c) eqn:P.
    + destruct g; [apply greedy_agree|apply lazy_agree]; auto.
    + destruct m; [|cbn in G; subst g|discriminate].
      * destruct g; [apply greedy_agree; auto; right; apply over_strict; auto|apply lazy_agree; auto].
      * apply greedy_agree; auto. right. apply over_total; auto.
  - apply Bool.orb_true_iff in G. destruct G as [G|G].
    + apply Bool.andb_true_iff in G. destruct G as [Ga Gb]. apply (IHa (mode_of b m)); [exact Ga| |apply mode_exec; exact H]. intros t cs'. apply (IHb m); assumption.
    + unfold one_or_more in G. destruct a as [|c| | | | | |]; try discriminate. destruct b as [| | |[|] d| | | |]; try discriminate. destruct m; try discriminate.
      apply Bool.andb_true_iff in G. destruct G as [C G]. apply cls_eqb_eq in G. subst d. cbn [run exec]. destruct s as [|b t]; [reflexivity|]. destruct (in_class c b) eqn:I; [|reflexivity].
      destruct (rune_rest b t) as (w & u & Et & Lw & F).
      assert (O : forall w u, over c (fun t => k' t cs) w u) by (intros w' u'; apply over_strict; auto).
      assert (S : skipn (rune_width (b :: t)) (b :: t) = u).
      { assert (W : rune_width (b :: t) <> 0). { clear. unfold rune_width. destruct t as [|c [|d [|e t]]]; repeat match goal with |- context [if ?x then _ else _] => destruct x end; discriminate. }
        destruct (rune_width (b :: t)) as [|n]; [contradiction|]. cbn [skipn]. cbn in Lw. subst n t. clear. induction w; [reflexivity|exact IHw]. }
      rewrite S, (greedy_agree c (fun t => k t cs) (fun t => k' t cs)); auto. subst t. destruct (positive c) eqn:P; [|rewrite (O w u); auto].
      assert (W := rune_ascii b (w ++ u) (positive_in c b C P I)). rewrite W in Lw. destruct w; [reflexivity|discriminate].
  - rewrite (IHa m k k' s cs G E H), E. reflexivity.
  - apply (IHa m); [exact G| |destruct m; cbn in *; auto]. intros t cs'. apply E.
  - reflexivity.
Qed.

Lemma submatch_agree r s : agree r Total = true -> submatch_at r s = match_at r s.
Proof. intros G. apply (run_agree r Total); [exact G|reflexivity|]. intros t cs. discriminate. Qed.
Lemma match_above r b t : mode_of r Total = Strict -> above b -> match_at r (b :: t) = None.
Proof.
  intros M B. assert (K : has_mode Total (fun t' cs => Some {| m_text := firstn (length (b :: t) - length t') (b :: t); m_caps := cs |})) by (intros t' cs; discriminate).
  apply (mode_exec r) in K. rewrite M in K. exact (K b t [] B).
Qed.
Lemma match_total r s : mode_of r Total = Total -> match_at r s <> None.
Proof.
  intros M. assert (K : has_mode Total (fun t' cs => Some {| m_text := firstn (length s - length t') s; m_caps := cs |})) by (intros t' cs; discriminate).
  apply (mode_exec r) in K. rewrite M in K. exact (K s []).
Qed.
Section Agree.
Variable r : re.
Hypothesis G : agree r Total = true.
Lemma skip_find w u : find_runes r (length w) (w ++ u) = find_runes r 0 u.
Proof. induction w as [|b w IH]; [reflexivity|exact IH]. Qed.
Lemma skip_find_all w u f : find_all_runes r (length w) f (w ++ u) = find_all_runes r 0 f u.
Proof. induction w as [|b w IH]; [reflexivity|exact IH]. Qed.
Lemma skip_from w u f : find_from r (length w) f (w ++ u) = find_from r 0 f u.
Proof. induction w as [|b w IH]; [reflexivity|exact IH]. Qed.
Lemma beyond_runes d : forall (v : bytes) g, length v < d -> find_all_runes r d g v = [].
Proof. induction d as [|d IHd]; intros v g H; [lia|]. destruct v; [reflexivity|]. cbn. apply IHd. cbn in H. lia. Qed.
Lemma beyond_from d : forall (v : bytes) g, length v < d -> find_from r d g v = [].
Proof. induction d as [|d IHd]; intros v g H; [lia|]. destruct v; [reflexivity|]. cbn. apply IHd. cbn in H. lia. Qed.
(* a search that finds something at once *)
Theorem find_submatch_total s : mode_of r Total = Total -> find_submatch r s = find_first r s.
Proof.
  intros M. assert (T := match_total r s M). unfold find_submatch. destruct s as [|b t]; cbn [find_runes find_first]; rewrite (submatch_agree r _ G); destruct (match_at r _); try reflexivity; contradiction.
Qed.
Hypothesis M : mode_of r Total = Strict.
Theorem find_submatch_bytes s : find_submatch r s = find_first r s.
Proof.
  unfold find_submatch. remember (length s) as n eqn:L. assert (L' : length s <= n) by lia. clear L. revert s L'. induction n as [|n IH]; intros s L.
  - destruct s; [|cbn in L; lia]. cbn [find_runes find_first]. rewrite (submatch_agree r _ G). reflexivity.
  - destruct s as [|b t]; cbn [find_runes find_first]; rewrite (submatch_agree r _ G); [reflexivity|]. destruct (match_at r (b :: t)); [reflexivity|]. cbn [length] in L.
    destruct (rune_rest b t) as (w & u & E & Lw & F). rewrite <- Lw. subst t. rewrite skip_find. transitivity (find_first r u); [apply IH; rewrite app_length in L; lia|].
    clear - F M. induction F as [|a w B F IHw]; [reflexivity|]. cbn [app find_first]. rewrite (match_above r a (w ++ u) M B). exact IHw.
Qed.
Lemma from_above w u f : Forall above w -> find_from r 0 f (w ++ u) = match w with [] => find_from r 0 f u | _ => find_from r 0 false u end.
Proof.
  intros F. revert f. induction F as [|a w B F IHw]; intros f; [reflexivity|]. cbn [app find_from]. rewrite (match_above r a (w ++ u) M B), IHw. destruct w; reflexivity.
Qed.
Lemma find_all_strict : forall n s f, length s <= n -> find_all_runes r 0 f s = find_from r 0 f s.
Proof.
  induction n as [|n IH]; intros s f L.
  - destruct s; [|cbn in L; lia]. cbn [find_all_runes find_from]. rewrite (submatch_agree r _ G). reflexivity.
  - destruct s as [|b t]; cbn [find_all_runes find_from]; rewrite (submatch_agree r _ G); [reflexivity|]. cbn [length] in L.
    assert (Q : find_all_runes r (pred (rune_width (b :: t))) false t = find_from r 0 false t).
    { destruct (rune_rest b t) as (w & u & E & Lw & F). rewrite <- Lw. subst t. rewrite skip_find_all, (from_above w u false F). rewrite app_length in L. destruct w; apply IH; cbn in L; lia. }
    destruct (match_at r (b :: t)) as [m|]; [|exact Q].
    destruct (m_text m) as [|x w]; [rewrite Q; reflexivity|]. f_equal.
    destruct (Nat.le_gt_cases (length w) (length t)) as [Lw|Lw].
    + assert (E : exists a v, t = a ++ v /\ length a = length w) by (exists (firstn (length w) t), (skipn (length w) t); split; [symmetry; apply firstn_skipn|rewrite firstn_length; lia]).
      destruct E as (a & v & -> & <-). rewrite skip_find_all, skip_from. apply IH. rewrite app_length in L. lia.
    + rewrite beyond_runes, beyond_from; [reflexivity|exact Lw|exact Lw].
Qed.
Theorem find_all_bytes s : find_all_submatch r s = find_all r s.
Proof. exact (find_all_strict (length s) s false (le_n _)). Qed.
End Agree.
