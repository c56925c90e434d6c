From Coq Require Import Strings.String Strings.Byte Lia.
From Verif Require Import GoLemmas PatModel PatSpec.

Lemma has_prefix_is_prefix w t : has_prefix w t = true <-> is_prefix w t.
Proof.
  revert t. induction w as [|x w IH]; intros t; cbn [has_prefix].
  - split; [exists t; reflexivity|reflexivity].
  - destruct t as [|y t]; [split; [discriminate|intros [s H]; discriminate]|].
    rewrite andb_true_iff, IH. split.
    + intros [E [s ->]]. apply Byte.byte_dec_bl in E. subst. exists s. reflexivity.
    + intros [s H]. injection H as -> ->. split; [apply Byte.byte_dec_lb; reflexivity|exists s; reflexivity].
Qed.

Lemma prefix_same_length v w t : is_prefix v t -> is_prefix w t -> length v = length w -> v = w.
Proof.
  intros [s ->] [s' E] L. revert w s' E L. induction v as [|x v IH]; intros [|y w] s' E L; try discriminate; [reflexivity|].
  injection E as -> E. f_equal. eapply IH; [exact E|]. cbn in L. lia.
Qed.
Lemma prefix_length v t : is_prefix v t -> length v <= length t.
Proof. intros [s ->]. rewrite app_length. lia. Qed.
Lemma prefix_firstn v t : is_prefix v t -> firstn (length v) t = v.
Proof. intros [s ->]. rewrite firstn_app, Nat.sub_diag, firstn_all. cbn. apply app_nil_r. Qed.

Definition cstep (content : bytes) (longest : nat) (e : bytes) : nat :=
  if has_prefix e content then if longest <=? length e then length e else longest else longest.
Lemma fold_contains l content a n : fold_left (cstep content) l a = n <->
  (a <= n /\ (n = a \/ exists w, In w l /\ is_prefix w content /\ length w = n) /\
   forall v, In v l -> is_prefix v content -> length v <= n).
Proof.
  revert a n. induction l as [|e l IH]; intros a n; cbn [fold_left].
  - split; [intros ->; repeat split; [lia|auto|intros v []]|].
    intros (_ & [->|(w & [] & _)] & _). reflexivity.
  - rewrite IH. unfold cstep at 1 2. destruct (has_prefix e content) eqn:HP.
    + pose proof (proj1 (has_prefix_is_prefix e content) HP) as HP'.
      destruct (Nat.leb_spec a (length e)) as [L|L].
      * split.
        -- intros (A & B & C). repeat split; [lia| |intros v [<-|Hv] Hp; [lia|auto]].
           destruct B as [->|(w & Hw & Hp & E)]; [right; exists e|right; exists w]; cbn; auto.
        -- intros (A & B & C). repeat split; [apply C; cbn; auto| |intros v Hv; apply C; cbn; auto].
           destruct B as [->|(w & [->|Hw] & Hp & E)]; [left; specialize (C e (or_introl eq_refl) HP'); lia|auto|right; exists w; auto].
      * split.
        -- intros (A & B & C). repeat split; [lia| |intros v [<-|Hv] Hp; [lia|auto]].
           destruct B as [->|(w & Hw & Hp & E)]; [auto|right; exists w; cbn; auto].
        -- intros (A & B & C). repeat split; [lia| |intros v Hv; apply C; cbn; auto].
           destruct B as [->|(w & [->|Hw] & Hp & E)]; [auto|left; lia|right; exists w; auto].
    + assert (NP : ~ is_prefix e content) by (rewrite <- has_prefix_is_prefix, HP; discriminate).
      split.
      * intros (A & B & C). repeat split; [lia| |intros v [<-|Hv] Hp; [contradiction|auto]].
        destruct B as [->|(w & Hw & Hp & E)]; [auto|right; exists w; cbn; auto].
      * intros (A & B & C). repeat split; [lia| |intros v Hv; apply C; cbn; auto].
        destruct B as [->|(w & [->|Hw] & Hp & E)]; [auto|contradiction|right; exists w; auto].
Qed.

(* C31 *)
Lemma contains_pos g t n : n <> 0 ->
  (contains g t = n <-> exists w, longest_word g t w /\ length w = n).
Proof.
  intros Hn. unfold contains. change (fun (longest : nat) (e : bytes) => _) with (cstep t). rewrite fold_contains. split.
  - intros (_ & [->|(w & Hw & Hp & E)] & C); [lia|]. exists w. split; [|exact E].
    repeat split; auto; [intros ->; cbn in E; lia|]. intros v Hv Hvp. rewrite E. auto.
  - intros (w & (Hne & Hw & Hp & C) & E). subst n. repeat split; [lia|right; exists w; auto|auto].
Qed.
Lemma contains_zero g t : contains g t = 0 <-> no_word g t.
Proof.
  unfold contains. change (fun (longest : nat) (e : bytes) => _) with (cstep t). rewrite fold_contains. split.
  - intros (_ & _ & C) v Hv Hp. specialize (C v Hv Hp). destruct v; [reflexivity|cbn in C; lia].
  - intros C. repeat split; auto. intros v Hv Hp. rewrite (C v Hv Hp). auto.
Qed.
Lemma contains_longest g t w : longest_word g t w -> contains g t = length w.
Proof. intros H. apply contains_pos; [destruct H as [H _]; destruct w; [contradiction|discriminate]|]. exists w. auto. Qed.
Lemma contains_cases g t : (contains g t = 0 /\ no_word g t) \/
  (exists w, longest_word g t w /\ contains g t = length w /\ contains g t <> 0).
Proof.
  destruct (Nat.eq_dec (contains g t) 0) as [E|E]; [left; split; [exact E|apply contains_zero; exact E]|].
  right. destruct (proj1 (contains_pos g t _ E) eq_refl) as (w & H & L). exists w. auto.
Qed.
Lemma longest_unique g t v w : longest_word g t v -> longest_word g t w -> v = w.
Proof.
  intros (_ & A & B & C) (_ & A' & B' & C'). apply (prefix_same_length v w t B B').
  specialize (C w A' B'). specialize (C' v A B). lia.
Qed.
Lemma longest_no_word g t w : longest_word g t w -> no_word g t -> False.
Proof. intros (N & A & B & _) H. apply N. apply (H w A B). Qed.

Lemma reverse_le g t : reverse_amount g t <= length t.
Proof. induction t as [|c t IH]; [apply le_n|]. cbn [reverse_amount length]. destruct (_ =? 0); lia. Qed.
Lemma reverse_skips g t : skips g t (firstn (reverse_amount g t) t) (skipn (reverse_amount g t) t).
Proof.
  split; [symmetry; apply firstn_skipn|].
  induction t as [|c t [IH1 IH2]].
  - split; [|auto]. intros a b E Hb. cbn in E. symmetry in E. apply app_eq_nil in E. tauto.
  - cbn [reverse_amount]. destruct (Nat.eqb_spec (contains g (c :: t)) 0) as [E|E].
    + cbn [firstn skipn]. split; [|exact IH2]. intros a b Eab Hb.
      destruct a as [|x a].
      * cbn in Eab. subst b. rewrite <- app_comm_cons, firstn_skipn. apply contains_zero. exact E.
      * injection Eab as -> Eab. eapply IH1; eauto.
    + cbn [firstn skipn]. split; [intros a b Eab Hb; symmetry in Eab; apply app_eq_nil in Eab; tauto|].
      right. destruct (contains_cases g (c :: t)) as [[Z _]|(w & H & _)]; [contradiction|]. exists w. exact H.
Qed.
Lemma skips_unique g t w r w' r' : skips g t w r -> skips g t w' r' -> w = w' /\ r = r'.
Proof.
  revert t w'. induction w as [|c w IH]; intros t w' (E & A & B) (E' & A' & B').
  - destruct w' as [|c w']; [cbn in *; split; [reflexivity|congruence]|]. exfalso. cbn [app] in E. subst r. destruct B as [->|(v & Hv)]; [discriminate|].
    apply (longest_no_word _ _ _ Hv). rewrite E'. apply (A' [] (c :: w') eq_refl). discriminate.
  - destruct w' as [|c' w'].
    + exfalso. cbn [app] in E'. subst r'. destruct B' as [->|(v & Hv)]; [discriminate|].
      apply (longest_no_word _ _ _ Hv). rewrite E. apply (A [] (c :: w) eq_refl). discriminate.
    + rewrite E in E'. injection E' as -> E'. destruct (IH (w ++ r) w') as [-> ->]; auto.
      * split; [reflexivity|]. split; [|exact B]. intros a b -> Hb. apply (A (c' :: a) b eq_refl Hb).
      * split; [exact E'|]. split; [|exact B']. intros a b -> Hb. apply (A' (c' :: a) b eq_refl Hb).
Qed.
Lemma reverse_amount_exact g t n : reverse_amount g t = n <-> exists w rest, skips g t w rest /\ length w = n.
Proof.
  split.
  - intros <-. eexists _, _. split; [apply reverse_skips|]. rewrite firstn_length_le; [reflexivity|apply reverse_le].
  - intros (w & rest & H & <-). destruct (skips_unique _ _ _ _ _ _ H (reverse_skips g t)) as [E _].
    rewrite E, firstn_length_le; [reflexivity|apply reverse_le].
Qed.

(* ---- series ---- *)
Lemma new_discovery_ok i w c : w <> [] -> new_discovery i w c = Ok (stamp i (w, c)).
Proof. intros H. destruct w; [contradiction|reflexivity]. Qed.

(* outcome of the serie loop *)
Lemma match_serie_reads gs i acc t ws rest : reads gs t ws rest ->
  match_serie_loop gs i acc t = (true, acc ++ map (stamp i) (combine ws (map CGroup gs)), None, rest).
Proof.
  intros H. revert acc. induction H as [t|g gs w t' ws rest Hw H IH]; intros acc.
  - cbn. rewrite app_nil_r. reflexivity.
  - cbn [match_serie_loop]. pose proof Hw as (Hne & _). destruct (w ++ t') as [|c r] eqn:E; [apply app_eq_nil in E; tauto|].
    rewrite <- E in *. unfold matches_group. rewrite (contains_longest _ _ _ Hw).
    destruct (Nat.leb_spec (length w) 0) as [L|L]; [destruct w; [contradiction|cbn in L; lia]|].
    rewrite firstn_app, Nat.sub_diag, firstn_all, skipn_app, Nat.sub_diag, skipn_all. cbn [firstn skipn app]. rewrite app_nil_r.
    rewrite new_discovery_ok by exact Hne. rewrite IH. cbn. rewrite <- app_assoc. reflexivity.
Qed.
Lemma reads_cons_inv g gs t ws rest : reads (g :: gs) t ws rest ->
  exists w t' ws', t = w ++ t' /\ ws = w :: ws' /\ longest_word g t w /\ reads gs t' ws' rest.
Proof. intros H. remember (g :: gs) as l eqn:El. destruct H as [t|g' gs' w t' ws' rest Hw H]; [discriminate|]. injection El as -> ->. eauto 8. Qed.
Lemma match_serie_inv gs i acc t : match fst (fst (fst (match_serie_loop gs i acc t))) with
  | true => exists ws rest, reads gs t ws rest
  | false => forall ws rest, ~ reads gs t ws rest end.
Proof.
  revert acc t. induction gs as [|g gs IH]; intros acc t; cbn [match_serie_loop]; [exists [], t; constructor|].
  destruct t as [|c r] eqn:Et; cbn [fst].
  - intros ws rest H. apply reads_cons_inv in H. destruct H as (w & t' & ws' & E & _ & (N & _) & _).
    symmetry in E. apply app_eq_nil in E. tauto.
  - rewrite <- Et. unfold matches_group. destruct (contains_cases g t) as [[Z NW]|(w & Hw & E & NZ)].
    + rewrite Z. cbn. intros ws rest H. apply reads_cons_inv in H. destruct H as (w & t' & ws' & E & _ & Hw & _). eapply longest_no_word; eauto.
    + destruct (Nat.leb_spec (contains g t) 0) as [L|L]; [lia|]. rewrite E.
      pose proof Hw as (Hne & _ & Hp & _). rewrite (prefix_firstn _ _ Hp). rewrite new_discovery_ok by exact Hne.
      destruct Hp as [s Es]. rewrite Es in *. rewrite skipn_app, Nat.sub_diag, skipn_all. cbn [skipn app].
      match goal with |- context [match_serie_loop gs i ?a ?b] => specialize (IH a b); destruct (match_serie_loop gs i a b) as [[[[] ?] ?] ?] end; cbn [fst] in *.
      * destruct IH as (ws & rest & H). exists (w :: ws), rest. constructor; assumption.
      * intros ws rest H. apply reads_cons_inv in H. destruct H as (w' & t' & ws' & E2 & _ & Hw' & Hr).
        rewrite (longest_unique _ _ _ _ Hw' Hw) in E2. apply app_inv_head in E2. subst. eapply IH; eauto.
Qed.

(* a failed serie leaves a suffix *)
Lemma match_serie_suffix gs i acc t : exists w, t = w ++ snd (match_serie_loop gs i acc t).
Proof.
  revert acc t. induction gs as [|g gs IH]; intros acc t; cbn [match_serie_loop]; [exists []; reflexivity|].
  destruct t as [|c r] eqn:Et; [exists []; reflexivity|]. rewrite <- Et.
  destruct (_ <=? 0); [exists []; reflexivity|].
  destruct (new_discovery i (firstn (matches_group g t false) t) (CGroup g)); [|exists t; cbn; rewrite app_nil_r; reflexivity..].
  destruct (IH (acc ++ [a]) (skipn (matches_group g t false) t)) as [w Hw].
  exists (firstn (matches_group g t false) t ++ w). rewrite <- app_assoc, <- Hw, firstn_skipn. reflexivity.
Qed.

(* ---- choices ---- *)
Lemma choice_reads_fwd s t x rest : choice_reads {| ch_serie := s; ch_reverse := false |} t x rest <->
  exists ws, reads (s_list s) t ws rest /\ x = combine ws (map CGroup (s_list s)).
Proof. split; [intros H; inversion H; subst; eauto|intros (ws & H & ->); constructor; exact H]. Qed.
Lemma choice_reads_rev s t x rest : choice_reads {| ch_serie := s; ch_reverse := true |} t x rest <->
  exists g gs w, s_list s = g :: gs /\ skips g t w rest /\ w <> [] /\ x = [(w, CReverse s)].
Proof. split; [intros H; inversion H; subst; do 3 eexists; eauto|intros (g & gs & w & E & H & N & ->); econstructor; eauto]. Qed.

Lemma match_choice_reads c t i x rest : choice_reads c t x rest ->
  exists g, match_choice c t i = Ok (true, map (stamp i) x, g, rest).
Proof.
  destruct c as [s []]; unfold match_choice; cbn [ch_reverse ch_serie].
  - rewrite choice_reads_rev. intros (g & gs & w & E & H & N & ->). exists (Some g).
    unfold match_reversed_serie. rewrite E. unfold matches_group.
    assert (R : reverse_amount g t = length w) by (apply reverse_amount_exact; eauto). rewrite R.
    destruct H as (-> & _). destruct (Nat.leb_spec (length w) 0) as [L|L]; [destruct w; [contradiction|cbn in L; lia]|].
    rewrite firstn_app, Nat.sub_diag, firstn_all, skipn_app, Nat.sub_diag, skipn_all. cbn [firstn skipn app]. rewrite app_nil_r.
    rewrite new_discovery_ok by exact N. reflexivity.
  - rewrite choice_reads_fwd. intros (ws & H & ->). exists None. unfold match_serie. rewrite (match_serie_reads _ i [] _ _ _ H). reflexivity.
Qed.
Lemma match_choice_cases c t i : serie_ok (ch_serie c) = true ->
  (exists x rest, choice_reads c t x rest) \/
  ((forall x rest, ~ choice_reads c t x rest) /\ exists ds g rem, match_choice c t i = Ok (false, ds, g, rem)
    /\ (ch_reverse c = false -> match_serie_loop (s_list (ch_serie c)) i [] t = (false, ds, g, rem))
    /\ (ch_reverse c = true -> ds = [] /\ g = None /\ rem = [])).
Proof.
  intros Hok. destruct c as [s []]; unfold match_choice; cbn [ch_reverse ch_serie] in *.
  - unfold match_reversed_serie. destruct (s_list s) as [|g gs] eqn:E.
    { unfold serie_ok in Hok. rewrite E in Hok. cbn in Hok. rewrite andb_false_r in Hok. discriminate. }
    unfold matches_group. pose proof (reverse_skips g t) as HS.
    destruct (Nat.leb_spec (reverse_amount g t) 0) as [L|L].
    + right. split.
      * intros x rest H. apply choice_reads_rev in H. destruct H as (g' & gs' & w & E' & H & N & _).
        rewrite E in E'. injection E' as -> ->. assert (R : reverse_amount g' t = length w) by (apply reverse_amount_exact; eauto).
        destruct w; [contradiction|cbn in R; lia].
      * eexists [], None, []. repeat split; intros; discriminate.
    + left. eexists _, _. apply choice_reads_rev. exists g, gs, (firstn (reverse_amount g t) t).
      split; [exact E|]. split; [exact HS|]. split; [|reflexivity].
      pose proof (reverse_le g t). intros F. apply (f_equal (@length _)) in F. rewrite firstn_length_le in F by assumption. cbn in F. lia.
  - pose proof (match_serie_inv (s_list s) i [] t) as H. unfold match_serie.
    destruct (match_serie_loop (s_list s) i [] t) as [[[b ds] g] rem]. cbn [fst] in H. destruct b.
    + left. destruct H as (ws & rest & H). eexists _, _. apply choice_reads_fwd. eauto.
    + right. split; [intros x rest Hc; apply choice_reads_fwd in Hc; destruct Hc as (ws & Hr & _); eapply H; eauto|].
      exists ds, g, rem. repeat split; intros; discriminate || reflexivity.
Qed.
Lemma reads_unique gs t ws r ws' r' : reads gs t ws r -> reads gs t ws' r' -> ws = ws' /\ r = r'.
Proof.
  intros H. revert ws' r'. induction H as [t|g gs w t' ws rest Hw H IH]; intros ws' r' H'; [inversion H'; subst; auto|].
  apply reads_cons_inv in H'. destruct H' as (w' & t'' & ws'' & E2 & -> & Hw' & Hr').
  rewrite (longest_unique _ _ _ _ Hw' Hw) in *. apply app_inv_head in E2. subst.
  destruct (IH _ _ Hr') as [-> ->]. auto.
Qed.
Lemma choice_reads_unique c t x r x' r' : choice_reads c t x r -> choice_reads c t x' r' -> x = x' /\ r = r'.
Proof.
  destruct c as [s []].
  - rewrite !choice_reads_rev. intros (g & gs & w & E & H & N & ->) (g' & gs' & w' & E' & H' & N' & ->).
    rewrite E in E'. injection E' as <- <-. destruct (skips_unique _ _ _ _ _ _ H H') as [-> ->]. auto.
  - rewrite !choice_reads_fwd. intros (ws & H & ->) (ws' & H' & ->). destruct (reads_unique _ _ _ _ _ _ H H') as [-> ->]. auto.
Qed.
Lemma reads_text gs t ws rest : reads gs t ws rest -> t = concat ws ++ rest /\ length ws = length gs /\ Forall (fun w => w <> []) ws.
Proof.
  intros H. induction H as [t|g gs w t' ws rest Hw H [E [L F]]]; [auto|]. cbn. rewrite E at 1. rewrite app_assoc. repeat split; [lia|].
  constructor; [apply Hw|exact F].
Qed.
Lemma map_fst_combine {A B} (l : list A) (m : list B) : length l = length m -> map fst (combine l m) = l.
Proof. revert m; induction l as [|x l IH]; intros [|y m] E; try discriminate; [reflexivity|]. cbn. rewrite IH; [reflexivity|cbn in E; lia]. Qed.
Lemma choice_reads_text c t x rest : choice_reads c t x rest ->
  t = concat (map fst x) ++ rest /\ Forall (fun y => fst y <> []) x.
Proof.
  destruct c as [s []].
  - rewrite choice_reads_rev. intros (g & gs & w & E & (Ht & _) & N & ->). cbn. rewrite app_nil_r. auto.
  - rewrite choice_reads_fwd. intros (ws & H & ->). apply reads_text in H. destruct H as (E & L & F).
    rewrite map_fst_combine by (rewrite map_length; exact L). split; [exact E|].
    apply Forall_forall. intros [w k] Hin. apply in_combine_l in Hin. rewrite Forall_forall in F. cbn. auto.
Qed.
Lemma choice_reads_nonempty c t x rest : serie_ok (ch_serie c) = true -> choice_reads c t x rest -> x <> [].
Proof.
  intros Hok. destruct c as [s []].
  - rewrite choice_reads_rev. intros (g & gs & w & E & _ & N & ->). discriminate.
  - rewrite choice_reads_fwd. intros (ws & H & ->). unfold serie_ok in Hok. cbn in Hok.
    inversion H as [t' E1|g gs w t' ws' rest' Hw H' E1]; subst; [|discriminate]. rewrite <- E1, andb_false_r in Hok. discriminate.
Qed.

(* ---- patterns ---- *)
Lemma pattern_ok_series p : pattern_ok p = true -> Forall (fun c => serie_ok (ch_serie c) = true) (p_list p) /\ p_list p <> [].
Proof.
  unfold pattern_ok. intros H. apply andb_prop in H. destruct H as [H F]. apply andb_prop in H. destruct H as [_ N].
  split; [rewrite forallb_forall in F; apply Forall_forall; exact F|]. destruct (p_list p); discriminate.
Qed.
Definition idx_stamp (idx i : nat) : nat := if idx <=? 0 then i else 0.
Fixpoint stamps_from (idx i : nat) (xs : list (list (bytes * container))) : list discovery :=
  match xs with [] => [] | x :: r => map (stamp (idx_stamp idx i)) x ++ stamps_from (S idx) i r end.
Lemma stamps_from_S idx i xs : stamps_from (S idx) i xs = map (stamp 0) (concat xs).
Proof. revert idx. induction xs as [|x xs IH]; intros idx; [reflexivity|]. cbn [stamps_from concat]. rewrite map_app, IH. reflexivity. Qed.
Lemma stamps_from_0 i xs : stamps_from 0 i xs = stamps i xs.
Proof. destruct xs; [reflexivity|]. cbn [stamps_from stamps]. rewrite stamps_from_S. reflexivity. Qed.

Lemma choices_read_total cs t : Forall (fun c => serie_ok (ch_serie c) = true) cs ->
  exists xs rest left, choices_read cs t xs rest left.
Proof.
  revert t. induction cs as [|c cs IH]; intros t F; [exists [], t, []; constructor|].
  inversion F as [|? ? Hc Hcs]; subst. destruct (match_choice_cases c t 0 Hc) as [(x & rest & H)|[H _]].
  - destruct (IH rest Hcs) as (xs & rest' & left & H'). exists (x :: xs), rest', left. econstructor; eauto.
  - exists [], t, (c :: cs). constructor. exact H.
Qed.
Lemma choices_read_unique cs t xs r l xs' r' l' : choices_read cs t xs r l -> choices_read cs t xs' r' l' -> xs = xs' /\ r = r' /\ l = l'.
Proof.
  intros H. revert xs' r' l'. induction H as [t|c cs t N|c cs t x t' xs rest left Hc H IH]; intros xs' r' l' H'; inversion H'; subst; auto.
  - exfalso. eapply N; eauto.
  - exfalso. match goal with Hn : forall _ _, ~ _ |- _ => eapply Hn; eauto end.
  - match goal with H2 : choice_reads c t ?y ?z |- _ => destruct (choice_reads_unique _ _ _ _ _ _ Hc H2) as [-> ->] end.
    match goal with H2 : choices_read cs _ ?y ?z ?w |- _ => destruct (IH _ _ _ H2) as (-> & -> & ->) end. auto.
Qed.
Lemma match_choices_read cs idx i acc t xs rest left : Forall (fun c => serie_ok (ch_serie c) = true) cs ->
  choices_read cs t xs rest left ->
  exists nx rem, match_choices cs idx i acc t = Ok (acc ++ stamps_from idx i xs, nx, rem) /\
    (left = [] -> rem = rest /\ nx = None) /\
    (forall c l, left = c :: l -> match_choice c rest (idx_stamp (idx + length xs) i) =
       Ok (false, (match match_choice c rest (idx_stamp (idx + length xs) i) with Ok (_, d, _, _) => d | _ => [] end), option_map n_group nx, rem)
       /\ forall n, nx = Some n -> n_reverse n = ch_reverse c).
Proof.
  intros F H. revert idx acc F. induction H as [t|c cs t N|c cs t x t' xs rest left Hc H IH]; intros idx acc F; cbn [match_choices].
  - exists None, t. cbn. rewrite app_nil_r. split; [reflexivity|]. split; [auto|]. intros c l El. discriminate.
  - inversion F as [|? ? Hs Hcs]; subst. change (if idx <=? 0 then i else 0) with (idx_stamp idx i).
    destruct (match_choice_cases c t (idx_stamp idx i) Hs) as [(x & rest & Hx)|[_ (ds & g & rem & E & _)]]; [exfalso; eapply N; eauto|].
    rewrite E. cbn [bind stamps_from length]. rewrite Nat.add_0_r, app_nil_r. destruct g as [g|].
    + eexists _, _. split; [reflexivity|]. split; [discriminate|]. intros c' l El. injection El as <- <-. rewrite E. split; [reflexivity|].
      intros n En. injection En as <-. reflexivity.
    + eexists _, _. split; [reflexivity|]. split; [discriminate|]. intros c' l El. injection El as <- <-. rewrite E. split; [reflexivity|]. intros n En. discriminate.
  - inversion F as [|? ? Hs Hcs]; subst. change (if idx <=? 0 then i else 0) with (idx_stamp idx i).
    destruct (match_choice_reads c t (idx_stamp idx i) x t' Hc) as [g E]. rewrite E. cbn [bind].
    destruct (IH (S idx) (acc ++ map (stamp (idx_stamp idx i)) x) Hcs) as (nx & rem & E' & A & B).
    exists nx, rem. split; [rewrite E', <- app_assoc; reflexivity|]. split; [exact A|].
    cbn [length]. rewrite Nat.add_succ_r. exact B.
Qed.

Lemma choices_read_head c cs t xs rest left : choices_read (c :: cs) t xs rest left ->
  (xs <> [] <-> exists x r, choice_reads c t x r).
Proof.
  intros H. inversion H; subst.
  - split; [contradiction|]. intros (x & r & Hx). exfalso. match goal with Hn : forall _ _, ~ _ |- _ => eapply Hn; eauto end.
  - split; [eauto|discriminate].
Qed.

(* C33: exact result of a match *)
Lemma match_pattern_total p t i : pattern_ok p = true -> t <> [] ->
  match_pattern p t i = Ok None \/ exists r, match_pattern p t i = Ok (Some r).
Proof.
  intros Hok Ht. destruct (pattern_ok_series p Hok) as [F N]. destruct (choices_read_total _ t F) as (xs & rest & left & H).
  destruct (match_choices_read _ 0 i [] _ _ _ _ F H) as (nx & rem & E & _). unfold match_pattern. rewrite E. cbn [bind app].
  destruct (stamps_from 0 i xs); [auto|]. right. destruct t; [contradiction|]. eexists. reflexivity.
Qed.
Lemma match_pattern_some p t i r : pattern_ok p = true -> t <> [] ->
  match_pattern p t i = Ok (Some r) ->
  exists xs rest left, choices_read (p_list p) t xs rest left /\ xs <> [] /\
    r_input r = t /\ r_disc r = stamps i xs /\ (left = [] -> r_rem r = rest /\ r_next r = None).
Proof.
  intros Hok Ht. destruct (pattern_ok_series p Hok) as [F N]. destruct (choices_read_total _ t F) as (xs & rest & left & H).
  destruct (match_choices_read _ 0 i [] _ _ _ _ F H) as (nx & rem & E & A & _). unfold match_pattern. rewrite E. cbn [bind app].
  rewrite stamps_from_0. destruct (stamps i xs) eqn:Es; [discriminate|]. destruct t; [contradiction|]. cbn [bind new_presult].
  intros Er. injection Er as <-. exists xs, rest, left. cbn [r_input r_disc r_rem r_next]. split; [exact H|]. split; [intros ->; discriminate|]. auto.
Qed.
Lemma match_pattern_here p t i : pattern_ok p = true -> t <> [] ->
  ((exists r, match_pattern p t i = Ok (Some r)) <-> matches_here p t).
Proof.
  intros Hok Ht. destruct (pattern_ok_series p Hok) as [F N]. unfold matches_here. destruct (p_list p) as [|c cs] eqn:Ep; [contradiction|]. rewrite <- Ep in *.
  split.
  - intros [r E]. destruct (match_pattern_some p t i r Hok Ht E) as (xs & rest & left & H & Nx & _).
    rewrite Ep in H. apply (choices_read_head _ _ _ _ _ _ H) in Nx. destruct Nx as (x & r' & Hx). eauto 6.
  - intros (c' & cs' & x & rest & E & Hx). rewrite Ep in E. injection E as <- <-.
    destruct (match_pattern_total p t i Hok Ht) as [E|E]; [exfalso|exact E].
    destruct (choices_read_total _ t F) as (xs & rest' & left & H).
    destruct (match_choices_read _ 0 i [] _ _ _ _ F H) as (nx & rem & E' & _). unfold match_pattern in E. rewrite E' in E. cbn [bind app] in E.
    rewrite Ep in H. assert (Nx : xs <> []) by (apply (choices_read_head _ _ _ _ _ _ H); eauto).
    rewrite Ep in F. inversion F as [|? ? Hs Hcs]; subst. inversion H; subst; [contradiction|].
    match goal with Hc : choice_reads c t ?y ?z |- _ => pose proof (choice_reads_nonempty _ _ _ _ Hs Hc) as Ny end.
    destruct x0 as [|y ys]; [contradiction|]. cbn in E. destruct t; [contradiction|]. discriminate.
Qed.
Lemma stamps_content i xs : disc_content (stamps i xs) = concat (map fst (concat xs)).
Proof.
  unfold disc_content. assert (J : forall l, join [] l = concat l).
  { induction l as [|a [|b l] IH]; [reflexivity|cbn; rewrite app_nil_r; reflexivity|]. change (join [] (a :: b :: l)) with (a ++ [] ++ join [] (b :: l)). rewrite IH. reflexivity. }
  rewrite J. f_equal. destruct xs as [|x xs]; [reflexivity|]. cbn [stamps concat]. rewrite !map_app, !map_map. reflexivity.
Qed.
Lemma choices_read_text cs t xs rest left : choices_read cs t xs rest left -> t = concat (map fst (concat xs)) ++ rest.
Proof.
  intros H. induction H as [t|c cs t N|c cs t x t' xs rest left Hc H IH]; [reflexivity..|].
  cbn [concat]. rewrite map_app, concat_app, <- app_assoc, <- IH. apply choice_reads_text in Hc. apply Hc.
Qed.
Lemma match_serie_stops gs i acc t ds g rem : match_serie_loop gs i acc t = (false, ds, g, rem) ->
  exists g', g = Some g' /\ stops_at gs t g' rem.
Proof.
  revert acc t. induction gs as [|g0 gs IH]; intros acc t; cbn [match_serie_loop]; [discriminate|].
  destruct t as [|c r] eqn:Et.
  - intros E. injection E as _ <- <-. exists g0. split; [reflexivity|]. exists [], gs, []. split; [reflexivity|]. split; [constructor|].
    intros v _ [s E]. symmetry in E. apply app_eq_nil in E. tauto.
  - rewrite <- Et. unfold matches_group. destruct (contains_cases g0 t) as [[Z NW]|(w & Hw & E & NZ)].
    + rewrite Z. cbn. intros E. injection E as _ <- <-. exists g0. split; [reflexivity|]. exists [], gs, []. split; [reflexivity|]. split; [constructor|exact NW].
    + destruct (Nat.leb_spec (contains g0 t) 0) as [L|L]; [lia|]. rewrite E.
      pose proof Hw as (Hne & _ & Hp & _). rewrite (prefix_firstn _ _ Hp). rewrite new_discovery_ok by exact Hne.
      destruct Hp as [s Es]. rewrite Es in *. rewrite skipn_app, Nat.sub_diag, skipn_all. cbn [skipn app].
      intros Em. destruct (IH _ _ Em) as (g' & Eg & before & after & ws & -> & Hr & NW).
      exists g'. split; [exact Eg|]. exists (g0 :: before), after, (w :: ws). split; [reflexivity|]. split; [constructor; assumption|exact NW].
Qed.
Lemma match_pattern_exact p t i r : pattern_ok p = true -> t <> [] ->
  (match_pattern p t i = Ok (Some r) <->
   exists xs rest left, choices_read (p_list p) t xs rest left /\ xs <> [] /\
     r_input r = t /\ r_disc r = stamps i xs /\ leftover rest left (r_rem r) (r_next r)).
Proof.
  intros Hok Ht. destruct (pattern_ok_series p Hok) as [F N].
  assert (D : forall r', match_pattern p t i = Ok (Some r') -> exists xs rest left, choices_read (p_list p) t xs rest left /\ xs <> [] /\
     r_input r' = t /\ r_disc r' = stamps i xs /\ leftover rest left (r_rem r') (r_next r')).
  { intros r'. destruct (choices_read_total _ t F) as (xs & rest & left & H).
    assert (Fl : Forall (fun c => serie_ok (ch_serie c) = true) left).
    { clear -H F. induction H; auto. apply IHchoices_read. inversion F; assumption. }
    destruct (match_choices_read _ 0 i [] _ _ _ _ F H) as (nx & rem & E & A & B). unfold match_pattern. rewrite E. cbn [bind app].
    rewrite stamps_from_0. destruct (stamps i xs) eqn:Es; [discriminate|]. destruct t as [|c0 t0] eqn:Et; [contradiction|]. rewrite <- Et in *. cbn [bind new_presult].
    intros Er. replace (new_presult t (d :: l) rem nx) with (Ok {| r_input := t; r_disc := d :: l; r_rem := rem; r_next := nx |}) in Er by (rewrite Et; reflexivity).
    cbn [bind] in Er. injection Er as <-.
    exists xs, rest, left. cbn [r_input r_disc r_rem r_next]. split; [exact H|]. split; [intros ->; discriminate|]. split; [reflexivity|]. split; [symmetry; exact Es|].
    unfold leftover. destruct left as [|c left]; [apply A; reflexivity|]. destruct (B c left eq_refl) as [Bc Bn]. inversion Fl as [|? ? Hs _]; subst.
    destruct (match_choice_cases c rest (idx_stamp (0 + length xs) i) Hs) as [(x & r0 & Hx)|[_ (ds & g & rem' & Em & C1 & C2)]].
    { exfalso. destruct (match_choice_reads c rest (idx_stamp (0 + length xs) i) x r0 Hx) as [g Eg]. rewrite Eg in Bc. discriminate. }
    rewrite Em in Bc. injection Bc as Bg <-. destruct (ch_reverse c).
    - destruct (C2 eq_refl) as (_ & -> & ->). split; [reflexivity|]. destruct nx; [discriminate|reflexivity].
    - destruct (match_serie_stops _ _ _ _ _ _ _ (C1 eq_refl)) as (g' & -> & Hst). exists g'. split; [exact Hst|].
      destruct nx as [[rv gn]|]; [|discriminate]. cbn in Bg. injection Bg as <-. specialize (Bn _ eq_refl). cbn in Bn. subst rv. reflexivity. }
  split; [apply D|].
  intros (xs & rest & left & H & Nx & E1 & E2 & L). destruct (match_pattern_total p t i Hok Ht) as [E|[r' E]].
  - exfalso. assert (M : matches_here p t).
    { unfold matches_here. destruct (p_list p) as [|c cs] eqn:Ep; [contradiction|]. apply (choices_read_head _ _ _ _ _ _ H) in Nx. destruct Nx as (x & r' & Hx). eauto 6. }
    apply (match_pattern_here p t i Hok Ht) in M. destruct M as [r' M]. congruence.
  - rewrite E. f_equal. f_equal. destruct (D r' E) as (xs' & rest' & left' & H' & _ & E1' & E2' & L').
    destruct (choices_read_unique _ _ _ _ _ _ _ _ H H') as (-> & -> & ->).
    assert (U : r_rem r' = r_rem r /\ r_next r' = r_next r).
    { unfold leftover in L, L'. destruct left' as [|c left']; [destruct L, L'; split; congruence|].
      destruct (ch_reverse c); [destruct L, L'; split; congruence|].
      destruct L as (g & (b & a & ws & Es & Hr & NW) & En), L' as (g' & (b' & a' & ws' & Es' & Hr' & NW') & En').
      rewrite En, En'. clear -Es Es' Hr Hr' NW NW'. remember (s_list (ch_serie c)) as gs eqn:Eg. clear Eg c.
      revert gs b' ws' rest' Es Es' Hr Hr'. revert ws. induction b as [|x b IH]; intros ws gs b' ws' rest' Es Es' Hr Hr'.
      - inversion Hr; subst. destruct b' as [|y b']; [inversion Hr'; subst; injection Es' as -> ->; auto|].
        injection Es' as -> ->. apply reads_cons_inv in Hr'. destruct Hr' as (w & t' & ws'' & _ & _ & Hw & _). exfalso. eapply longest_no_word; eauto.
      - apply reads_cons_inv in Hr. destruct Hr as (w & t' & ws1 & -> & -> & Hw & Hr). subst gs. destruct b' as [|y b'].
        + injection Es' as <- _. assert (E0 : r_rem r' = w ++ t') by (inversion Hr'; congruence). rewrite E0 in NW'. exfalso. eapply longest_no_word; eauto.
        + injection Es' as -> Es'. apply reads_cons_inv in Hr'. destruct Hr' as (w' & t'' & ws2 & Et & -> & Hw' & Hr').
          rewrite (longest_unique _ _ _ _ Hw' Hw) in Et. apply app_inv_head in Et. subst. eapply IH; eauto. }
    destruct r as [ri rd rr rn], r' as [ri' rd' rr' rn']. cbn in *. destruct U as [-> ->]. congruence.
Qed.


(* ---- searching ---- *)
Lemma from_pattern_loop_spec p t i r : pattern_ok p = true ->
  (from_pattern_loop p t i = Ok r <-> exists k, first_offset (matches_here p) t k /\ match_pattern p (skipn k t) (i + k) = Ok (Some r)).
Proof.
  intros Hok. revert i. induction t as [|c t IH]; intros i; cbn [from_pattern_loop].
  - split; [discriminate|]. intros (k & (L & _) & _). cbn in L. lia.
  - assert (Ht : c :: t <> []) by discriminate. pose proof (match_pattern_here p (c :: t) i Hok Ht) as HM.
    destruct (match_pattern_total p (c :: t) i Hok Ht) as [E|[r' E]]; rewrite E; cbn [bind].
    + assert (NM : ~ matches_here p (c :: t)) by (rewrite <- HM, E; intros [r' E']; discriminate).
      rewrite IH. split.
      * intros (k & (L & P & J) & M). exists (S k). split; [|rewrite Nat.add_succ_r; exact M]. split; [cbn; lia|]. split; [exact P|].
        intros [|j] Hj; [exact NM|]. apply J. lia.
      * intros ([|k] & (L & P & J) & M); [contradiction|]. exists k. split; [|rewrite Nat.add_succ_r in M; exact M]. split; [cbn in L; lia|]. split; [exact P|].
        intros j Hj. apply (J (S j)). lia.
    + assert (Y : matches_here p (c :: t)) by (apply HM; eauto). split.
      * intros Er. injection Er as <-. exists 0. rewrite Nat.add_0_r. split; [|exact E]. split; [cbn; lia|]. split; [exact Y|]. intros j Hj; lia.
      * intros ([|k] & (L & P & J) & M); [rewrite Nat.add_0_r in M; cbn [skipn] in M; congruence|]. exfalso. apply (J 0); [lia|exact Y].
Qed.
Lemma from_pattern_exact p t r : pattern_ok p = true ->
  (from_pattern_to_result p t = Ok r <-> exists k, first_offset (matches_here p) t k /\ match_pattern p (skipn k t) k = Ok (Some r)).
Proof. intros Hok. apply (from_pattern_loop_spec p t 0 r Hok). Qed.
Lemma from_pattern_loop_total p t i : pattern_ok p = true -> from_pattern_loop p t i = Err \/ exists r, from_pattern_loop p t i = Ok r.
Proof.
  intros Hok. revert i. induction t as [|c t IH]; intros i; cbn [from_pattern_loop]; [auto|].
  destruct (match_pattern_total p (c :: t) i Hok ltac:(discriminate)) as [E|[r' E]]; rewrite E; cbn [bind]; eauto.
Qed.
Lemma matches_here_dec p t : pattern_ok p = true -> t <> [] -> matches_here p t \/ ~ matches_here p t.
Proof.
  intros Hok Ht. rewrite <- (match_pattern_here p t 0 Hok Ht). destruct (match_pattern_total p t 0 Hok Ht) as [E|[r E]]; [right|left; eauto].
  rewrite E. intros [r' F]. discriminate.
Qed.
Lemma from_pattern_err p t : pattern_ok p = true ->
  (from_pattern_to_result p t = Err <-> forall k, k < length t -> ~ matches_here p (skipn k t)).
Proof.
  intros Hok. split.
  - intros E k. induction k as [k IH] using lt_wf_ind. intros L M.
    assert (Nk : skipn k t <> []) by (intros F; apply (f_equal (@length _)) in F; rewrite skipn_length in F; cbn in F; lia).
    destruct (proj2 (match_pattern_here p (skipn k t) k Hok Nk) M) as [r Hr].
    assert (Z : from_pattern_to_result p t = Ok r).
    { apply from_pattern_exact; [exact Hok|]. exists k. split; [|exact Hr]. split; [exact L|]. split; [exact M|]. intros j Hj. apply IH; lia. }
    congruence.
  - intros H. destruct (from_pattern_loop_total p t 0 Hok) as [E|[r E]]; [exact E|]. exfalso.
    apply (from_pattern_exact p t r Hok) in E. destruct E as (k & (L & M & _) & _). exact (H k L M).
Qed.
Lemma match_pattern_index p t i r : pattern_ok p = true -> t <> [] -> match_pattern p t i = Ok (Some r) -> disc_index (r_disc r) = Ok i.
Proof.
  intros Hok Ht E. destruct (pattern_ok_series p Hok) as [F N]. apply match_pattern_exact in E; auto. destruct E as (xs & rest & left & H & Nx & _ & -> & _).
  inversion H as [|c cs t' Hn|c cs t' x t'' xs' rest' left' Hc H' E1]; subst; [contradiction..|]. rewrite <- E1 in F. inversion F as [|? ? Hs _]; subst.
  apply choice_reads_nonempty in Hc; [|exact Hs]. destruct x; [contradiction|reflexivity].
Qed.
Lemma skipn_nonnil {A} k (t : list A) : k < length t -> skipn k t <> [].
Proof. intros L F. apply (f_equal (@length _)) in F. rewrite skipn_length in F. cbn in F. lia. Qed.
Lemma from_pattern_index p t r : pattern_ok p = true -> from_pattern_to_result p t = Ok r ->
  exists k, disc_index (r_disc r) = Ok k /\ first_offset (matches_here p) t k /\ r_input r = skipn k t.
Proof.
  intros Hok E. apply from_pattern_exact in E; [|exact Hok]. destruct E as (k & (L & M & J) & E). exists k.
  split; [eapply match_pattern_index; eauto using skipn_nonnil|]. split; [repeat split; assumption|].
  apply match_pattern_exact in E; auto using skipn_nonnil. destruct E as (xs & rest & left & _ & _ & E & _). exact E.
Qed.

(* several patterns: the smallest offset, the first listed on ties *)
Definition index_of (r : presult) : nat := match disc_index (r_disc r) with Ok k => k | _ => 0 end.
Lemma from_patterns_loop_spec ps t best : forallb pattern_ok ps = true ->
  (forall b r, best = Some (b, r) -> b = index_of r) ->
  exists o, from_patterns_loop ps t best = Ok o /\
   match o with
   | None => best = None /\ forall p, In p ps -> from_pattern_to_result p t = Err
   | Some r => (exists b, best = Some (b, r) /\ forall p r', In p ps -> from_pattern_to_result p t = Ok r' -> b <= index_of r')
       \/ (exists l1 p l2, ps = l1 ++ p :: l2 /\ from_pattern_to_result p t = Ok r /\
           (forall b r', best = Some (b, r') -> index_of r < b) /\
           (forall q r', In q l1 -> from_pattern_to_result q t = Ok r' -> index_of r < index_of r') /\
           (forall q r', In q l2 -> from_pattern_to_result q t = Ok r' -> index_of r <= index_of r'))
   end.
Proof.
  revert best. induction ps as [|p ps IH]; intros best Hok Hb; cbn [from_patterns_loop].
  - eexists. split; [reflexivity|]. destruct best as [[b r]|]; cbn; [left; exists b; split; [reflexivity|intros p r' []]|split; [reflexivity|intros p []]].
  - apply andb_prop in Hok. destruct Hok as [Hp Hps].
    destruct (from_pattern_loop_total p t 0 Hp) as [E|[r E]]; fold (from_pattern_to_result p t) in E; rewrite E.
    + destruct (IH best Hps Hb) as (o & Eo & Ho). exists o. split; [exact Eo|]. destruct o as [r|].
      * destruct Ho as [(b & Eb & M)|(l1 & q & l2 & -> & Eq & M1 & M2 & M3)].
        -- left. exists b. split; [exact Eb|]. intros q r' [<-|Hq] Eq; [congruence|eauto].
        -- right. exists (p :: l1), q, l2. repeat split; eauto. intros q' r' [<-|Hq] Eq'; [congruence|eauto].
      * destruct Ho as [-> M]. split; [reflexivity|]. intros q [<-|Hq]; auto.
    + destruct (from_pattern_index p t r Hp E) as (k & Ei & _ & _). rewrite Ei. cbn [bind].
      assert (Ek : index_of r = k) by (unfold index_of; rewrite Ei; reflexivity).
      assert (Take : (forall b r', best = Some (b, r') -> k < b) -> exists o, from_patterns_loop ps t (Some (k, r)) = Ok o /\
        match o with None => best = None /\ forall q, In q (p :: ps) -> from_pattern_to_result q t = Err
        | Some r0 => (exists b, best = Some (b, r0) /\ forall q r', In q (p :: ps) -> from_pattern_to_result q t = Ok r' -> b <= index_of r')
       \/ (exists l1 q l2, p :: ps = l1 ++ q :: l2 /\ from_pattern_to_result q t = Ok r0 /\
           (forall b r', best = Some (b, r') -> index_of r0 < b) /\
           (forall q r', In q l1 -> from_pattern_to_result q t = Ok r' -> index_of r0 < index_of r') /\
           (forall q r', In q l2 -> from_pattern_to_result q t = Ok r' -> index_of r0 <= index_of r')) end).
      { intros Hlt. destruct (IH (Some (k, r)) Hps) as (o & Eo & Ho); [intros b r' Eb; injection Eb as <- <-; auto|].
        exists o. split; [exact Eo|]. destruct o as [r0|]; [|destruct Ho; discriminate]. right.
        destruct Ho as [(b & Eb & M)|(l1 & q & l2 & -> & Eq & M1 & M2 & M3)].
        - injection Eb as <- <-. exists [], p, ps. repeat split; auto; [intros b r' Eb; rewrite Ek; eauto|intros q r' []|]. intros q r' Hq Eq. rewrite Ek. eauto.
        - exists (p :: l1), q, l2. specialize (M1 k r eq_refl). repeat split; auto.
          + intros b r' Eb. specialize (Hlt b r' Eb). lia.
          + intros q' r' [<-|Hq] Eq'; [assert (r' = r) by congruence; subst r'; lia|eauto]. }
      destruct best as [[b rb]|]; [|apply Take; discriminate].
      destruct (Nat.ltb_spec k b) as [L|L]; [apply Take; intros b' r' Eb; injection Eb as <- <-; exact L|].
      destruct (IH (Some (b, rb)) Hps Hb) as (o & Eo & Ho). exists o. split; [exact Eo|]. destruct o as [r0|]; [|destruct Ho; discriminate].
      destruct Ho as [(b' & Eb & M)|(l1 & q & l2 & -> & Eq & M1 & M2 & M3)].
      * left. exists b'. split; [exact Eb|]. injection Eb as <- <-. intros q r' [<-|Hq] Eq; [assert (r' = r) by congruence; subst r'; lia|eauto].
      * right. exists (p :: l1), q, l2. specialize (M1 b rb eq_refl). repeat split; auto.
        -- intros b' r' Eb. injection Eb as <- <-. exact M1.
        -- intros q' r' [<-|Hq] Eq'; [assert (r' = r) by congruence; subst r'; lia|eauto].
Qed.
Lemma from_patterns_ok ps t r : forallb pattern_ok ps = true -> from_patterns_to_result ps t = Ok r ->
  exists before p after k, ps = before ++ p :: after /\ from_pattern_to_result p t = Ok r /\ disc_index (r_disc r) = Ok k /\
    first_offset (matches_here p) t k /\
    (forall q j, In q before -> first_offset (matches_here q) t j -> k < j) /\
    (forall q j, In q after -> first_offset (matches_here q) t j -> k <= j).
Proof.
  intros Hok E. unfold from_patterns_to_result in E. destruct (from_patterns_loop_spec ps t None Hok ltac:(discriminate)) as (o & Eo & Ho).
  rewrite Eo in E. cbn [bind] in E. destruct o as [r'|]; [|discriminate]. injection E as ->.
  destruct Ho as [(b & Eb & _)|(l1 & p & l2 & -> & Ep & _ & M2 & M3)]; [discriminate|].
  assert (Op : pattern_ok p = true) by (rewrite forallb_forall in Hok; apply Hok, in_elt).
  destruct (from_pattern_index p t r Op Ep) as (k & Ei & Fo & _). exists l1, p, l2, k.
  assert (Ek : index_of r = k) by (unfold index_of; rewrite Ei; reflexivity). rewrite Ek in *.
  assert (Z : forall q j, In q (l1 ++ p :: l2) -> first_offset (matches_here q) t j -> exists r', from_pattern_to_result q t = Ok r' /\ index_of r' = j).
  { intros q j Hq Fj. assert (Oq : pattern_ok q = true) by (rewrite forallb_forall in Hok; auto).
    pose proof Fj as (L & M & _). destruct (proj2 (match_pattern_here q (skipn j t) j Oq (skipn_nonnil _ _ L)) M) as [r' Er'].
    exists r'. split; [apply from_pattern_exact; eauto|]. unfold index_of. rewrite (match_pattern_index _ _ _ _ Oq (skipn_nonnil _ _ L) Er'). reflexivity. }
  repeat split; auto; try apply Fo.
  - intros q j Hq Fj. destruct (Z q j) as (r' & E' & <-); [apply in_or_app; auto|exact Fj|eauto].
  - intros q j Hq Fj. destruct (Z q j) as (r' & E' & <-); [apply in_or_app; cbn; auto|exact Fj|eauto].
Qed.
Lemma from_patterns_err ps t : forallb pattern_ok ps = true ->
  (from_patterns_to_result ps t = Err <-> forall p k, In p ps -> k < length t -> ~ matches_here p (skipn k t)).
Proof.
  intros Hok. unfold from_patterns_to_result. destruct (from_patterns_loop_spec ps t None Hok ltac:(discriminate)) as (o & Eo & Ho).
  rewrite Eo. cbn [bind]. rewrite forallb_forall in Hok. destruct o as [r|].
  - split; [discriminate|]. intros H. destruct Ho as [(b & Eb & _)|(l1 & p & l2 & -> & Ep & _)]; [discriminate|].
    exfalso. apply from_pattern_exact in Ep; [|apply Hok, in_elt]. destruct Ep as (k & (L & M & _) & _). apply (H p k); auto. apply in_elt.
  - destruct Ho as [_ Ho]. split; [|reflexivity]. intros _ p k Hp. apply from_pattern_err; auto.
Qed.
Lemma from_patterns_total ps t : forallb pattern_ok ps = true ->
  from_patterns_to_result ps t = Err \/ exists r, from_patterns_to_result ps t = Ok r.
Proof.
  intros Hok. unfold from_patterns_to_result. destruct (from_patterns_loop_spec ps t None Hok ltac:(discriminate)) as (o & Eo & Ho).
  rewrite Eo. cbn [bind]. destruct o; eauto.
Qed.

(* ---- C33 ---- *)
Lemma disc_content_concat l : disc_content l = concat (map d_content l).
Proof.
  unfold disc_content. generalize (map d_content l). clear l. induction l as [|a [|b l] IH]; [reflexivity|cbn; rewrite app_nil_r; reflexivity|].
  change (join [] (a :: b :: l)) with (a ++ [] ++ join [] (b :: l)). rewrite IH. reflexivity.
Qed.
Lemma pattern_result_prefix p t r : pattern_ok p = true -> from_pattern_to_result p t = Ok r ->
  is_prefix (disc_content (r_disc r)) (r_input r) /\ disc_content (r_disc r) <> [].
Proof.
  intros Hok E. apply from_pattern_exact in E; [|exact Hok]. destruct E as (k & (L & M & J) & E).
  apply match_pattern_exact in E; auto using skipn_nonnil. destruct E as (xs & rest & left & H & Nx & -> & -> & _).
  rewrite stamps_content. split; [exists rest; eapply choices_read_text; eauto|].
  destruct (pattern_ok_series p Hok) as [F N]. inversion H as [|c cs t' Hn|c cs t' x t'' xs' rest' left' Hc H' E1]; subst; [contradiction..|]. rewrite <- E1 in F. inversion F as [|? ? Hs _]; subst.
  pose proof (choice_reads_nonempty _ _ _ _ Hs Hc) as Ny. apply choice_reads_text in Hc. destruct Hc as [_ Fy].
  destruct x as [|[w k'] x]; [contradiction|]. inversion Fy; subst. cbn. destruct w; [contradiction|discriminate].
Qed.
(* a pattern with a single forward serie *)
Lemma single_serie_exact p s t k r : pattern_ok p = true -> p_list p = [{| ch_serie := s; ch_reverse := false |}] ->
  first_offset (matches_here p) t k ->
  (from_pattern_to_result p t = Ok r <->
   exists ws, reads (s_list s) (skipn k t) ws (r_rem r) /\ r_input r = skipn k t /\ r_next r = None /\
     r_disc r = map (stamp k) (combine ws (map CGroup (s_list s)))).
Proof.
  intros Hok Ep Fo. pose proof Fo as (L & M & J). rewrite from_pattern_exact by exact Hok. split.
  - intros (k' & (L' & M' & J') & E). assert (k' = k). { destruct (Nat.lt_trichotomy k k') as [C|[C|C]]; [exfalso; eapply J'; eauto|auto|exfalso; eapply J; eauto]. } subst k'.
    apply match_pattern_exact in E; auto using skipn_nonnil. destruct E as (xs & rest & left & H & Nx & Ei & Ed & Lo).
    rewrite Ep in H. inversion H as [|c cs t' Hn|c cs t' x t'' xs' rest' left' Hc H' E1]; subst; [contradiction|]. inversion H'; subst.
    apply choice_reads_fwd in Hc. destruct Hc as (ws & Hr & ->). destruct Lo as [-> ->]. exists ws. repeat split; auto.
    rewrite Ed. cbn. rewrite app_nil_r. reflexivity.
  - intros (ws & Hr & Ei & En & Ed). exists k. split; [exact Fo|]. apply match_pattern_exact; auto using skipn_nonnil.
    exists [combine ws (map CGroup (s_list s))], (r_rem r), []. split; [|split; [discriminate|]].
    + rewrite Ep. econstructor; [apply choice_reads_fwd; eauto|constructor].
    + repeat split; auto. rewrite Ed. cbn. rewrite app_nil_r. reflexivity.
Qed.
Lemma single_serie_text p s t r : pattern_ok p = true -> p_list p = [{| ch_serie := s; ch_reverse := false |}] ->
  from_pattern_to_result p t = Ok r ->
  r_input r = disc_content (r_disc r) ++ r_rem r /\ map d_container (r_disc r) = map CGroup (s_list s) /\
  (exists before, t = before ++ r_input r).
Proof.
  intros Hok Ep E. destruct (from_pattern_index p t r Hok E) as (k & _ & Fo & Ei).
  apply (single_serie_exact p s t k r Hok Ep Fo) in E. destruct E as (ws & Hr & _ & _ & Ed).
  destruct (reads_text _ _ _ _ Hr) as (Et & Lw & _). rewrite Ed, Ei, disc_content_concat, !map_map. cbn [stamp d_content d_container].
  replace (map (fun x : bytes * container => d_content (stamp k x)) _) with (map fst (combine ws (map CGroup (s_list s)))) by reflexivity.
  rewrite map_fst_combine by (rewrite map_length; exact Lw). repeat split; [exact Et| |exists (firstn k t); symmetry; apply firstn_skipn].
  clear -Lw. revert ws Lw. induction (s_list s) as [|g gs IH]; intros [|w ws] Lw; try discriminate; [reflexivity|]. cbn. f_equal. apply IH. cbn in Lw. lia.
Qed.
Lemma next_never_reverse p t r n : pattern_ok p = true -> from_pattern_to_result p t = Ok r -> r_next r = Some n -> n_reverse n = false.
Proof.
  intros Hok E En. apply from_pattern_exact in E; [|exact Hok]. destruct E as (k & (L & M & J) & E).
  apply match_pattern_exact in E; auto using skipn_nonnil. destruct E as (xs & rest & left & _ & _ & _ & _ & Lo). unfold leftover in Lo.
  destruct left as [|c left]; [destruct Lo; congruence|]. destruct (ch_reverse c); [destruct Lo; congruence|].
  destruct Lo as (g & _ & E). rewrite E in En. injection En as <-. reflexivity.
Qed.

(* ---- C34 ---- *)
Lemma skipn_step {A} (l : list A) c rest i : skipn i l = c :: rest -> skipn (S i) l = rest.
Proof. revert i. induction l as [|x l IH]; intros [|i] H; cbn in *; try discriminate; [congruence|apply IH; exact H]. Qed.
Lemma from_group_loop_spec g content rest i r : skipn i content = rest ->
  (from_group_loop g content rest i = Ok r <->
   exists k w, first_offset (fun s => ~ no_word g s) rest k /\ longest_word g (skipn k rest) w /\ r_input r = content /\ r_next r = None /\
     r_disc r = [stamp (i + k) (w, CGroup g)] /\ r_rem r = skipn (length w) content).
Proof.
  revert i. induction rest as [|c rest IH]; intros i Hi; cbn [from_group_loop].
  - split; [discriminate|]. intros (k & w & (L & _) & _). cbn in L. lia.
  - unfold matches_group. destruct (contains_cases g (c :: rest)) as [[Z NW]|(w & Hw & E & NZ)].
    + rewrite Z. cbn [Nat.eqb]. rewrite IH.
      2: { apply skipn_step with (1 := Hi). }
      split.
      * intros (k & w & (L & P & J) & H & E1 & E2 & E3 & E4). exists (S k), w. rewrite Nat.add_succ_r. split; [|auto].
        split; [cbn; lia|]. split; [exact P|]. intros [|j] Hj F; [apply F; exact NW|]. apply (J j); [lia|exact F].
      * intros ([|k] & w & (L & P & J) & H & E1 & E2 & E3 & E4); [exfalso; apply P; exact NW|]. exists k, w. rewrite Nat.add_succ_r in E3. split; [|auto].
        split; [cbn in L; lia|]. split; [exact P|]. intros j Hj. apply (J (S j)). lia.
    + destruct (Nat.eqb_spec (contains g (c :: rest)) 0) as [F|_]; [contradiction|]. rewrite Hi, E.
      pose proof Hw as (Hne & _ & Hp & _). rewrite (prefix_firstn _ _ Hp). rewrite new_discovery_ok by exact Hne. cbn [bind].
      assert (Nc : content <> []) by (intros ->; rewrite skipn_nil in Hi; discriminate).
      match goal with |- (new_presult content [?d] ?x None = _) <-> _ => assert (Er : new_presult content [d] x None
        = Ok {| r_input := content; r_disc := [stamp i (w, CGroup g)]; r_rem := skipn (length w) content; r_next := None |}) end.
      { destruct content as [|c0 content0] eqn:Ec; [contradiction|]. rewrite <- Ec in *. unfold new_presult. rewrite Ec at 1.
        f_equal. f_equal. destruct (Nat.ltb_spec (length w) (length content)); [reflexivity|]. rewrite skipn_all2 by lia. reflexivity. }
      rewrite Er.
      assert (NN : ~ no_word g (c :: rest)) by (intros F; eapply longest_no_word; eauto).
      split.
      * intros Eq. injection Eq as <-. exists 0, w. rewrite Nat.add_0_r. cbn [r_input r_next r_disc r_rem]. split; [|auto].
        split; [cbn; lia|]. split; [exact NN|]. intros j Hj; lia.
      * intros ([|k] & w' & (L & P & J) & H & E1 & E2 & E3 & E4); [|exfalso; apply (J 0); [lia|exact NN]].
        cbn [skipn] in H. rewrite (longest_unique _ _ _ _ H Hw) in *. rewrite Nat.add_0_r in E3. destruct r; cbn in *. congruence.
Qed.
Lemma from_group_exact g t r :
  from_group_to_result g t = Ok r <->
  exists k w, first_offset (fun s => ~ no_word g s) t k /\ longest_word g (skipn k t) w /\ r_input r = t /\ r_next r = None /\
     r_disc r = [stamp k (w, CGroup g)] /\ r_rem r = skipn (length w) t.
Proof. apply (from_group_loop_spec g t t 0 r eq_refl). Qed.
Lemma from_group_err g t : from_group_to_result g t = Err <-> forall k, k < length t -> no_word g (skipn k t).
Proof.
  unfold from_group_to_result. assert (T : forall rest i, skipn i t = rest ->
    (from_group_loop g t rest i = Err <-> forall k, k < length rest -> no_word g (skipn k rest))).
  { induction rest as [|c rest IH]; intros i Hi; cbn [from_group_loop]; [split; [intros _ k L; cbn in L; lia|reflexivity]|].
    unfold matches_group. destruct (contains_cases g (c :: rest)) as [[Z NW]|(w & Hw & E & NZ)].
    - rewrite Z. cbn [Nat.eqb]. rewrite IH.
      2: { apply skipn_step with (1 := Hi). }
      split; [intros H [|k] L; [exact NW|apply H; cbn in L; lia]|intros H k L; apply (H (S k)); cbn; lia].
    - destruct (Nat.eqb_spec (contains g (c :: rest)) 0) as [F|_]; [contradiction|]. rewrite Hi, E.
      pose proof Hw as (Hne & _ & Hp & _). rewrite (prefix_firstn _ _ Hp). rewrite new_discovery_ok by exact Hne. cbn [bind].
      destruct t as [|c0 t0]; [rewrite skipn_nil in Hi; discriminate|]. split; [discriminate|]. intros H. exfalso. eapply longest_no_word; [exact Hw|]. apply (H 0). cbn. lia. }
  apply (T t 0 eq_refl).
Qed.
Lemma from_group_at_zero g t r : from_group_to_result g t = Ok r -> disc_index (r_disc r) = Ok 0 ->
  t = disc_content (r_disc r) ++ r_rem r.
Proof.
  intros E Ez. apply from_group_exact in E. destruct E as (k & w & _ & H & _ & _ & Ed & Er). rewrite Ed in *. cbn in Ez. injection Ez as ->.
  cbn [skipn] in H. destruct H as (_ & _ & [s ->] & _). rewrite Er. cbn. rewrite skipn_app, Nat.sub_diag, skipn_all. reflexivity.
Qed.

(* ---- Discoveries accessors ---- *)
Lemma find_last {A} (f : A -> bool) l x : find f (rev l) = Some x <->
  exists a b, l = a ++ x :: b /\ f x = true /\ forall y, In y b -> f y = false.
Proof.
  induction l as [|y l IH] using rev_ind; cbn.
  - split; [discriminate|]. intros ([|? ?] & b & E & _); discriminate.
  - rewrite rev_app_distr. cbn [rev app find]. destruct (f y) eqn:Fy.
    + split.
      * intros E. injection E as <-. exists l, []. split; [reflexivity|]. split; [exact Fy|]. intros z [].
      * intros (a & b & E & Fx & Hb). destruct b as [|z b] using rev_ind.
        -- apply app_inj_tail in E. destruct E as [_ ->]. reflexivity.
        -- rewrite app_comm_cons, app_assoc in E. apply app_inj_tail in E. destruct E as [_ ->].
           rewrite Hb in Fy by (apply in_or_app; cbn; auto). discriminate.
    + rewrite IH. split.
      * intros (a & b & -> & Fx & Hb). exists a, (b ++ [y]). rewrite <- app_assoc. repeat split; auto.
        intros z Hz. apply in_app_or in Hz. destruct Hz as [Hz|[<-|[]]]; auto.
      * intros (a & b & E & Fx & Hb). destruct b as [|z b] using rev_ind.
        -- apply app_inj_tail in E. destruct E as [_ ->]. congruence.
        -- clear IHb. rewrite app_comm_cons, app_assoc in E. apply app_inj_tail in E. destruct E as [-> ->]. exists a, b.
           repeat split; auto. intros z' Hz. apply Hb, in_or_app. auto.
Qed.
Lemma disc_find_last l name d : disc_find l name = Some d <->
  exists a b, l = a ++ d :: b /\ container_name (d_container d) = name /\
    forall y, In y b -> container_name (d_container y) <> name.
Proof.
  unfold disc_find. rewrite find_last. split; intros (a & b & E & F & H); exists a, b; split; auto.
  - split; [apply bytes_eqb_eq; exact F|]. intros y Hy Ey. specialize (H y Hy). rewrite Ey in H.
    rewrite (proj2 (bytes_eqb_eq name name) eq_refl) in H. discriminate.
  - split; [apply bytes_eqb_eq; exact F|]. intros y Hy. destruct (bytes_eqb _ _) eqn:E'; [|reflexivity].
    apply bytes_eqb_eq in E'. exfalso. eapply H; eauto.
Qed.
Lemma disc_find_none l name : disc_find l name = None <-> forall d, In d l -> container_name (d_container d) <> name.
Proof.
  unfold disc_find. split.
  - intros H d Hd E. assert (F := find_none _ _ H d (proj1 (in_rev _ _) Hd)). cbn in F. rewrite E in F.
    rewrite (proj2 (bytes_eqb_eq name name) eq_refl) in F. discriminate.
  - intros H. destruct (find _ _) as [d|] eqn:E; [|reflexivity]. apply find_some in E. destruct E as [Hin E].
    apply bytes_eqb_eq in E. exfalso. apply (H d); [apply in_rev; exact Hin|exact E].
Qed.
Lemma disc_amount_bytes l : disc_amount l = list_sum (map (fun d => length (d_content d)) l).
Proof. unfold disc_amount. rewrite disc_content_concat. induction l as [|d l IH]; [reflexivity|]. cbn. rewrite app_length, IH. reflexivity. Qed.
Lemma disc_is_amount_iff l n : disc_is_amount l n = true <-> list_sum (map (fun d => length (d_content d)) l) = n.
Proof. unfold disc_is_amount. rewrite Nat.eqb_eq, disc_amount_bytes. reflexivity. Qed.
Lemma disc_is_at_least_iff l n : disc_is_at_least l n = true <-> n <= list_sum (map (fun d => length (d_content d)) l).
Proof. unfold disc_is_at_least. rewrite Nat.leb_le, disc_amount_bytes. reflexivity. Qed.
Lemma disc_is_in_range_iff l a b : disc_is_in_range l a b = true <->
  a <= list_sum (map (fun d => length (d_content d)) l) /\ length l <= b.
Proof. unfold disc_is_in_range. rewrite andb_true_iff, disc_is_at_least_iff, Nat.leb_le. reflexivity. Qed.
