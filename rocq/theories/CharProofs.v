(* CharProofs.v - UTF-8 texts: where a text can be cut. *)
From Coq Require Import Strings.String Strings.Byte Lia.
From Verif Require Import Go GoLemmas DomainModel DomainSpec CardModel CardSpec PatModel PatSpec PatProofs RuleModel RuleSpec RuleProofs PathModel PathSpec LexModel LexSpec LexProofs Regex Utf8Spec Utf8Proofs CharSpec.
Open Scope list_scope.

(* ---- texts ---- *)
Lemma char_not_empty w : character w -> w <> [].
Proof. intros H ->. apply char_enc in H. apply enc_length in H. cbn in H. lia. Qed.
Lemma char_parts b w : character (b :: w) -> ~ cont (Byte.to_N b) /\ forall x, In x w -> cont (Byte.to_N x).
Proof.
  intros H. apply char_enc in H. assert (L := enc_length _ H). rewrite map_length in L. unfold cont.
  destruct w as [|c [|d [|e [|f w]]]]; cbn in L; try lia; cbn [map] in H.
  - apply enc1 in H. split; [lia|intros x []].
  - apply enc2 in H. unfold cont in H. split; [lia|]. intros x [<-|[]]. lia.
  - apply enc3 in H. unfold cont in H. split; [lia|]. intros x [<-|[<-|[]]]; lia.
  - apply enc4 in H. unfold cont in H. split; [lia|]. intros x [<-|[<-|[<-|[]]]]; lia.
Qed.
Lemma utf8_one w : character w -> utf8_text w.
Proof. intros H. rewrite <- (app_nil_r w). apply utf8_more; [exact H|constructor]. Qed.
Lemma utf8_app a b : utf8_text a -> utf8_text b -> utf8_text (a ++ b).
Proof. induction 1 as [|w r H1 H2 IH]; intros Hb; [exact Hb|]. rewrite <- app_assoc. apply utf8_more; auto. Qed.
Lemma utf8_concat l : Forall utf8_text l -> utf8_text (concat l).
Proof. induction 1; cbn; [constructor|apply utf8_app; assumption]. Qed.
Lemma app_lengths {A} (a a' b b' : list A) : a ++ b = a' ++ b' -> length a = length a' -> a = a' /\ b = b'.
Proof.
  revert a'. induction a as [|x a IH]; intros [|y a'] H L; cbn in *; try discriminate; [auto|]. inversion H; subst. destruct (IH a' H2) as [-> ->]; [lia|auto].
Qed.
Lemma utf8_head w r : character w -> utf8_text (w ++ r) -> utf8_text r.
Proof.
  intros Hw H. inversion H as [E|w' r' Hw' Hr' E].
  - exfalso. apply (char_not_empty w Hw). destruct w; [reflexivity|discriminate].
  - assert (L : length w' = length w) by (rewrite (width_char (w ++ r) w r eq_refl Hw); apply (width_char _ w' r'); auto).
    destruct (app_lengths _ _ _ _ E L) as [-> ->]. exact Hr'.
Qed.
Lemma utf8_tail a b : utf8_text a -> utf8_text (a ++ b) -> utf8_text b.
Proof. induction 1 as [|w r H1 H2 IH]; intros H; [exact H|]. rewrite <- app_assoc in H. apply utf8_head in H; auto. Qed.
Lemma utf8_start b s : utf8_text (b :: s) -> ~ cont (Byte.to_N b).
Proof.
  intros H. inversion H as [|w r Hw Hr E]. destruct w as [|c w]; [exfalso; exact (char_not_empty [] Hw eq_refl)|]. inversion E; subst. apply char_parts in Hw. tauto.
Qed.
(* a text that is not empty is found between characters only *)
Lemma utf8_before t : utf8_text t -> forall a v b, t = a ++ v ++ b -> v <> [] -> utf8_text v -> utf8_text a.
Proof.
  induction 1 as [|w r Hw Hr IH]; intros a v b E N Hv.
  - destruct a; [constructor|discriminate].
  - destruct a as [|x a]; [constructor|]. destruct v as [|y v]; [congruence|].
    destruct (Nat.le_gt_cases (length w) (length (x :: a))) as [L|L].
    + assert (Ea : exists a', x :: a = w ++ a').
      { exists (skipn (length w) (x :: a)). rewrite <- (firstn_skipn (length w) (x :: a)) at 1. f_equal.
        assert (F : firstn (length w) (w ++ r) = firstn (length w) ((x :: a) ++ (y :: v) ++ b)) by (rewrite E; reflexivity).
        rewrite firstn_app, Nat.sub_diag, firstn_all, firstn_O, app_nil_r in F. rewrite firstn_app in F. replace (length w - length (x :: a)) with 0 in F by lia. rewrite firstn_O, app_nil_r in F. symmetry. exact F. }
      destruct Ea as [a' Ea]. rewrite Ea. apply utf8_more; [exact Hw|]. rewrite Ea, <- app_assoc in E. apply app_inv_head in E. apply (IH a' (y :: v) b E N Hv).
    + exfalso. assert (Iy : exists c z, w = (x :: a) ++ y :: z /\ c = tt).
      { exists tt. assert (F : firstn (length w) (w ++ r) = firstn (length w) ((x :: a) ++ (y :: v) ++ b)) by (rewrite E; reflexivity).
        rewrite firstn_app, Nat.sub_diag, firstn_all, firstn_O, app_nil_r in F. rewrite firstn_app in F. rewrite (firstn_all2 (x :: a)) in F by lia.
        destruct (length w - length (x :: a)) as [|k] eqn:Ek; [lia|]. cbn [app firstn] in F. eexists. split; [exact F|reflexivity]. }
      destruct Iy as (_ & z & Ew & _). subst w. cbn [app] in Hw. apply char_parts in Hw. apply (utf8_start y v Hv). apply (proj2 Hw). apply in_or_app. right. left. reflexivity.
Qed.
Lemma utf8_around t a v b : utf8_text t -> t = a ++ v ++ b -> v <> [] -> utf8_text v -> utf8_text a /\ utf8_text b.
Proof.
  intros H E N Hv. assert (Ha := utf8_before t H a v b E N Hv). split; [exact Ha|]. subst t. apply utf8_tail in H; [|exact Ha]. apply utf8_tail in H; assumption.
Qed.

(* ---- patterns ---- *)
Lemma longest_utf8 g t w : group_utf8 g -> longest_word g t w -> utf8_text w.
Proof. intros G (_ & I & _). unfold group_utf8 in G. rewrite Forall_forall in G. apply G. exact I. Qed.
Lemma reads_utf8 gs t ws rest : PatSpec.reads gs t ws rest -> (forall g, In g gs -> group_utf8 g) -> utf8_text t -> Forall utf8_text ws /\ utf8_text rest.
Proof.
  induction 1 as [t|g gs w t' ws rest L R IH]; intros G H; [split; [constructor|exact H]|].
  assert (Hw := longest_utf8 _ _ _ (G g (or_introl eq_refl)) L). destruct (IH (fun g' I => G g' (or_intror I)) (utf8_tail w t' Hw H)) as [F Hr]. split; [constructor; assumption|exact Hr].
Qed.
Lemma skips_utf8 g t w rest : group_utf8 g -> skips g t w rest -> utf8_text t -> utf8_text w /\ utf8_text rest.
Proof.
  intros G (E & _ & [-> | [v L]]) H.
  - rewrite app_nil_r in E. subst. split; [exact H|constructor].
  - assert (Hv := longest_utf8 g rest v G L). destruct L as (N & _ & [s Es] & _). subst rest. assert (Hw : utf8_text w) by (apply (utf8_before t H w v s E N Hv)). split; [exact Hw|]. subst t. apply utf8_tail in H; assumption.
Qed.
Lemma choice_utf8 c t x rest : (forall g, In g (s_list (ch_serie c)) -> group_utf8 g) -> choice_reads c t x rest -> utf8_text t -> Forall (fun y => utf8_text (fst y)) x /\ utf8_text rest.
Proof.
  intros G R H. destruct R as [s t ws rest R|s g gs t w rest E S N]; cbn [ch_serie] in G.
  - destruct (reads_utf8 _ _ _ _ R G H) as [F Hr]. split; [|exact Hr]. clear -F. generalize (map CGroup (s_list s)). induction F as [|w ws Hw F IH]; intros [|c l]; cbn; constructor; auto.
  - destruct (skips_utf8 g t w rest) as [Hw Hr]; [apply G; rewrite E; left; reflexivity|exact S|exact H|]. split; [constructor; [exact Hw|constructor]|exact Hr].
Qed.
Lemma choices_utf8 cs t xs rest left : choices_read cs t xs rest left -> (forall c g, In c cs -> In g (s_list (ch_serie c)) -> group_utf8 g) -> utf8_text t ->
  Forall (fun y => utf8_text (fst y)) (concat xs) /\ utf8_text rest.
Proof.
  induction 1 as [t|c cs t N|c cs t x t' xs rest left R S IH]; intros G H; [split; [constructor|exact H]|split; [constructor|exact H]|].
  destruct (choice_utf8 c t x t') as [Hx Ht]; [intros g; apply G; left; reflexivity|exact R|exact H|]. destruct IH as [Hs Hr]; [intros c' g I; apply G; right; exact I|exact Ht|].
  split; [cbn; apply Forall_app; split; assumption|exact Hr].
Qed.
Lemma matches_utf8 p t r : pattern_utf8 p -> matches_as p t r -> utf8_text t -> match_utf8 r.
Proof.
  intros G (xs & rest & left & R & N & _ & E & _) H. destruct (choices_utf8 _ _ _ _ _ R G H) as [F _]. unfold match_utf8. rewrite E. destruct xs as [|x xs]; [congruence|].
  cbn [stamps concat] in *. apply Forall_app in F. destruct F as [F1 F2]. apply Forall_app. split; apply Forall_map; (eapply Forall_impl; [|eassumption]); intros a Ha; exact Ha.
Qed.
Lemma taken_utf8 r : match_utf8 r -> utf8_text (taken r).
Proof. intros H. unfold taken. apply utf8_concat. apply Forall_map. exact H. Qed.
Lemma eats_utf8 ps t l rest : Forall pattern_utf8 ps -> eats ps t l rest -> utf8_text t -> Forall match_utf8 l /\ utf8_text rest.
Proof.
  intros G. induction 1 as [t|t t' r rs rest F E R IH]; intros H; [split; [constructor|exact H]|].
  destruct F as (b & p & a & -> & M & _). assert (Hm : match_utf8 r) by (apply (matches_utf8 p t r); [rewrite Forall_forall in G; apply G; apply in_or_app; right; left; reflexivity|exact M|exact H]).
  assert (Ht' : utf8_text t') by (subst t; apply utf8_tail in H; [exact H|apply taken_utf8; exact Hm]). destruct (IH Ht') as [F Hr]. split; [constructor; assumption|exact Hr].
Qed.
Lemma rule_takes_utf8 r s rest : rule_utf8 r -> rule_takes r s rest -> utf8_text s -> utf8_text rest.
Proof.
  intros G T H. unfold rule_utf8 in G. destruct T as [c rest E N|ps k s ms rest E T N A F]; rewrite E in G.
  - apply utf8_tail in H; assumption.
  - destruct (eats_utf8 _ _ _ _ G T H) as [_ Hr]. exact Hr.
Qed.
Lemma rule_times_utf8 r n s rest : rule_utf8 r -> rule_times r n s rest -> utf8_text s -> utf8_text rest.
Proof. intros G T. induction T as [s|n s s1 s2 T1 T2 IH]; intros H; [exact H|]. apply IH. apply (rule_takes_utf8 r s s1 G T1 H). Qed.
