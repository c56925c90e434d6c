(* LetterProofs.v - proofs for LitProps.v: rules that read letters. *)
From Coq Require Import Strings.String Strings.Byte Lia.
From Verif Require Import Go GoLemmas DomainModel DomainSpec DomainProofs CardModel CardSpec CardProofs PatModel PatSpec PatProofs RuleModel RuleSpec RuleProofs PathModel PathSpec PathProofs LexModel LexSpec LexProofs OrdSpec OrdProofs PickSpec PickProofs PickProofs2.
Open Scope list_scope.

(* ---- rules that read letters ---- *)
(* the pattern is one group of single bytes *)
Definition letters_of (p : pattern) : option (list byte) :=
  match p_list p with
  | [c] => if ch_reverse c then None else
    match s_list (ch_serie c) with
    | [g] => if forallb (fun w => Nat.eqb (length w) 1) (g_list g) then Some (concat (g_list g)) else None
    | _ => None
    end
  | _ => None
  end.
Fixpoint class_of (ps : list pattern) : option (list byte) :=
  match ps with
  | [] => Some []
  | p :: r => match letters_of p, class_of r with Some a, Some b => Some (a ++ b) | _, _ => None end
  end.
Lemma singles (l : list bytes) b : forallb (fun w => Nat.eqb (length w) 1) l = true -> (In b (concat l) <-> In [b] l).
Proof.
  induction l as [|w l IH]; intros F; [reflexivity|]. cbn [forallb] in F. apply andb_prop in F. destruct F as [F1 F]. destruct w as [|c [|? ?]]; try discriminate. cbn [concat app In]. rewrite (IH F). split; (intros [H|H]; [left; congruence|right; exact H]).
Qed.
Lemma letters_parts p a : letters_of p = Some a -> exists s g, p_list p = [{| ch_serie := s; ch_reverse := false |}] /\ s_list s = [g] /\ forallb (fun w => Nat.eqb (length w) 1) (g_list g) = true /\ a = concat (g_list g).
Proof.
  intros H. unfold letters_of in H. destruct (p_list p) as [|[s rv] [|? ?]] eqn:El; try discriminate. cbn [ch_reverse ch_serie] in H. destruct rv; [discriminate|]. destruct (s_list s) as [|g [|? ?]] eqn:Es; try discriminate. destruct (forallb _ _) eqn:F; [|discriminate]. injection H as <-.
  exists s, g. auto.
Qed.
Lemma letter_word g b t : forallb (fun w => Nat.eqb (length w) 1) (g_list g) = true -> In b (concat (g_list g)) -> longest_word g (b :: t) [b].
Proof.
  intros F I. apply (proj1 (singles _ _ F)) in I. split; [discriminate|]. split; [exact I|]. split; [exists t; reflexivity|]. intros v Hv _. rewrite forallb_forall in F. specialize (F v Hv). apply Nat.eqb_eq in F. cbn. lia.
Qed.
Lemma letters_here p a t : letters_of p = Some a -> (matches_here p t <-> exists b t', t = b :: t' /\ In b a).
Proof.
  intros H. destruct (letters_parts _ _ H) as (s & g & El & Es & F & ->). split.
  - intros (c' & cs & x & rest & E & R). rewrite El in E. injection E as <- <-. inversion R as [s' t0 ws rest0 Hr Ea Eb|]; subst. rewrite Es in Hr. inversion Hr as [|g0 gs w t' ws1 rest0 Hw Hr']; subst.
    destruct Hw as (Nw & Iw & _). assert (F' := F). rewrite forallb_forall in F'. specialize (F' w Iw). destruct w as [|b [|? ?]]; try discriminate. exists b, t'. split; [reflexivity|]. apply singles; assumption.
  - intros (b & t' & -> & I). exists {| ch_serie := s; ch_reverse := false |}, [], (combine [[b]] (map CGroup (s_list s))), t'. split; [exact El|]. constructor. rewrite Es. change (b :: t') with ([b] ++ t'). constructor; [apply letter_word; assumption|constructor].
Qed.
Lemma letters_as p a b t : letters_of p = Some a -> In b a -> exists r, matches_as p (b :: t) r /\ taken r = [b].
Proof.
  intros H I. destruct (letters_parts _ _ H) as (s & g & El & Es & F & ->). exists {| r_input := b :: t; r_disc := [{| d_index := 0; d_content := [b]; d_container := CGroup g |}]; r_rem := t; r_next := None |}. split; [|reflexivity].
  exists [[([b], CGroup g)]], t, []. rewrite El. split.
  - eapply csr_step; [|constructor]. replace [([b], CGroup g)] with (combine [[b]] (map CGroup (s_list s))) by (rewrite Es; reflexivity). constructor. rewrite Es. change (b :: t) with ([b] ++ t). constructor; [apply letter_word; assumption|constructor].
  - split; [discriminate|]. split; [reflexivity|]. split; [reflexivity|]. split; reflexivity.
Qed.
Lemma class_in ps : forall a, class_of ps = Some a -> forall b, In b a <-> exists p l, In p ps /\ letters_of p = Some l /\ In b l.
Proof.
  induction ps as [|p ps IH]; intros a H b; cbn [class_of] in H; [injection H as <-; split; [intros []|intros (? & ? & [] & _)]|].
  destruct (letters_of p) as [l|] eqn:E; [|discriminate]. destruct (class_of ps) as [r|]; [|discriminate]. injection H as <-. rewrite in_app_iff, (IH r eq_refl). split.
  - intros [I|(q & l' & Iq & Eq & I)]; [exists p, l; split; [left; reflexivity|auto]|exists q, l'; split; [right; exact Iq|auto]].
  - intros (q & l' & [<-|Iq] & Eq & I); [left; congruence|right; exists q, l'; auto].
Qed.
Lemma class_letters ps : forall a, class_of ps = Some a -> forall p, In p ps -> exists l, letters_of p = Some l.
Proof.
  induction ps as [|q ps IH]; intros a H p I; [destruct I|]. cbn [class_of] in H. destruct (letters_of q) as [l|] eqn:E; [|discriminate]. destruct (class_of ps) as [r|]; [|discriminate]. destruct I as [<-|I]; [eauto|]. apply (IH r eq_refl p I).
Qed.
Lemma class_here ps a : class_of ps = Some a -> forall t, (exists p, In p ps /\ matches_here p t) <-> exists b t', t = b :: t' /\ In b a.
Proof.
  intros H t. split.
  - intros (p & I & M). destruct (class_letters _ _ H p I) as (l & El). apply (letters_here p l t El) in M. destruct M as (b & t' & -> & Ib). exists b, t'. split; [reflexivity|]. apply (class_in _ _ H). exists p, l. auto.
  - intros (b & t' & -> & I). apply (class_in _ _ H) in I. destruct I as (p & l & Ip & El & I). exists p. split; [exact Ip|]. apply (letters_here p l _ El). exists b, t'. auto.
Qed.
Lemma class_first ps : forall a b t, class_of ps = Some a -> In b a -> exists r, first_here ps (b :: t) r /\ taken r = [b].
Proof.
  induction ps as [|p ps IH]; intros a b t H I; cbn [class_of] in H; [injection H as <-; destruct I|]. destruct (letters_of p) as [l|] eqn:E; [|discriminate]. destruct (class_of ps) as [c|] eqn:Ec; [|discriminate]. injection H as <-.
  destruct (in_dec Byte.byte_eq_dec b l) as [D|D].
  - destruct (letters_as p l b t E D) as (r & M & Tk). exists r. split; [|exact Tk]. exists [], p, ps. split; [reflexivity|]. split; [exact M|]. intros q [].
  - apply in_app_iff in I. destruct I as [I|I]; [contradiction|]. destruct (IH c b t eq_refl I) as (r & (before & q & after & -> & M & N) & Tk). exists r. split; [|exact Tk]. exists (p :: before), q, after. split; [reflexivity|]. split; [exact M|]. intros q' [<-|Iq] M'; [|exact (N q' Iq M')].
    apply (letters_here p l _ E) in M'. destruct M' as (b' & t' & X & Ib). injection X as <- <-. contradiction.
Qed.
Lemma class_eats ps a s1 : class_of ps = Some a -> forall w, Forall (fun b => In b a) w -> exists ms, eats ps (w ++ s1) ms s1 /\ length ms = length w.
Proof.
  intros H. induction w as [|b w IH]; intros F; [exists []; split; [constructor|reflexivity]|]. inversion F as [|? ? Fb Fw]; subst. destruct (IH Fw) as (ms & E & L). destruct (class_first ps a b (w ++ s1) H Fb) as (r & Fh & Tk). exists (r :: ms). split; [|cbn; lia].
  cbn [app]. eapply eats_cons; [exact Fh|rewrite Tk; reflexivity|exact E].
Qed.
(* what is next is not a letter of the class *)
Definition ends_class (a : list byte) (s : bytes) : Prop := forall b t, s = b :: t -> ~ In b a.
Lemma class_stuck ps a s : class_of ps = Some a -> ends_class a s -> stuck ps s.
Proof.
  intros H E. destruct s as [|b t]; [left; reflexivity|right]. intros p I M. destruct (proj1 (class_here ps a H (b :: t))) as (b' & t' & X & Ib); [exists p; auto|]. injection X as <- <-. exact (E b t eq_refl Ib).
Qed.
(* one or more letters *)
Lemma letters_take r ps k a w s1 : rl_content r = RPattern ps k -> class_of ps = Some a -> snd (delimiter k) = None -> w <> [] -> Forall (fun b => In b a) w -> ends_class a s1 -> rule_takes r (w ++ s1) s1.
Proof.
  intros Ec H K N F E. destruct (class_eats ps a s1 H w F) as (ms & Es & L). apply (rt_pattern r ps k (w ++ s1) ms s1 Ec Es); [intros ->; destruct w; [contradiction|discriminate]| |right; apply (class_stuck ps a); assumption].
  intros m X. congruence.
Qed.
(* exactly one letter *)
Lemma letter_takes r ps k a b s1 : rl_content r = RPattern ps k -> class_of ps = Some a -> snd (delimiter k) = Some 1%N -> In b a -> rule_takes r (b :: s1) s1.
Proof.
  intros Ec H K I. destruct (class_eats ps a s1 H [b] ltac:(constructor; [exact I|constructor])) as (ms & Es & L). apply (rt_pattern r ps k (b :: s1) ms s1 Ec Es); [intros ->; discriminate| |].
  - intros m X. rewrite K in X. injection X as <-. rewrite L. cbn. lia.
  - left. exists 1%N. split; [exact K|]. rewrite L. reflexivity.
Qed.
Lemma letters_begin r ps k a t : rl_content r = RPattern ps k -> class_of ps = Some a -> (begins r t <-> exists b t', t = b :: t' /\ In b a).
Proof. intros Ec H. unfold begins. rewrite Ec. apply class_here. exact H. Qed.
(* once, as declared without a cardinality *)
Lemma takes_once r k s w s1 : snd (delimiter k) = Some 1%N -> is_valid k 1 = true -> s = w ++ s1 -> rule_takes r s s1 -> takes r k s w s1.
Proof. intros D V E T. split; [exact E|]. exists 0. split; [eapply rn_more; [exact T|constructor]|]. split; assumption. Qed.
(* constants *)
Lemma constant_takes r c s1 : rl_content r = RConstant c -> c <> [] -> rule_takes r (c ++ s1) s1.
Proof. intros E N. apply rt_const; assumption. Qed.
Lemma constant_begins r c t : rl_content r = RConstant c -> (begins r t <-> c <> [] /\ is_prefix c t).
Proof. intros E. unfold begins. rewrite E. reflexivity. Qed.
(* everything up to a byte *)
Definition until_byte (p : pattern) : option byte :=
  match p_list p with
  | [c] => if ch_reverse c then match s_list (ch_serie c) with [g] => match g_list g with [[b]] => Some b | _ => None end | _ => None end else None
  | _ => None
  end.
Lemma until_parts p q : until_byte p = Some q -> exists s g, p_list p = [{| ch_serie := s; ch_reverse := true |}] /\ s_list s = [g] /\ g_list g = [[q]].
Proof.
  intros H. unfold until_byte in H. destruct (p_list p) as [|[s rv] [|? ?]] eqn:El; try discriminate. cbn [ch_reverse ch_serie] in H. destruct rv; [|discriminate]. destruct (s_list s) as [|g [|? ?]] eqn:Es; try discriminate. destruct (g_list g) as [|[|b [|? ?]] [|? ?]] eqn:Eg; try discriminate. injection H as <-. exists s, g. auto.
Qed.
Lemma until_takes r p k q w s1 : rl_content r = RPattern [p] k -> until_byte p = Some q -> snd (delimiter k) = None -> w <> [] -> ~ In q w -> rule_takes r (w ++ q :: s1) (q :: s1).
Proof.
  intros Ec H K N I. destruct (until_parts _ _ H) as (s & g & El & Es & Eg).
  assert (Sk : PatSpec.skips g (w ++ q :: s1) w (q :: s1)).
  { split; [reflexivity|]. split.
    - intros a b -> Nb v Hv (t & Ev). rewrite Eg in Hv. destruct Hv as [<-|[]]. destruct b as [|b0 b]; [contradiction|]. injection Ev as <- _. exfalso. apply I. apply in_or_app. right. left. reflexivity.
    - right. exists [q]. split; [discriminate|]. rewrite Eg. split; [left; reflexivity|]. split; [exists s1; reflexivity|]. intros v [<-|[]] _. cbn. lia. }
  set (r0 := {| r_input := w ++ q :: s1; r_disc := [{| d_index := 0; d_content := w; d_container := CReverse s |}]; r_rem := q :: s1; r_next := None |}).
  assert (Fh : first_here [p] (w ++ q :: s1) r0).
  { exists [], p, []. split; [reflexivity|]. split; [|intros x []]. exists [[(w, CReverse s)]], (q :: s1), []. rewrite El. split; [eapply csr_step; [|constructor]; eapply cr_reverse; eassumption|]. split; [discriminate|]. split; [reflexivity|]. split; [reflexivity|]. split; reflexivity. }
  apply (rt_pattern r [p] k _ [r0] (q :: s1) Ec).
  - eapply eats_cons; [exact Fh| |constructor]. unfold taken. cbn. rewrite app_nil_r. reflexivity.
  - discriminate.
  - intros m X. congruence.
  - right. right. intros p' [<-|[]] (c & cs & x & rest & E & R). rewrite El in E. injection E as <- <-. inversion R as [|s' g0 gs t w' rest0 E' Sk' Nw]; subst. rewrite Es in E'. injection E' as <- <-. destruct Sk' as (Ex & Sk' & _). destruct w' as [|b w']; [contradiction|]. injection Ex as <- _.
    specialize (Sk' [] (q :: w') eq_refl ltac:(discriminate) [q]). rewrite Eg in Sk'. specialize (Sk' (or_introl eq_refl)). discriminate Sk'. exists (w' ++ rest). reflexivity.
Qed.
