(* EndProofs.v - lexing ends on grammars whose left recursions are guarded. *)
From Coq Require Import Strings.String Strings.Byte Sorting.Permutation Lia.
From Verif Require Import Go GoLemmas DomainModel DomainSpec CardModel CardSpec PatModel PatSpec RuleModel RuleSpec RuleProofs PathModel PathSpec PathProofs LexModel LexSpec LexProofs LexProofs2 LexProofs3 OrdSpec OrdProofs EndSpec.
Open Scope list_scope.

Lemma mlookup_same {V} (m : gmap V) k v : mlookup (minsert m k v) k = Some v.
Proof. unfold minsert. cbn [mlookup]. rewrite bytes_eqb_refl. reflexivity. Qed.
Lemma mlookup_other {V} (m : gmap V) k v n : k <> n -> mlookup (minsert m k v) n = mlookup m n.
Proof. intros H. unfold minsert. cbn [mlookup]. destruct (bytes_eqb k n) eqn:E; [apply bytes_eqb_eq in E; contradiction|reflexivity]. Qed.
Lemma listed_in n A : listed n A = true <-> In n A.
Proof. unfold listed. rewrite existsb_exists. split; [intros (x & Hx & E); apply bytes_eqb_eq in E; subst x; exact Hx|intros H; exists n; split; [exact H|apply bytes_eqb_eq; reflexivity]]. Qed.
Lemma absent_b_iff c : absent_b c = true <-> may_be_absent c.
Proof. unfold absent_b, may_be_absent. destruct (card_of c) as [k|]; [split; [intros H; exists k; auto|intros (k' & [= <-] & H); exact H]|split; [discriminate|intros (k & E & _); discriminate]]. Qed.

(* ---- the channels ---- *)
Section Ends.
Variable channels : nat -> list path.
Hypothesis Hmap : same_map channels.
Hypothesis Hsimple : forall p, among channels p -> exists r, simple_channel p r.

Definition still_st (m : lst) : Prop := ls_pre m = false.
Lemma channel_outcome p r b s : simple_channel p r -> exists o,
  (forall n st, ls_pre st = false -> element_to_token (cbm channels (S n)) (pa_element p) (pa_deps p) (b :: s) false st = (Ok o, st)) /\
  (tok_valid o = true -> exists m, tok_content o = Some (m, None) /\ lm_disc m <> [] /\ has_prefix (lm_disc m) (b :: s) = true).
Proof.
  intros (G & Nm & Nn & k & Em & K0). destruct (rule_match_plain r k (b :: s) False G ltac:(contradiction)) as (x & Ek & Hx).
  assert (Rs : rule_or_skip x = MRule x) by (unfold rule_or_skip; rewrite Ek, K0; reflexivity).
  exists (Tok (pa_element p) (pa_deps p) (if rm_valid x then (if has_prefix (rm_disc x) (b :: s) then (if 0 <? length (rm_disc x) then Some (LM 0 [BCont (MRule x) None], None) else None) else None) else Some (LM 0 [BCont (MRule x) None], None))).
  split.
  - intros n st P. unfold element_to_token, element_to_content, best_line. rewrite Em, Nn. cbn [best_loop]. unfold line_to_matches. cbn [line_loop]. unfold mbind. cbn [cbm cbm_step ret container_to_match]. unfold mbind. cbn [ret]. rewrite (Hx st (or_introl P)). cbn [ret]. rewrite Rs.
    cbn [b_valid m_valid b_disc m_disc app]. destruct (rm_valid x) eqn:V; cbn [negb].
    + destruct (has_prefix (rm_disc x) (b :: s)); cbn [ret].
      * cbn [lm_valid forallb b_valid m_valid]. rewrite V. cbn [andb negb]. cbn [lm_disc forallb b_valid m_valid map b_disc m_disc join app]. rewrite V. cbn [andb].
        destruct (0 <? length (rm_disc x)); cbn [lift ret]; destruct (el_name (pa_element p)); try congruence; reflexivity.
      * cbn [lift ret]. destruct (el_name (pa_element p)); [congruence|reflexivity].
    + cbn [ret lm_valid forallb b_valid m_valid]. rewrite V. cbn [andb negb length Nat.ltb Nat.leb]. cbn [lift ret]. destruct (el_name (pa_element p)); [congruence|reflexivity].
  - destruct (rm_valid x) eqn:V.
    + destruct (has_prefix (rm_disc x) (b :: s)) eqn:P; [|discriminate]. destruct (0 <? length (rm_disc x)) eqn:L; [|discriminate]. intros _. eexists. split; [reflexivity|]. cbn [lm_disc map b_disc m_disc join app forallb b_valid m_valid]. rewrite ?V. cbn [andb]. split; [intros E; rewrite E in L; discriminate|exact P].
    + cbn [tok_valid lm_valid forallb b_valid m_valid]. rewrite V. discriminate.
Qed.
(* a channel stands in front of the text *)
Definition found (s : bytes) : Prop := exists p o, among channels p /\ (forall n st, ls_pre st = false -> element_to_token (cbm channels (S n)) (pa_element p) (pa_deps p) s false st = (Ok o, st)) /\ tok_valid o = true.
Lemma find_answer chs b s : (forall p, In p chs -> among channels p) ->
  (exists m, (forall n st, ls_pre st = false -> find_in_channels (cbm channels (S n)) chs (b :: s) st = (Ok (Some m), st)) /\ lm_disc m <> [] /\ has_prefix (lm_disc m) (b :: s) = true /\ found (b :: s)) \/
  ((forall n st, ls_pre st = false -> find_in_channels (cbm channels (S n)) chs (b :: s) st = (Ok None, st)) /\
   forall p o, In p chs -> (forall n st, ls_pre st = false -> element_to_token (cbm channels (S n)) (pa_element p) (pa_deps p) (b :: s) false st = (Ok o, st)) -> tok_valid o = false).
Proof.
  induction chs as [|p chs IH]; intros Hi; [right; split; [reflexivity|intros p o []]|].
  destruct (Hsimple p (Hi p (or_introl eq_refl))) as (r & Hr). destruct (channel_outcome p r b s Hr) as (o & Ho & Hv). destruct (tok_valid o) eqn:V.
  - left. destruct (Hv eq_refl) as (m & Ec & Nm & Pm). exists m. split; [|split; [exact Nm|split; [exact Pm|exists p, o; split; [apply Hi; left; reflexivity|auto]]]].
    intros n st P. cbn [find_in_channels]. unfold mbind. rewrite (Ho n st P), V, Ec. reflexivity.
  - destruct (IH (fun q Hq => Hi q (or_intror Hq))) as [(m & Hm & K)|[Hn Ha]].
    + left. exists m. split; [|exact K]. intros n st P. cbn [find_in_channels]. unfold mbind. rewrite (Ho n st P), V. apply Hm. exact P.
    + right. split; [intros n st P; cbn [find_in_channels]; unfold mbind; rewrite (Ho n st P), V; apply Hn; exact P|].
      intros q o' [<-|Hq] Ho'; [|apply (Ha q o' Hq Ho')]. specialize (Ho 0 (lst_init false) eq_refl). rewrite (Ho' 0 (lst_init false) eq_refl) in Ho. congruence.
Qed.
(* the same at every visit *)
Definition seen (s : bytes) : Prop := found s.
Lemma range_answer b s :
  (found (b :: s) /\ forall n st, ls_pre st = false -> exists m, range_channels channels (fun chs => find_in_channels (cbm channels (S n)) chs (b :: s)) st = (Ok (Some m), {| ls_rec := ls_rec st; ls_pre := ls_pre st; ls_tick := S (ls_tick st) |}) /\ lm_disc m <> [] /\ has_prefix (lm_disc m) (b :: s) = true) \/
  (~ found (b :: s) /\ forall n st, ls_pre st = false -> range_channels channels (fun chs => find_in_channels (cbm channels (S n)) chs (b :: s)) st = (Ok None, {| ls_rec := ls_rec st; ls_pre := ls_pre st; ls_tick := S (ls_tick st) |})).
Proof.
  assert (Am : forall k p, In p (channels k) -> among channels p) by (intros k p H; exists k; exact H).
  destruct (find_answer (channels 0) b s (Am 0)) as [(m & _ & _ & _ & F)|[_ Ha]].
  - left. split; [exact F|]. intros n st P. destruct (find_answer (channels (ls_tick st)) b s (Am _)) as [(m' & Hm & Nm & Pm & _)|[_ Ha]].
    + exists m'. split; [unfold range_channels; apply Hm; exact P|auto].
    + exfalso. destruct F as (p & o & (k & Hk) & Ho & V). assert (X := Ha p o (Permutation_in p (Hmap k (ls_tick st)) Hk) Ho). congruence.
  - right. assert (NF : ~ found (b :: s)) by (intros (p & o & (k & Hk) & Ho & V); assert (X := Ha p o (Permutation_in p (Hmap k 0) Hk) Ho); congruence). split; [exact NF|].
    intros n st P. destruct (find_answer (channels (ls_tick st)) b s (Am _)) as [(m' & _ & _ & _ & F)|[Hn _]]; [contradiction|]. unfold range_channels. apply Hn. exact P.
Qed.
End Ends.
