(* AdeqProofs4.v - conforming trees of the base language mean something. *)
From Coq Require Import Strings.String Strings.Byte Sorting.Permutation Lia.
From Verif Require Import Go GoLemmas DomainModel CardModel PatModel RuleModel PathModel PathSpec LexModel AstModel RootModel RootSpec RootProofs RootProofs2 TextModel BaseModel BaseSpec EvtModel EvtSpec AdeqSpec AdeqProofs AdeqProofs2 AdeqProofs3 RootSpec.
Open Scope string_scope.
Open Scope list_scope.

Section Read.
Variable ts : list token.
Hypothesis Hts : Forall2 (fun x t => token_is x t = true) shapes ts.
Variable bitsize : N.
Variable parse_float : bytes -> N -> option N.
Let conf := conforms ts blank_names False.
Let mean := means bitsize parse_float.

Lemma means_kind n r x : mean n r x -> kind n x.
Proof.
  intros H. destruct H; cbn [kind In]; auto 12.
  cbn in H. destruct H as [H|[H|[H|[H|[H|[H|[]]]]]]]; injection H as <- <-; auto 12.
Qed.
Definition reads_as (s : string) (a : atoken) (r : root) : Prop :=
  if String.eqb s "variableName" then exists w, spells r w
  else exists x, mean s r x /\ kind s x /\ (s = "assigneeNames" -> exists l, x = ONames l /\ length l = S (tokens_named (bs "commaAssigneeName") [a])).
Definition part_good (all : list atoken) (e : entry) (p : part) : Prop :=
  match e, p with
  | EText _ w, T v => v = w
  | EToken n x, K q => exists y, last_with (at_discovery x) all y /\ conf n y /\ forall s, n = bs s -> reads_as s y q
  | _, _ => False
  end.
Lemma groups_read k i ms r s gs :
  conf (bs s) (AToken (bs s) i ms) -> mirrors (AToken (bs s) i ms) r -> kinds_agree (AToken (bs s) i ms) -> numbers_fit bitsize parse_float (AToken (bs s) i ms) ->
  (forall b q m, length (all_of b) < k -> conf (bs m) b -> mirrors b q -> kinds_agree b -> numbers_fit bitsize parse_float b -> reads_as m b q) -> length (all_of (AToken (bs s) i ms)) <= k ->
  nonblank (entries ms) = concat (map snd gs) -> Forall group_ok gs -> (forall n x, In (EToken n x) (entries ms) -> ~ In n blank_names) ->
  exists L, parts r L /\ Forall2 (fun g x => fst x = fst g /\ Forall2 (part_good (RootSpec.within (AToken (bs s) i ms))) (snd g) (snd x)) (merge gs) L.
Proof.
  intros Hc Hm Ha Hn IH Hk En Fg Nb. destruct (parts_of_groups (bs s) i ms r gs Hm En Fg Nb) as (L & HL & F). exists L. split; [exact HL|].
  assert (Mg := merge_merged gs Fg). destruct Mg as (_ & Mg & _). rewrite <- En in Mg.
  assert (Sub : forall g e, In g (merge gs) -> In e (snd g) -> In e (entries ms)).
  { intros g e Hg He. destruct (Mg g Hg) as [Eg _]. rewrite Eg in He. apply filter_In in He. destruct He as [He _]. apply filter_In in He. apply He. }
  clear Mg En Fg Nb HL. induction F as [|g x m L [E Fx] F IHF]; [constructor|]. constructor; [|apply IHF; intros g' e Hg He; apply (Sub g' e); [right; exact Hg|exact He]]. split; [exact E|].
  assert (Sg : forall e, In e (snd g) -> In e (entries ms)) by (intros e He; apply (Sub g); [left; reflexivity|exact He]). clear -Fx Sg IH Hk Hc Hm Ha Hn Hts.
  induction Fx as [|e p es ps Hp Fp IHp]; [constructor|]. constructor; [|apply IHp; intros e' He; apply Sg; right; exact He]. assert (Hin := Sg e (or_introl eq_refl)). destruct e as [n w|n z], p as [v|q]; cbn [part_ok part_good] in Hp |- *; try contradiction; [exact Hp|].
  destruct Hp as (y & Hy & My). assert (Ly : In y (RootSpec.within (AToken (bs s) i ms))) by (destruct Hy as (a & b & El & _); rewrite El; apply in_or_app; right; left; reflexivity).
  destruct (within_all _ _ Ly) as [Ay Sy]. assert (Cx : conf n z) by (eapply conforms_kid; [exact Hts|exact Hc|exact Hin]). assert (Ny : at_name y = n).
  { rewrite (Ha (AToken (bs s) i ms) n z y); [apply (conforms_name _ _ _ Cx)|apply all_of_self|exact Hin|exact Hy]. }
  assert (Cy : conf n y) by (rewrite <- Ny; eapply conforms_all; [exact Hts|exact Hc|exact Ay]). exists y. split; [exact Hy|]. split; [exact Cy|]. intros s' ->. apply IH; try assumption; [lia| |].
  - intros b m z' w Hb. apply Ha. eapply all_of_trans; eassumption.
  - intros b Hb. apply Hn. eapply all_of_trans; eassumption.
Qed.
Lemma good_list all n l ps : Forall2 (part_good all) (map (EToken (bs n)) l) ps -> exists qs, ps = map K qs /\ Forall (fun q => exists y, reads_as n y q) qs /\ length qs = length l.
Proof.
  revert ps. induction l as [|x l IH]; intros ps F; inversion F as [|e p es ps' Hp Fp]; subst; [exists []; repeat constructor|]. destruct (IH _ Fp) as (qs & -> & Q & E). cbn in Hp. destruct p as [v|q]; [destruct Hp|]. destruct Hp as (y & _ & _ & Hy). exists (q :: qs). split; [reflexivity|]. split; [constructor; [exists y; apply Hy; reflexivity|exact Q]|cbn; congruence].
Qed.
Lemma each_list {A} (C : A -> obj) n qs : Forall (fun q => exists o, mean n q (C o)) qs -> exists v, each bitsize parse_float n qs (map C v) /\ length v = length qs.
Proof. induction 1 as [|q qs (o & H) F (v & IH & E)]; [exists []; split; [constructor|reflexivity]|]. exists (o :: v). split; [constructor; assumption|cbn; congruence]. Qed.
Lemma bool_kind q x : mean "boolValue" q x -> exists b, x = OValue (bool_value b).
Proof. intros H. inversion H; subst; [|eexists; reflexivity..]. match goal with I : In _ _ |- _ => cbn in I; destruct I as [I|[I|[I|[I|[I|[I|[]]]]]]]; discriminate I end. Qed.
End Read.
