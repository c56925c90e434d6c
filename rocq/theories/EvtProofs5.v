From Coq Require Import Strings.String Strings.Byte Sorting.Permutation Lia.
From Verif Require Import Go GoLemmas RuleModel RootModel RootSpec RootProofs RootProofs2 ParseModel ParseSpec ParseProofs BaseModel BaseSpec EvtModel EvtSpec EvtProofs EvtProofs2 EvtProofs3 EvtProofs4.
Open Scope string_scope.
Open Scope list_scope.

Section Main.
Variable bitsize : N.
Variable parse_float : bytes -> N -> option N.
Notation base := (base_events bitsize parse_float).
Notation means := (means bitsize parse_float).

Lemma base_not_empty : base <> [].
Proof. discriminate. Qed.
Lemma execute_outcomes r o : app_execute base r o <-> exists x, execute_events base (ro_name r) r x /\ o = match x with Ok (None, VNil) => Err | Ok (None, v) => Ok v | Ok (Some l, v) => match v with VNil => match l with [] => Err | y :: _ => Ok y end | _ => Ok v end | Err => Err | Panic => Panic | NoFuel => NoFuel end.
Proof.
  split.
  - intros H. inversion H as [E|o' Ne He]; subst; [destruct (base_not_empty E)|]. inversion He as [x Hx]; subst. exists x. split; [exact Hx|]. destruct x as [[[l|] v]| | |]; cbn; try reflexivity; destruct v; try reflexivity; destruct l; reflexivity.
  - intros (x & Hx & ->). assert (K := ae_some base r _ base_not_empty (ex_outcome base r x Hx)).
    replace (match x with Ok (None, VNil) => Err | Ok (None, v) => Ok v | Ok (Some l, v) => match v with VNil => match l with [] => Err | y :: _ => Ok y end | _ => Ok v end | Err => Err | Panic => Panic | NoFuel => NoFuel end) with (let* v := (let* x0 := x in build_result (fst x0) (snd x0)) in Ok (match v with VResult l => nth 0 l VNil | _ => VNil end)); [exact K|].
    destruct x as [[[l|] v]| | |]; cbn; try reflexivity; destruct v; try reflexivity; destruct l; reflexivity.
Qed.
Lemma execute_obj n r x : ro_name r = bs n -> execute_events base (bs n) r (Ok (None, VObj x)) -> app_execute base r (Ok (VObj x)).
Proof. intros E H. apply execute_outcomes. rewrite E. exists (Ok (None, VObj x)). split; [exact H|reflexivity]. Qed.
Lemma means_possible n r x : means n r x -> ro_name r = bs n -> app_execute base r (Ok (VObj x)).
Proof. intros H E. eapply execute_obj; [exact E|]. apply (proj1 (means_gives False bitsize parse_float) n r x H). intros []. Qed.
Lemma means_only n r x : means n r x -> ro_name r = bs n -> clear r -> forall o, app_execute base r o <-> o = Ok (VObj x).
Proof.
  intros H E C o. split; [|intros ->; eapply means_possible; eassumption]. intros X. apply execute_outcomes in X. destruct X as (y & Hy & ->). rewrite E in Hy.
  destruct (proj1 (means_gives True bitsize parse_float) n r x H (fun _ => C)) as [_ U]. apply (U I) in Hy. subst y. reflexivity.
Qed.
End Main.

(* ---- a check for clear ---- *)
Fixpoint r_names (r : root) : list bytes := match r with Root _ _ l => concat (map n_names l) end
with n_names (n : node) : list bytes := match n with Node k l => k :: concat (map c_names l) end
with c_names (c : container) : list bytes := match c with Container _ k o => k :: match o with Some r => r_names r | None => [] end end.
Definition member (w : bytes) (l : list bytes) : bool := existsb (bytes_eqb w) l.
Definition soughtb (y : node) : bool := existsb (fun c => match co_root c with Some _ => true | None => false end) (no_list y) || bytes_eqb (no_name y) (bs "KEYNAME_PATTERN").
Definition clear_here (r : root) : bool := forallb (fun y => forallb (fun x => bytes_eqb (no_name x) (no_name y) || negb (soughtb y) || negb (member (no_name y) (n_names x))) (ro_nodes r)) (ro_nodes r).
Fixpoint clear_r (r : root) : bool := match r with Root w k l => clear_here (Root w k l) && forallb clear_n l end
with clear_n (n : node) : bool := match n with Node _ l => forallb clear_c l end
with clear_c (c : container) : bool := match c with Container _ _ o => match o with Some r => clear_r r | None => true end end.
Lemma names_nodes n l : node_in n l -> forall w, w = no_name n \/ In w (map co_name (no_list n)) -> exists x, In x l /\ In w (n_names x).
Proof.
  induction 1 as [n l H|n x c r l Hx Hc Er H IH]; intros w Hw.
  - exists n. split; [exact H|]. destruct n as [k cs]. cbn in *. destruct Hw as [->|Hw]; [left; reflexivity|right]. apply in_map_iff in Hw. destruct Hw as ([t v o] & <- & Hc). apply in_concat. exists (c_names (Container t v o)). split; [apply in_map; exact Hc|left; reflexivity].
  - destruct (IH w Hw) as (y & Hy & Iw). exists x. split; [exact Hx|]. destruct x as [k cs]. cbn in *. right. apply in_concat. exists (c_names c). split; [apply in_map; exact Hc|]. destruct c as [t v o]. cbn in Er. subst o. cbn. right. destruct r as [a b l']. cbn in *. apply in_concat. exists (n_names y). split; [apply in_map; exact Hy|exact Iw].
Qed.
Lemma member_false w l : member w l = false -> ~ In w l.
Proof. intros H I. assert (X : member w l = true) by (apply existsb_exists; exists w; split; [exact I|apply bytes_eqb_refl]). congruence. Qed.
Lemma here_clear r x y : clear_here r = true -> In x (ro_nodes r) -> In y (ro_nodes r) -> no_name x <> no_name y -> sought y -> absent (no_name y) x.
Proof.
  intros H Hx Hy Ne S. unfold clear_here in H. rewrite forallb_forall in H. specialize (H y Hy). rewrite forallb_forall in H. specialize (H x Hx).
  assert (E : bytes_eqb (no_name x) (no_name y) = false) by (apply bytes_eqb_neq; exact Ne). rewrite E in H.
  assert (S' : soughtb y = true).
  { unfold soughtb. apply orb_true_iff. destruct S as [(c & Hc & Nc)|S]; [left; apply existsb_exists; exists c; split; [exact Hc|destruct (co_root c); congruence]|right; rewrite S; apply bytes_eqb_refl]. }
  rewrite S' in H. cbn in H. apply negb_true_iff in H. apply member_false in H. split.
  - intros n Hn X. apply H. destruct (names_nodes n [x] Hn (no_name y)) as (z & [<-|[]] & I); [left; congruence|exact I].
  - intros c (n & Hn & Hc) X. apply H. destruct (names_nodes n [x] Hn (no_name y)) as (z & [<-|[]] & I); [right; rewrite <- X; apply in_map; exact Hc|exact I].
Qed.
Lemma check_node r n c q : clear_r r = true -> In n (ro_nodes r) -> In c (no_list n) -> co_root c = Some q -> clear_r q = true.
Proof.
  destruct r as [w k l]. cbn [clear_r ro_nodes]. intros H Hn Hc E. apply andb_true_iff in H. destruct H as [_ H]. rewrite forallb_forall in H. specialize (H n Hn). destruct n as [a cs]. cbn in *. rewrite forallb_forall in H. specialize (H c Hc). destruct c as [t v o]. cbn in *. subst o. exact H.
Qed.
Lemma check_inside q r : inside q r -> clear_r r = true -> clear_r q = true.
Proof.
  intros (c & (n & Hn & Hc) & E) H. remember (ro_nodes r) as l eqn:El. revert r El H. induction Hn as [n l I|n x d p l Hx Hd Ep Hn IH]; intros r -> H; [eapply check_node; eassumption|]. eapply (IH Hc p eq_refl). eapply check_node; eassumption.
Qed.
Lemma check_clear r : clear_r r = true -> clear r.
Proof.
  intros H q x y Hq Hx Hy Ne S. assert (Q : clear_r q = true) by (destruct Hq as [->|Hq]; [exact H|eapply check_inside; eassumption]).
  apply (here_clear q); try assumption. destruct q as [w k l]. cbn in Q. apply andb_true_iff in Q. apply Q.
Qed.
