(* LinkProofs.v - proofs for LinkProps.v. *)
From Coq Require Import Strings.String Strings.Byte Lia.
From Verif Require Import Go GoLemmas DomainModel DomainProofs RuleModel RuleProofs TextModel TextSpec TextProofs3 LinkModel LinkSpec.
Open Scope list_scope.

Lemma mlook_same {V} (m : gmap V) k v : mlookup (minsert m k v) k = Some v.
Proof. cbn. assert (E : bytes_eqb k k = true) by (apply bytes_eqb_eq; reflexivity). rewrite E. reflexivity. Qed.
Lemma mlook_other {V} (m : gmap V) k v n : k <> n -> mlookup (minsert m k v) n = mlookup m n.
Proof. intros N. cbn. destruct (bytes_eqb k n) eqn:E; [apply bytes_eqb_eq in E; contradiction|reflexivity]. Qed.
Lemma bytes_dec (a b : bytes) : a = b \/ a <> b.
Proof. destruct (bytes_eqb a b) eqn:E; [left; apply bytes_eqb_eq; exact E|right; intros ->; assert (X : bytes_eqb b b = true) by (apply bytes_eqb_eq; reflexivity); congruence]. Qed.
Lemma last_such_snoc {A} (P : A -> Prop) l z x : (P z \/ ~ P z) -> (last_such P (l ++ [z]) x <-> (P z /\ x = z) \/ (~ P z /\ last_such P l x)).
Proof.
  intros D. split.
  - intros (a & b & E & Px & Nb). destruct b as [|w b] using rev_ind.
    + apply app_inj_tail in E. destruct E as [_ ->]. left. auto.
    + clear IHb. rewrite app_comm_cons, app_assoc in E. apply app_inj_tail in E. destruct E as [-> ->]. right. split; [apply Nb; apply in_or_app; right; left; reflexivity|]. exists a, b. split; [reflexivity|]. split; [exact Px|]. intros y Hy. apply Nb. apply in_or_app. left. exact Hy.
  - intros [[Pz ->]|[Nz (a & b & -> & Px & Nb)]].
    + exists l, []. split; [reflexivity|]. split; [exact Pz|]. intros y [].
    + exists a, (b ++ [z]). split; [rewrite <- app_assoc; reflexivity|]. split; [exact Px|]. intros y Hy. apply in_app_or in Hy. destruct Hy as [Hy|[<-|[]]]; [apply Nb; exact Hy|exact Nz].
Qed.
Lemma last_such_exists {A} (P : A -> Prop) l y : (forall x, P x \/ ~ P x) -> In y l -> P y -> exists x, last_such P l x.
Proof.
  intros D. induction l as [|z l IH] using rev_ind; intros Hy Py; [destruct Hy|]. destruct (D z) as [Pz|Nz].
  - exists z. apply last_such_snoc; [apply D|]. left. auto.
  - apply in_app_or in Hy. destruct Hy as [Hy|[->|[]]]; [|contradiction]. destruct (IH Hy Py) as [x Hx]. exists x. apply last_such_snoc; [apply D|]. right. auto.
Qed.
Lemma last_such_in {A} (P : A -> Prop) l x : last_such P l x -> In x l /\ P x.
Proof. intros (a & b & -> & Px & _). split; [apply in_or_app; right; left; reflexivity|exact Px]. Qed.
Lemma last_such_one {A} (P : A -> Prop) l x y : (forall x, P x \/ ~ P x) -> last_such P l x -> last_such P l y -> x = y.
Proof.
  intros D. induction l as [|z l IH] using rev_ind; intros Hx Hy; [apply last_such_in in Hx; destruct Hx as [[] _]|]. apply last_such_snoc in Hx; [|apply D]. apply last_such_snoc in Hy; [|apply D].
  destruct Hx as [[P1 ->]|[N1 Hx]], Hy as [[P2 ->]|[N2 Hy]]; [reflexivity|contradiction|contradiction|apply IH; assumption].
Qed.
Lemma is_local_dec n x : is_local n x \/ ~ is_local n x. Proof. apply bytes_dec. Qed.
Lemma is_reference_dec i r x : is_reference i r x \/ ~ is_reference i r x.
Proof. unfold is_reference. destruct (bytes_dec (in_name (lk_include x)) i), (bytes_dec (lk_reference x) r); tauto. Qed.

Lemma ref_step_lookup m x i r :
  match mlookup (ref_step m x) i with Some k => mlookup k r | None => None end =
  if bytes_eqb (in_name (lk_include x)) i && bytes_eqb (lk_reference x) r then Some x else match mlookup m i with Some k => mlookup k r | None => None end.
Proof.
  unfold ref_step. set (n := in_name (lk_include x)). set (m' := match mlookup m n with Some _ => m | None => minsert m n [] end).
  assert (L : exists k, mlookup m' n = Some k /\ k = match mlookup m n with Some k => k | None => [] end) by (subst m'; destruct (mlookup m n) as [k|] eqn:E; [exists k; auto|exists []; split; [apply mlook_same|reflexivity]]).
  destruct L as (k & Ek & Dk). rewrite Ek. destruct (bytes_eqb n i) eqn:E; cbn [andb].
  - apply bytes_eqb_eq in E. subst i. rewrite mlook_same. cbn [mlookup minsert]. destruct (bytes_eqb (lk_reference x) r); [reflexivity|]. rewrite Dk. destruct (mlookup m n); reflexivity.
  - rewrite mlook_other by (intros ->; assert (X : bytes_eqb i i = true) by (apply bytes_eqb_eq; reflexivity); congruence). subst m'. destruct (mlookup m n); [reflexivity|]. rewrite mlook_other; [reflexivity|]. intros ->. assert (X : bytes_eqb i i = true) by (apply bytes_eqb_eq; reflexivity). congruence.
Qed.
Lemma ref_lookup l i r x : match mlookup (ref_map l) i with Some k => mlookup k r | None => None end = Some x <-> last_such (is_reference i r) l x.
Proof.
  revert x. unfold ref_map. induction l as [|z l IH] using rev_ind; intros x.
  - cbn. split; [discriminate|]. intros H. apply last_such_in in H. destruct H as [[] _].
  - rewrite fold_left_app. cbn [fold_left]. rewrite ref_step_lookup. rewrite last_such_snoc by apply is_reference_dec. unfold is_reference at 1 2.
    destruct (bytes_eqb (in_name (lk_include z)) i) eqn:E1; [apply bytes_eqb_eq in E1|assert (N : in_name (lk_include z) <> i) by (intros X; apply bytes_eqb_eq in X; congruence)]; cbn [andb].
    + destruct (bytes_eqb (lk_reference z) r) eqn:E2; [apply bytes_eqb_eq in E2|assert (N : lk_reference z <> r) by (intros X; apply bytes_eqb_eq in X; congruence)].
      * split; [intros [= <-]; left; auto|intros [[_ ->]|[N _]]; [reflexivity|exfalso; apply N; auto]].
      * rewrite IH. split; [intros H; right; split; [tauto|exact H]|intros [[[_ X] _]|[_ H]]; [contradiction|exact H]].
    + rewrite IH. split; [intros H; right; split; [tauto|exact H]|intros [[[X _] _]|[_ H]]; [contradiction|exact H]].
Qed.
Lemma links_now_iff s k : links_now s = Ok k -> exists l, s = Some l /\ l <> [] /\ k = {| ks_list := l; ks_local := local_map l; ks_ref := ref_map l |}.
Proof. unfold links_now. destruct s as [[|x l]|]; cbn [norm_list]; try discriminate. intros [= <-]. eexists. split; [reflexivity|]. split; [discriminate|reflexivity]. Qed.
Lemma links_built s : (exists k, links_now s = Ok k) <-> exists x l, s = Some (x :: l).
Proof.
  unfold links_now. destruct s as [[|x l]|]; cbn [norm_list]; split; try (intros (k & H); discriminate).
  - intros (x & l & H). discriminate. 
  - intros _. eauto.
  - intros _. eauto.
  - intros (x & l & H). discriminate.
Qed.
Lemma links_refused s : links_now s = Err <-> s = None \/ s = Some [].
Proof. unfold links_now. destruct s as [[|x l]|]; cbn [norm_list]; split; auto; intros H; try discriminate; destruct H; discriminate. Qed.
Lemma local_exact l k x : links_now (Some l) = Ok k -> forall n, fetch_by_local k n = Ok x <-> last_such (is_local n) l x.
Proof.
  intros H n. destruct (links_now_iff _ _ H) as (l' & [= <-] & _ & ->). unfold fetch_by_local. cbn [ks_local]. unfold local_map. assert (L := last_lookup lk_local l n x). unfold last_named in L. unfold last_such, is_local. rewrite <- L.
  destruct (mlookup _ n); split; congruence.
Qed.
Lemma reference_exact l k x : links_now (Some l) = Ok k -> forall i r, fetch_by_reference k i r = Ok x <-> last_such (is_reference i r) l x.
Proof.
  intros H i r. destruct (links_now_iff _ _ H) as (l' & [= <-] & _ & ->). unfold fetch_by_reference. cbn [ks_ref]. rewrite <- ref_lookup. destruct (mlookup (ref_map l) i) as [m|]; [|split; discriminate]. destruct (mlookup m r); split; congruence.
Qed.
Lemma fetch_total k n : fetch_by_local k n = Err \/ exists x, fetch_by_local k n = Ok x.
Proof. unfold fetch_by_local. destruct (mlookup _ n); eauto. Qed.
Lemma fetch_ref_total k i r : fetch_by_reference k i r = Err \/ exists x, fetch_by_reference k i r = Ok x.
Proof. unfold fetch_by_reference. destruct (mlookup _ i) as [m|]; [destruct (mlookup m r)|]; eauto. Qed.
Lemma local_fails l k n : links_now (Some l) = Ok k -> (fetch_by_local k n = Err <-> forall x, In x l -> ~ is_local n x).
Proof.
  intros H. split.
  - intros E x Hx Px. destruct (last_such_exists (is_local n) l x (is_local_dec n) Hx Px) as [y Hy]. apply (local_exact l k y H) in Hy. congruence.
  - intros N. destruct (fetch_total k n) as [E|[x E]]; [exact E|]. apply (local_exact l k x H) in E. apply last_such_in in E. destruct (N x (proj1 E) (proj2 E)).
Qed.
Lemma reference_fails l k i r : links_now (Some l) = Ok k -> (fetch_by_reference k i r = Err <-> forall x, In x l -> ~ is_reference i r x).
Proof.
  intros H. split.
  - intros E x Hx Px. destruct (last_such_exists (is_reference i r) l x (is_reference_dec i r) Hx Px) as [y Hy]. apply (reference_exact l k y H) in Hy. congruence.
  - intros N. destruct (fetch_ref_total k i r) as [E|[x E]]; [exact E|]. apply (reference_exact l k x H) in E. apply last_such_in in E. destruct (N x (proj1 E) (proj2 E)).
Qed.
Lemma links_of_text text r o l : to_references text = Ok r -> o = rf_references r \/ o = rf_replacements r -> o = Some l -> exists k, links_now o = Ok k /\ links_all k = l.
Proof.
  intros H Ho ->. assert (K : l <> []).
  { unfold to_references in H. apply bind_ok in H. destruct H as (inc & _ & H). apply bind_ok in H. destruct H as (a & Ha & H). apply bind_ok in H. destruct H as (b & Hb & H). inversion H; subst r. cbn [rf_references rf_replacements] in Ho.
    unfold read_references in Ha. apply bind_ok in Ha. destruct Ha as (la & _ & Ha). unfold read_replacements in Hb. apply bind_ok in Hb. destruct Hb as (lb & _ & Hb). inversion Ha; inversion Hb; subst.
    destruct Ho as [Ho|Ho]; [destruct la|destruct lb]; cbn [links_of] in Ho; inversion Ho; subst; discriminate. }
  destruct l as [|x l]; [contradiction|]. eexists. split; reflexivity.
Qed.
