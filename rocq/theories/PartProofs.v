From Coq Require Import Strings.String Strings.Byte Lia.
From Verif Require Import Go GoLemmas DomainModel DomainSpec BaseModel BaseSpec BaseProofs RuleModel LexModel AstModel RootModel BuildModel BuildSpec BuildProofs PartModel LexProofs RootProofs RootSpec.
Open Scope list_scope.

Ltac parts_made :=
  intros; first [rewrite run1 | rewrite run2 | rewrite run3];
  unfold a1, a2, b2, a3, b3, c3, bytes in *;
  repeat match goal with |- context [latest ?i ?c ?f ?l] => let v := fresh "v" in set (v := latest i c f l) in *; clearbody v end;
  cbv beta iota zeta delta [container_now node_now root_now nodes_now];
  rewrite ?no_empty_filled; unfold filled;
  repeat match goal with
  | |- context [match ?o with Some _ => _ | None => _ end] => is_var o; destruct o
  | |- context [match ?o with [] => _ | _ :: _ => _ end] => is_var o; destruct o
  end;
  first [ eapply builds_ok; [reflexivity|]; intros; cbn; split; [intros ->; repeat eexists; try reflexivity; try discriminate; try assumption | intros; repeat match goal with H : exists _, _ |- _ => destruct H | H : _ /\ _ |- _ => destruct H | H : Some _ = Some _ |- _ => inversion H; clear H; subst end; try subst; first [reflexivity | congruence]]
        | eapply builds_err; [reflexivity|]; intros ? K; cbn in K; repeat match goal with H : exists _, _ |- _ => destruct H | H : _ /\ _ |- _ => destruct H | H : Some _ = Some _ |- _ => inversion H; clear H; subst end; congruence ].

(* ---- the last of a name ---- *)
Section Last.
Context {C : Type} (name : C -> bytes).
Lemma by_name_last l : forall m n,
  match mlookup (by_name name l m) n with
  | Some y => (exists a b, l = a ++ y :: b /\ name y = n /\ Forall (fun z => name z <> n) b) \/ (mlookup m n = Some y /\ Forall (fun z => name z <> n) l)
  | None => Forall (fun z => name z <> n) l /\ mlookup m n = None
  end.
Proof.
  induction l as [|c l IH]; intros m n; cbn [by_name]; [destruct (mlookup m n); [right|]; auto|].
  specialize (IH (minsert m (name c) c) n). destruct (mlookup (by_name name l (minsert m (name c) c)) n) as [y|].
  - destruct IH as [(a & b & -> & E & F)|[L F]]; [left; exists (c :: a), b; auto|]. cbn [minsert mlookup] in L. destruct (bytes_eqb (name c) n) eqn:E.
    + injection L as <-. apply bytes_eqb_eq in E. left. exists [], l. auto.
    + apply bytes_eqb_neq in E. right. auto.
  - destruct IH as [F L]. cbn [minsert mlookup] in L. destruct (bytes_eqb (name c) n) eqn:E; [discriminate|]. apply bytes_eqb_neq in E. split; [constructor; assumption|exact L].
Qed.
End Last.
Lemma fetch_last {C} (name : C -> bytes) l n :
  match containers_fetch (MkContainers l (by_name name l [])) n with
  | Ok y => exists a b, l = a ++ y :: b /\ name y = n /\ Forall (fun z => name z <> n) b
  | Err => Forall (fun z => name z <> n) l
  | _ => False
  end.
Proof.
  unfold containers_fetch. pose proof (by_name_last name l [] n) as H. destruct (mlookup _ _); [|apply H]. destruct H as [H|[H _]]; [exact H|discriminate].
Qed.
Lemma containers_lemma (C : Type) (name content : C -> bytes) (ops : list (op1 (option (list C)))) :
  match a1 None ops with
  | Some (c :: l) =>
    exists x, containers_now name (after1 None ops) = Ok x /\ containers_list x = c :: l /\ containers_content content x = concat (map content (c :: l)) /\
    forall n, match containers_fetch x n with
              | Ok y => exists a b, c :: l = a ++ y :: b /\ name y = n /\ Forall (fun z => name z <> n) b
              | Err => Forall (fun z => name z <> n) (c :: l)
              | _ => False
              end
  | _ => containers_now name (after1 None ops) = Err
  end.
Proof.
  rewrite run1. unfold containers_now. rewrite no_empty_filled. destruct (a1 None ops) as [[|c l]|]; [reflexivity| |reflexivity].
  eexists. split; [reflexivity|]. split; [reflexivity|]. split; [apply join_concat|]. intros n. apply fetch_last.
Qed.

(* ---- maps ---- *)
Lemma mlookup_in {V} (l : list (bytes * V)) n x : NoDup (map fst l) -> (mlookup l n = Some x <-> In (n, x) l).
Proof.
  induction l as [|[k v] l IH]; cbn [map fst mlookup]; intros N; [split; [discriminate|intros []]|]. inversion N as [|? ? N1 N2]; subst. destruct (bytes_eqb k n) eqn:E.
  - apply bytes_eqb_eq in E. subst k. split; [intros [= ->]; left; reflexivity|]. intros [[= ->]|I]; [reflexivity|]. exfalso. apply N1. apply (in_map fst) in I. exact I.
  - apply bytes_eqb_neq in E. rewrite (IH N2). split; [right; assumption|]. intros [[= -> ->]|I]; [contradiction|exact I].
Qed.
Lemma mlookup_none {V} (l : list (bytes * V)) n : mlookup l n = None <-> ~ In n (map fst l).
Proof.
  induction l as [|[k v] l IH]; cbn [map fst mlookup]; [split; [intros _ []|reflexivity]|]. destruct (bytes_eqb k n) eqn:E.
  - apply bytes_eqb_eq in E. subst. split; [discriminate|]. intros H. exfalso. apply H. left. reflexivity.
  - apply bytes_eqb_neq in E. rewrite IH. split; [intros H [X|X]; auto|]. intros H X. apply H. right. exact X.
Qed.
Lemma nodes_lemma (T : Type) (l : list (bytes * T)) (n : bytes) :
  NoDup (map fst l) ->
  nodes_amount (MkNodes l) = N.of_nat (length l) /\
  (forall x, nodes_fetch (MkNodes l) n = Ok x <-> In (n, x) l) /\
  (nodes_fetch (MkNodes l) n = Err <-> ~ In n (map fst l)) /\
  (nodes_exists (MkNodes l) n = true <-> In n (map fst l)).
Proof.
  intros N. split; [reflexivity|]. unfold nodes_fetch, nodes_exists. cbn [nodes_all]. split; [|split].
  - intros x. rewrite <- (mlookup_in l n x N). destruct (mlookup l n); split; congruence.
  - rewrite <- mlookup_none. destruct (mlookup l n); split; congruence.
  - destruct (mlookup l n) as [y|] eqn:E; [|split; [discriminate|]; intros I; apply mlookup_none in E; contradiction].
    split; [|reflexivity]. intros _. apply (mlookup_in l n y N) in E. apply (in_map fst) in E. exact E.
Qed.

(* ---- the root of a tree ---- *)
Lemma holds_shows all l cs : RootSpec.holds all l cs -> map co_content cs = map en_text l /\ map co_name cs = map en_name l.
Proof. induction 1 as [|all n w l cs H [A B]|all n t y r l cs L M H [A B]]; [split; reflexivity|..]; cbn [map co_content co_name en_text en_name]; split; congruence. Qed.
Lemma own_names n l : Forall (fun e => en_name e = n) (filter (has_name n) l).
Proof. apply Forall_forall. intros e I. apply filter_In in I. destruct I as [_ I]. unfold has_name in I. destruct (list_eq_dec _ _ _); [assumption|discriminate]. Qed.
Lemma own_some n l : filter (has_name n) l <> [] <-> exists e, In e l /\ en_name e = n.
Proof.
  split.
  - intros H. destruct (filter (has_name n) l) as [|e r] eqn:E; [contradiction|]. assert (I : In e (filter (has_name n) l)) by (rewrite E; left; reflexivity). exists e. split; [apply filter_In in I; apply I|]. apply (proj1 (Forall_forall _ _) (own_names n l) e I).
  - intros (e & I & En) H. assert (X : In e (filter (has_name n) l)); [|rewrite H in X; destruct X]. apply filter_In. split; [exact I|]. unfold has_name. destruct (list_eq_dec _ _ _); [reflexivity|contradiction].
Qed.
Lemma keys_names l : map fst (map (fun x => (no_name x, x)) l) = map no_name l.
Proof. rewrite map_map. reflexivity. Qed.
Lemma root_parts t s r : fst (to_root t s) = Ok (Some r) ->
  NoDup (map no_name (ro_nodes r)) /\ (forall n, In n (map no_name (ro_nodes r)) <-> In n (map en_name (entries (at_matches t)))) /\
  (forall x, In x (ro_nodes r) -> RootSpec.holds (within t) (filter (has_name (no_name x)) (entries (at_matches t))) (no_list x)).
Proof. intros H. apply root_mirrors in H. inversion H as [name line ms nodes A B D E1 E2]. subst. cbn [ro_nodes at_matches]. auto. Qed.
Lemma named_entries n l : In n (map en_name l) <-> exists e, In e l /\ en_name e = n.
Proof. rewrite in_map_iff. split; intros (e & A & B); exists e; auto. Qed.
Lemma amount_lemma t s r : fst (to_root t s) = Ok (Some r) ->
  exists names, NoDup names /\ (forall n, In n names <-> exists e, In e (entries (at_matches t)) /\ en_name e = n) /\
  nodes_amount (root_nodes r) = N.of_nat (length names) /\ (nodes_amount (root_nodes r) <= N.of_nat (length (entries (at_matches t))))%N /\ nodes_amount (root_nodes r) <> 0%N.
Proof.
  intros H. destruct (root_parts _ _ _ H) as (N & K & _). exists (map no_name (ro_nodes r)). split; [exact N|]. split; [intros n; rewrite K; apply named_entries|].
  unfold nodes_amount, root_nodes. cbn [nodes_all]. rewrite !map_length. split; [reflexivity|]. split.
  - pose proof (NoDup_incl_length N (fun n I => proj1 (K n) I)) as L. rewrite !map_length in L. lia.
  - destruct (root_answers t s) as (A & B & D).
    assert (E : entries (at_matches t) <> []).
    { destruct (at_matches t) eqn:Em; [rewrite (B eq_refl) in H; discriminate|]. intros X. assert (~ solid t) as Ns.
      { intros So. inversion So; subst. cbn [at_matches] in Em. subst. contradiction. }
      rewrite D in H; [discriminate|rewrite ?Em; discriminate|exact Ns]. }
    destruct (entries (at_matches t)) as [|e es]; [contradiction|]. assert (I : In (en_name e) (map no_name (ro_nodes r))) by (apply K; left; reflexivity).
    destruct (ro_nodes r); [destruct I|]. cbn [length]. lia.
Qed.
Lemma parts_lemma t s r n : fst (to_root t s) = Ok (Some r) ->
  let own := filter (has_name n) (entries (at_matches t)) in
  (nodes_exists (root_nodes r) n = true <-> own <> []) /\
  match nodes_fetch (root_nodes r) n with
  | Ok x =>
    no_name x = n /\ containers_content co_content (node_containers x) = concat (map en_text own) /\
    (forall m, m <> n -> containers_fetch (node_containers x) m = Err) /\
    exists before e c, own = before ++ [e] /\ containers_fetch (node_containers x) n = Ok c /\ co_content c = en_text e /\ co_name c = n
  | Err => own = []
  | _ => False
  end.
Proof.
  intros H own. destruct (root_parts _ _ _ H) as (N & K & P). unfold root_nodes. assert (N' : NoDup (map fst (map (fun x => (no_name x, x)) (ro_nodes r)))) by (rewrite keys_names; exact N).
  destruct (nodes_lemma node _ n N') as (_ & F & E & X). rewrite keys_names in E, X. split.
  { rewrite X, K, named_entries. symmetry. apply own_some. }
  destruct (nodes_fetch _ n) as [x| | |] eqn:Ef.
  2: { destruct own eqn:Eo; [reflexivity|]. exfalso. apply (proj1 E eq_refl). apply K, named_entries, own_some. fold own. rewrite Eo. discriminate. }
  2, 3: unfold nodes_fetch in Ef; destruct (mlookup _ _); discriminate.
  pose proof (proj1 (F x) eq_refl) as I. apply in_map_iff in I. destruct I as (y & Ey & I). injection Ey as En <-. split; [exact En|].
  specialize (P y I). rewrite En in P. fold own in P. destruct (holds_shows _ _ _ P) as (Cc & Cn).
  assert (On : Forall (fun e => en_name e = n) own) by apply own_names.
  assert (An : Forall (fun c => co_name c = n) (no_list y)).
  { apply Forall_forall. intros c Ic. assert (J : In (co_name c) (map en_name own)) by (rewrite <- Cn; apply in_map; exact Ic). apply in_map_iff in J. destruct J as (e & <- & J). apply (proj1 (Forall_forall _ _) On e J). }
  assert (No : own <> []). { apply own_some, named_entries, K. rewrite <- En. apply in_map. exact I. }
  split; [unfold containers_content, node_containers; rewrite join_concat, Cc; reflexivity|]. split.
  - intros m Nm. pose proof (fetch_last co_name (no_list y) m) as L. unfold node_containers. destruct (containers_fetch _ m) as [c| | |]; [|reflexivity|destruct L..].
    destruct L as (a & b & El & Ec & _). exfalso. apply Nm. rewrite <- Ec. apply (proj1 (Forall_forall _ _) An). rewrite El. apply in_or_app. right. left. reflexivity.
  - destruct (exists_last No) as (before & e & Eo). exists before, e. pose proof (fetch_last co_name (no_list y) n) as L. unfold node_containers. destruct (containers_fetch _ n) as [c| | |]; [| |destruct L..].
    + exists c. destruct L as (a & b & El & Ec & Fb). split; [exact Eo|]. split; [reflexivity|]. split; [|exact Ec].
      assert (b = []) as ->. { destruct b as [|z b]; [reflexivity|]. exfalso. inversion Fb as [|? ? Nz _]; subst. apply Nz. apply (proj1 (Forall_forall _ _) An). rewrite El. apply in_or_app. right. right. left. reflexivity. }
      rewrite El, Eo, !map_app in Cc. cbn [map] in Cc. apply app_inj_tail in Cc. apply Cc.
    + exfalso. destruct (no_list y) as [|c l] eqn:El; [rewrite Eo, map_app in Cc; cbn [map] in Cc; destruct (map en_text before); discriminate|].
      inversion L as [|? ? Nc _]; subst. apply Nc. inversion An; assumption.
Qed.
