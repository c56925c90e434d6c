(* ProgProofs7.v - proofs for ProgProps.v: when the root of a tree is clear. *)
From Coq Require Import Strings.String Strings.Byte Sorting.Permutation Lia.
From Verif Require Import Go GoLemmas DomainModel CardModel PatModel RuleModel PathModel PathSpec LexModel AstModel RootModel TextModel PickSpec PickProofs2 EvtSpec AdeqSpec AdeqProofs2 RootSpec RootProofs RootProofs2 ProgProofs6.
Open Scope list_scope.

Definition under (t : tree) : list tree := match t with Branch _ _ l => l | Text _ _ => [] end.
Fixpoint names (t : tree) : list bytes := tree_name t :: match t with Branch _ _ l => concat (map names l) | Text _ _ => [] end.
Definition below (t : tree) : list bytes := concat (map names (under t)).
Definition token_tree (t : tree) : bool := match t with Branch _ _ _ => true | Text _ _ => false end.
Definition seekable (t : tree) : bool := token_tree t || bytes_eqb (tree_name t) (bs "KEYNAME_PATTERN").
(* no child's name occurs in a child of another name *)
Fixpoint clear_b (t : tree) : bool :=
  match t with
  | Text _ _ => true
  | Branch _ _ l => forallb (fun v => if seekable v then forallb (fun u => if bytes_eqb (tree_name u) (tree_name v) then true else negb (existsb (bytes_eqb (tree_name v)) (names u))) l else true) l && forallb clear_b l
  end.
Lemma clear_apart n i l u v : clear_b (Branch n i l) = true -> In u l -> In v l -> seekable v = true -> tree_name u <> tree_name v -> ~ In (tree_name v) (names u).
Proof.
  intros C Iu Iv S N I. cbn [clear_b] in C. apply andb_prop in C. destruct C as [C _]. rewrite forallb_forall in C. specialize (C v Iv). cbv beta in C. rewrite S in C. rewrite forallb_forall in C. specialize (C u Iu). cbv beta in C. destruct (bytes_eqb (tree_name u) (tree_name v)) eqn:E; [apply bytes_eqb_eq in E; contradiction|].
  destruct (existsb (bytes_eqb (tree_name v)) (names u)) eqn:X; [discriminate|]. assert (Y : existsb (bytes_eqb (tree_name v)) (names u) = true) by (apply existsb_exists; exists (tree_name v); split; [exact I|apply bytes_eqb_eq; reflexivity]). congruence.
Qed.
Lemma clear_kid n i l u : clear_b (Branch n i l) = true -> In u l -> clear_b u = true.
Proof. intros C I. cbn [clear_b] in C. apply andb_prop in C. destruct C as [_ C]. rewrite forallb_forall in C. exact (C u I). Qed.
Lemma own_kid t u : own t -> In u (under t) -> own u.
Proof. destruct t as [n w|n i l]; [intros _ []|]. intros O I. apply own_branch in O. destruct O as [_ F]. rewrite Forall_forall in F. exact (F u I). Qed.
(* the nodes of the root *)
Lemma picture_node t r x : pictures t r -> own t -> In x (ro_nodes r) ->
  (exists u, In u (under t) /\ tree_name u = no_name x) /\
  forall c, In c (no_list x) -> co_name c = no_name x /\ exists v, In v (under t) /\ tree_name v = no_name x /\ match co_root c with None => token_tree v = false | Some q => pictures v q end.
Proof.
  intros (a & Ea & Ti & M) O Hx. destruct a as [n i ms]. inversion M as [? ? ? nodes Nd Hn Hh]; subst. cbn [ro_nodes] in Hx. assert (Ti' := Ti). rewrite drawn_entries. cbn [under]. split.
  - assert (I : In (no_name x) (map en_name (entries ms))) by (apply Hn, in_map, Hx). apply in_map_iff in I. destruct I as (e & Ee & He). exists (entry_tree e). split; [apply in_map, He|]. symmetry. apply (proj1 (entry_name (AToken n i ms) _ e Ti He)). symmetry. exact Ee.
  - intros c Hc. specialize (Hh x Hx). assert (Su : forall e, In e (filter (has_name (no_name x)) (entries ms)) -> In e (entries ms) /\ en_name e = no_name x) by (intros e He; apply filter_In in He; destruct He as [H1 H2]; apply has_name_true in H2; auto).
    revert Hc Su Hh. generalize (filter (has_name (no_name x)) (entries ms)) (no_list x) (no_name x). clear Hx x. intros es cs nx Hc Su Hh. revert Hc Su. remember (within (AToken n i ms)) as all eqn:Ew. induction Hh as [|all m w es' cs' H IH|all m t y q es' cs' L My H IH]; intros Hc Su; [destruct Hc| |].
    + destruct Hc as [<-|Hc]; [|apply (IH Ew Hc); intros e He; apply Su; right; exact He]. destruct (Su _ (or_introl eq_refl)) as [He En]. cbn [co_name co_root en_name] in *. split; [exact En|]. exists (Text m w). split; [change (Text m w) with (entry_tree (EText m w)); apply in_map, He|]. split; [exact En|reflexivity].
    + destruct Hc as [<-|Hc]; [|apply (IH Ew Hc); intros e He; apply Su; right; exact He]. destruct (Su _ (or_introl eq_refl)) as [He En]. cbn [co_name co_root en_name] in *. split; [exact En|]. exists (drawn t). split; [change (drawn t) with (entry_tree (EToken m t)); apply in_map, He|]. split; [|].
      * symmetry. apply (proj1 (entry_name (AToken n i ms) nx (EToken m t) Ti He)). symmetry. exact En.
      * subst all. assert (D := last_drawn n i ms m t y O He L). exists y. split; [exact D|]. split; [|exact My]. apply (tidy_sub _ y Ti), within_all. destruct L as (a' & b' & E' & _). rewrite E'. apply in_or_app. right. left. reflexivity.
Qed.
Lemma names_kid t u m : In u (under t) -> In m (names u) -> In m (below t).
Proof. intros I H. apply in_concat. exists (names u). split; [apply in_map, I|exact H]. Qed.
Lemma names_is t : names t = tree_name t :: below t.
Proof. destruct t; reflexivity. Qed.
Lemma picture_names n l : node_in n l -> forall t r, l = ro_nodes r -> pictures t r -> own t -> In (no_name n) (below t).
Proof.
  induction 1 as [n l Hn|n x c r' l Hx Hc Er Hn IH]; intros t r -> P O.
  - destruct (picture_node t r n P O Hn) as [(u & Iu & Eu) _]. apply (names_kid t u); [exact Iu|]. rewrite names_is, Eu. left. reflexivity.
  - destruct (picture_node t r x P O Hx) as [_ K]. destruct (K c Hc) as (_ & v & Iv & Ev & Pv). rewrite Er in Pv. assert (B := IH v r' eq_refl Pv (own_kid t v O Iv)). apply (names_kid t v); [exact Iv|]. rewrite names_is. right. exact B.
Qed.
Lemma picture_deep n l : node_in n l -> forall t r, l = ro_nodes r -> pictures t r -> own t -> clear_b t = true -> exists t' r', pictures t' r' /\ own t' /\ clear_b t' = true /\ In n (ro_nodes r').
Proof.
  induction 1 as [n l Hn|n x c r' l Hx Hc Er Hn IH]; intros t r -> P O C; [exists t, r; auto|]. destruct (picture_node t r x P O Hx) as [_ K]. destruct (K c Hc) as (_ & v & Iv & Ev & Pv). rewrite Er in Pv. apply (IH v r' eq_refl Pv (own_kid t v O Iv)). destruct t as [? ?|m i k]; [destruct Iv|]. exact (clear_kid m i k v C Iv).
Qed.
Lemma pictures_token t r : pictures t r -> token_tree t = true.
Proof. intros (a & <- & _). destruct a. rewrite drawn_entries. reflexivity. Qed.
Lemma picture_clear t r : pictures t r -> own t -> clear_b t = true -> clear r.
Proof.
  intros P O C q x y Hq Hx Hy N S.
  assert (K : exists t', pictures t' q /\ own t' /\ clear_b t' = true).
  { destruct Hq as [->|(c & (n & Hn & Hc) & Er)]; [eauto|]. destruct (picture_deep n _ Hn t r eq_refl P O C) as (t' & r' & P' & O' & C' & Hn'). destruct (picture_node t' r' n P' O' Hn') as [_ K]. destruct (K c Hc) as (_ & v & Iv & _ & Pv). rewrite Er in Pv. exists v. split; [exact Pv|]. split; [exact (own_kid t' v O' Iv)|]. destruct t' as [? ?|m i k]; [destruct Iv|]. exact (clear_kid m i k v C' Iv). }
  clear t r P O C Hq. destruct K as (t & P & O & C). destruct (picture_node t q x P O Hx) as [_ Kx]. destruct (picture_node t q y P O Hy) as [(vy & Iy & Ey) Ky].
  assert (Sy : exists v, In v (under t) /\ tree_name v = no_name y /\ seekable v = true).
  { destruct S as [(c & Hc & Nc)|S].
    - destruct (Ky c Hc) as (_ & v & Iv & Ev & Pv). destruct (co_root c) as [q'|]; [|contradiction]. exists v. split; [exact Iv|]. split; [exact Ev|]. unfold seekable. rewrite (pictures_token _ _ Pv). reflexivity.
    - exists vy. split; [exact Iy|]. split; [exact Ey|]. unfold seekable. rewrite Ey, S, (proj2 (bytes_eqb_eq _ _) eq_refl). apply Bool.orb_true_r. }
  clear vy Iy Ey Ky S. destruct Sy as (vy & Iy & Ey & Sy).
  assert (A : forall n, node_in n [x] -> no_name n <> no_name y).
  { intros n Hn. inversion Hn as [n1 l1 I1|n1 x1 c r' l1 I1 Hc Er Hd]; subst; destruct I1 as [I1|[]]; subst; [exact N|]. destruct (Kx c Hc) as (_ & v & Iv & Ev & Pv). rewrite Er in Pv. assert (B := picture_names n _ Hd v r' eq_refl Pv (own_kid t v O Iv)). intros E. destruct t as [? ?|m i l]; [destruct Iv|]. apply (clear_apart m i l v vy C Iv Iy Sy); [congruence|]. rewrite names_is, Ey, <- E. right. exact B. }
  split; [exact A|]. intros c (n & Hn & Hc). assert (Ec : co_name c = no_name n).
  { destruct P as (a & _ & _ & M). apply mirrors_named in M. apply (M n c); [|exact Hc]. clear -Hn Hx. inversion Hn as [n1 l1 I1|n1 x1 c' r' l1 I1 Hc' Er Hd]; subst; destruct I1 as [I1|[]]; subst; [constructor; exact Hx|]. econstructor 2; eauto. }
  rewrite Ec. apply A, Hn.
Qed.
