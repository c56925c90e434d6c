(* AdeqProofs2.v - the parts of a root, from the entries of its tree. *)
From Coq Require Import Strings.String Strings.Byte Sorting.Permutation Lia.
From Verif Require Import Go GoLemmas DomainModel CardModel PatModel RuleModel PathModel PathSpec LexModel AstModel RootModel RootSpec RootProofs TextModel EvtSpec AdeqSpec AdeqProofs.
Open Scope string_scope.
Open Scope list_scope.

Definition part_ok (all : list atoken) (e : entry) (p : part) : Prop :=
  match e, p with
  | EText _ w, T v => v = w
  | EToken _ t, K q => exists y, last_with (at_discovery t) all y /\ mirrors y q
  | _, _ => False
  end.
Lemma bs_inj a b : bs a = bs b -> a = b.
Proof. unfold bs. intros H. rewrite <- (string_of_list_byte_of_string a), <- (string_of_list_byte_of_string b). congruence. Qed.
Lemma mirrors_content y q : mirrors y q -> ro_content q = at_discovery y.
Proof. intros H. inversion H. reflexivity. Qed.
Lemma mirrors_name y q : mirrors y q -> ro_name q = at_name y.
Proof. intros H. inversion H. reflexivity. Qed.
Lemma holds_parts all n ens cs : holds all ens cs -> Forall (fun e => en_name e = bs n) ens -> exists ps, cs = map (part_container n) ps /\ Forall2 (part_ok all) ens ps.
Proof.
  induction 1 as [all|all m w l cs H IH|all m t y r l cs L M H IH]; intros F.
  - exists []. split; [reflexivity|constructor].
  - apply Forall_cons_iff in F. destruct F as [E F]. destruct (IH F) as (ps & -> & Q). cbn in E. subst m. exists (T w :: ps). split; [reflexivity|constructor; [reflexivity|exact Q]].
  - apply Forall_cons_iff in F. destruct F as [E F]. destruct (IH F) as (ps & -> & Q). cbn in E. subst m. exists (K r :: ps). split.
    + cbn [map part_container]. rewrite (mirrors_content _ _ M). destruct L as (a & b & _ & -> & _). reflexivity.
    + constructor; [exists y; split; assumption|exact Q].
Qed.
Lemma has_name_true n e : has_name n e = true <-> en_name e = n.
Proof. unfold has_name. destruct (list_eq_dec Byte.byte_eq_dec (en_name e) n); split; intros; congruence. Qed.
Lemma nodup_same {A} (f : A -> bytes) l x y : NoDup (map f l) -> In x l -> In y l -> f x = f y -> x = y.
Proof.
  induction l as [|a l IH]; intros N Hx Hy E; [destruct Hx|]. cbn in N. apply NoDup_cons_iff in N. destruct N as [Na N]. destruct Hx as [->|Hx], Hy as [->|Hy]; [reflexivity| | |apply IH; assumption].
  - exfalso. apply Na. rewrite E. apply in_map, Hy.
  - exfalso. apply Na. rewrite <- E. apply in_map, Hx.
Qed.
Lemma nodes_parts name i ms r (names : list string) :
  mirrors (AToken name i ms) r -> NoDup names -> (forall e, In e (entries ms) -> exists n, In n names /\ en_name e = bs n) -> (forall n, In n names -> exists e, In e (entries ms) /\ en_name e = bs n) ->
  exists L, Forall2 (fun n x => fst x = n /\ Forall2 (part_ok (RootSpec.within (AToken name i ms))) (filter (has_name (bs n)) (entries ms)) (snd x)) names L /\ Permutation (ro_nodes r) (map part_node L).
Proof.
  intros M N H1 H2. inversion M as [na li ms' nodes Nd Hn Hh]; subst. cbn [ro_nodes].
  assert (S : forall names', incl names' names -> exists L, Forall2 (fun n x => fst x = n /\ Forall2 (part_ok (RootSpec.within (AToken name i ms))) (filter (has_name (bs n)) (entries ms)) (snd x) /\ In (part_node x) nodes) names' L).
  { induction names' as [|n l IH]; intros I; [exists []; constructor|]. destruct IH as (L & F); [intros z Hz; apply I; right; exact Hz|].
    destruct (H2 n (I n (or_introl eq_refl))) as (e & He & Ee). assert (B : In (bs n) (map no_name nodes)) by (apply Hn; rewrite <- Ee; apply in_map, He).
    apply in_map_iff in B. destruct B as (x & Ex & Hx). assert (Q := Hh x Hx). rewrite Ex in Q. destruct (holds_parts _ n _ _ Q) as (ps & Eps & Fps).
    { apply Forall_forall. intros z Hz. apply filter_In in Hz. apply has_name_true, Hz. }
    exists ((n, ps) :: L). constructor; [|exact F]. split; [reflexivity|]. split; [exact Fps|]. unfold part_node. cbn [fst snd]. rewrite <- Eps, <- Ex. destruct x; exact Hx. }
  destruct (S names (incl_refl _)) as (L & F). exists L. split; [clear -F; induction F as [|n x l L H F IH]; constructor; [tauto|exact IH]|].
  assert (Nn : map fst L = names) by (clear -F; induction F as [|n x l L H F IH]; [reflexivity|cbn; f_equal; [apply H|exact IH]]).
  apply NoDup_Permutation.
  - apply (NoDup_map_inv no_name), Nd.
  - apply (NoDup_map_inv no_name). rewrite map_map. cbn [part_node no_name]. rewrite <- (map_map fst bs). rewrite Nn. apply FinFun.Injective_map_NoDup; [intros a b; apply bs_inj|exact N].
  - assert (Inn : forall x, In x L -> In (part_node x) nodes) by (intros x Hx; clear -F Hx; induction F as [|n y l L H F IH]; [destruct Hx|destruct Hx as [<-|Hx]; [apply H|apply IH, Hx]]).
    intros x. split; intros Hx.
    + assert (B : In (no_name x) (map en_name (entries ms))) by (apply Hn, in_map, Hx). apply in_map_iff in B. destruct B as (e & Ee & He). destruct (H1 e He) as (n & Hin & En).
      rewrite <- Nn in Hin. apply in_map_iff in Hin. destruct Hin as (z & Ez & Hz). apply in_map_iff. exists z. split; [|exact Hz].
      apply (nodup_same no_name nodes); [exact Nd|apply Inn, Hz|exact Hx|]. cbn [part_node no_name]. rewrite Ez. congruence.
    + apply in_map_iff in Hx. destruct Hx as (z & <- & Hz). apply Inn, Hz.
Qed.

(* ---- groups ---- *)
Lemma NoDup_app {A} (l m : list A) : NoDup l -> NoDup m -> (forall x, In x l -> In x m -> False) -> NoDup (l ++ m).
Proof. induction 1 as [|x l Hx N IH]; intros Nm D; [exact Nm|]. cbn. constructor; [intros I; apply in_app_iff in I; destruct I as [I|I]; [contradiction|apply (D x); [left; reflexivity|exact I]]|]. apply IH; [exact Nm|]. intros y Hy. apply D. right. exact Hy. Qed.
Fixpoint add_group (n : string) (g : list entry) (acc : list (string * list entry)) : list (string * list entry) :=
  match acc with [] => [(n, g)] | (m, h) :: r => if String.eqb n m then (m, h ++ g) :: r else (m, h) :: add_group n g r end.
Definition merge (gs : list (string * list entry)) : list (string * list entry) := fold_left (fun acc x => add_group (fst x) (snd x) acc) gs [].
Definition merged (acc : list (string * list entry)) (ens : list entry) : Prop :=
  NoDup (map fst acc) /\ (forall x, In x acc -> snd x = filter (has_name (bs (fst x))) ens /\ snd x <> []) /\ (forall e, In e ens -> exists n, In n (map fst acc) /\ en_name e = bs n).
Lemma add_fst n g acc : forall m, In m (map fst (add_group n g acc)) <-> m = n \/ In m (map fst acc).
Proof. induction acc as [|[k h] r IH]; intros m; cbn; [intuition|]. destruct (String.eqb_spec n k) as [->|Hk]; cbn; [intuition|]. rewrite IH. intuition. Qed.
Lemma filter_none n l : Forall (fun e => en_name e <> n) l -> filter (has_name n) l = [].
Proof. induction 1 as [|e l H F IH]; [reflexivity|]. cbn. destruct (has_name n e) eqn:E; [apply has_name_true in E; congruence|exact IH]. Qed.
Lemma filter_same n l : Forall (fun e => en_name e = n) l -> filter (has_name n) l = l.
Proof. induction 1 as [|e l H F IH]; [reflexivity|]. cbn. apply has_name_true in H. rewrite H. congruence. Qed.
Lemma add_merged n g acc ens : g <> [] -> Forall (fun e => en_name e = bs n) g -> merged acc ens -> merged (add_group n g acc) (ens ++ g).
Proof.
  intros G F (N & H & C). split; [|split].
  - clear H C. induction acc as [|[k h] r IH]; cbn; [constructor; [intros []|constructor]|]. cbn in N. apply NoDup_cons_iff in N. destruct N as [Nk N]. destruct (String.eqb_spec n k) as [->|Hk]; cbn; constructor; try assumption; [|apply IH, N].
    rewrite add_fst. intros [E|E]; [congruence|contradiction].
  - assert (Q : forall x, In x (add_group n g acc) -> exists h, snd x = h ++ (if String.eqb n (fst x) then g else []) /\ (h = [] /\ ~ In (fst x) (map fst acc) \/ In (fst x, h) acc)).
    { clear H C. induction acc as [|[k h] r IH]; intros x Hx; cbn in Hx.
      - destruct Hx as [<-|[]]. cbn. rewrite String.eqb_refl. exists []. split; [reflexivity|left; split; [reflexivity|intros []]].
      - cbn in N. apply NoDup_cons_iff in N. destruct N as [Nk N]. destruct (String.eqb_spec n k) as [->|Hk].
        + destruct Hx as [<-|Hx]; cbn [fst snd]; [rewrite String.eqb_refl; exists h; split; [reflexivity|right; left; reflexivity]|]. exists (snd x). destruct (String.eqb_spec k (fst x)) as [->|Hx']; [exfalso; apply Nk, in_map, Hx|]. rewrite app_nil_r. split; [reflexivity|right; right; destruct x; exact Hx].
        + destruct Hx as [<-|Hx]; cbn [fst snd].
          * exists h. destruct (String.eqb_spec n k); [contradiction|]. rewrite app_nil_r. split; [reflexivity|right; left; reflexivity].
          * destruct (IH N x Hx) as (h' & E & [[-> Hn]|Hi]).
            -- exists []. split; [exact E|]. left. split; [reflexivity|]. cbn. intros [Ek|Hi]; [|contradiction]. assert (I : In (fst x) (map fst (add_group n g r))) by (apply in_map, Hx). rewrite add_fst in I. destruct I as [I|I]; [congruence|contradiction].
            -- exists h'. split; [exact E|right; right; exact Hi]. }
    intros x Hx. destruct (Q x Hx) as (h & E & D). rewrite filter_app.
    assert (Eh : h = filter (has_name (bs (fst x))) ens).
    { destruct D as [[-> D]|D]; [|apply (H _ D)]. symmetry. apply filter_none. apply Forall_forall. intros e He Ee. destruct (C e He) as (m & Hm & Em). rewrite Em in Ee. apply bs_inj in Ee. congruence. }
    assert (Eg : filter (has_name (bs (fst x))) g = if String.eqb n (fst x) then g else []).
    { destruct (String.eqb_spec n (fst x)) as [->|D']; [apply filter_same, F|]. apply filter_none. eapply Forall_impl; [|exact F]. cbn. intros e -> Ee. apply bs_inj in Ee. contradiction. }
    split; [rewrite E, Eg, Eh; reflexivity|]. rewrite E. destruct D as [[-> D]|D].
    + assert (I : In (fst x) (map fst (add_group n g acc))) by (apply in_map, Hx). rewrite add_fst in I. destruct I as [->|I]; [|contradiction]. rewrite String.eqb_refl. exact G.
    + destruct (H _ D) as [_ D']. cbn in D'. intros Z. apply app_eq_nil in Z. tauto.
  - intros e He. apply in_app_iff in He. destruct He as [He|He].
    + destruct (C e He) as (m & Hm & Em). exists m. rewrite add_fst. tauto.
    + rewrite Forall_forall in F. exists n. rewrite add_fst. split; [left; reflexivity|apply F, He].
Qed.
Definition group_ok (g : string * list entry) : Prop := snd g <> [] /\ Forall (fun e => en_name e = bs (fst g)) (snd g).
Lemma merge_merged gs : Forall group_ok gs -> merged (merge gs) (concat (map snd gs)).
Proof.
  unfold merge. assert (Q : forall acc ens, Forall group_ok gs -> merged acc ens -> merged (fold_left (fun acc x => add_group (fst x) (snd x) acc) gs acc) (ens ++ concat (map snd gs))).
  { induction gs as [|[n g] gs IH]; intros acc ens F M; cbn; [rewrite app_nil_r; exact M|]. apply Forall_cons_iff in F. destruct F as [[G F0] F]. rewrite app_assoc. apply IH; [exact F|]. apply add_merged; assumption. }
  intros F. apply (Q [] []); [exact F|]. split; [constructor|split; [intros x []|intros e []]].
Qed.

Definition is_blank (e : entry) : bool := existsb (fun n => has_name (bs n) e) channel_names.
Lemma is_blank_true e : is_blank e = true <-> In (en_name e) blank_names.
Proof. unfold is_blank, blank_names. rewrite existsb_exists, in_map_iff. split; intros (n & A & B); exists n; [rewrite has_name_true in B; auto|rewrite has_name_true; auto]. Qed.
Definition nonblank (l : list entry) : list entry := filter (fun e => negb (is_blank e)) l.
Lemma parts_of_groups name i ms r gs :
  mirrors (AToken name i ms) r -> nonblank (entries ms) = concat (map snd gs) -> Forall group_ok gs -> (forall n x, In (EToken n x) (entries ms) -> ~ In n blank_names) ->
  exists L, parts r L /\ Forall2 (fun g x => fst x = fst g /\ Forall2 (part_ok (RootSpec.within (AToken name i ms))) (snd g) (snd x)) (merge gs) L.
Proof.
  intros M En F B. assert (Mg := merge_merged gs F). destruct Mg as (N & H & C). rewrite <- En in H, C.
  set (ch := filter (fun n => existsb (has_name (bs n)) (entries ms)) channel_names).
  assert (Nb : forall n, In n (map fst (merge gs)) -> ~ In n channel_names).
  { intros n Hn Hc. apply in_map_iff in Hn. destruct Hn as (x & <- & Hx). destruct (H x Hx) as [Ex Dx]. rewrite Ex in Dx. destruct (filter (has_name (bs (fst x))) (nonblank (entries ms))) as [|e l] eqn:Ef; [congruence|].
    assert (Ie : In e (e :: l)) by (left; reflexivity). rewrite <- Ef in Ie. apply filter_In in Ie. destruct Ie as [I1 I2]. apply has_name_true in I2. apply filter_In in I1. destruct I1 as [_ I1]. destruct (is_blank e) eqn:Ib; [discriminate|].
    assert (Ib' : is_blank e = true) by (apply is_blank_true; rewrite I2; apply in_map, Hc). congruence. }
  assert (F1 : forall n, ~ In n channel_names -> filter (has_name (bs n)) (nonblank (entries ms)) = filter (has_name (bs n)) (entries ms)).
  { intros n Hn. unfold nonblank. clear -Hn. induction (entries ms) as [|e l IH]; [reflexivity|]. cbn [filter]. destruct (is_blank e) eqn:Ib; cbn [negb filter].
    - destruct (has_name (bs n) e) eqn:Eh; [|exact IH]. apply has_name_true in Eh. apply is_blank_true in Ib. rewrite Eh in Ib. unfold blank_names in Ib. apply in_map_iff in Ib. destruct Ib as (m & Em & Im). apply bs_inj in Em. congruence.
    - destruct (has_name (bs n) e); [f_equal|]; exact IH. }
  destruct (nodes_parts name i ms r (map fst (merge gs) ++ ch) M) as (L & FL & PL).
  - apply NoDup_app; [exact N| |].
    + apply NoDup_filter. repeat constructor; cbn; intuition discriminate.
    + intros n Hn Hc. apply filter_In in Hc. exact (Nb n Hn (proj1 Hc)).
  - intros e He. destruct (is_blank e) eqn:Ib.
    + assert (Ib' := Ib). apply is_blank_true in Ib'. unfold blank_names in Ib'. apply in_map_iff in Ib'. destruct Ib' as (n & Em & Im). exists n. split; [|congruence]. apply in_or_app. right. apply filter_In. split; [exact Im|]. apply existsb_exists. exists e. split; [exact He|]. apply has_name_true. congruence.
    + destruct (C e) as (n & Hn & Ee); [apply filter_In; split; [exact He|rewrite Ib; reflexivity]|]. exists n. split; [apply in_or_app; left; exact Hn|exact Ee].
  - intros n Hn. apply in_app_iff in Hn. destruct Hn as [Hn|Hn].
    + apply in_map_iff in Hn. destruct Hn as (x & <- & Hx). destruct (H x Hx) as [Ex Dx]. rewrite Ex in Dx. destruct (filter (has_name (bs (fst x))) (nonblank (entries ms))) as [|e l] eqn:Ef; [congruence|].
      assert (Ie : In e (e :: l)) by (left; reflexivity). rewrite <- Ef in Ie. apply filter_In in Ie. destruct Ie as [I1 I2]. apply has_name_true in I2. apply filter_In in I1. exists e. split; [apply I1|exact I2].
    + apply filter_In in Hn. destruct Hn as [_ Hn]. apply existsb_exists in Hn. destruct Hn as (e & He & Hn). apply has_name_true in Hn. exists e. split; assumption.
  - apply Forall2_app_inv_l in FL. destruct FL as (L1 & L2 & FL1 & FL2 & ->). exists L1. split.
    + exists L2. split; [|exact PL]. clear -FL2 B. assert (I : incl ch channel_names) by (intros n Hn; apply filter_In in Hn; apply Hn). revert I FL2. generalize ch as c. intros c I FL2.
      induction FL2 as [|n x l L [En Fx] FL IH]; [constructor|]. constructor; [|apply IH; intros z Hz; apply I; right; exact Hz]. split; [rewrite En; apply I; left; reflexivity|].
      assert (Fe : Forall (fun e => exists w, e = EText (bs n) w) (filter (has_name (bs n)) (entries ms))).
      { apply Forall_forall. intros e He. apply filter_In in He. destruct He as [He Hn]. apply has_name_true in Hn. destruct e as [m w|m t]; cbn in Hn; subst m; [eexists; reflexivity|]. exfalso. apply (B _ _ He). apply in_map, I. left. reflexivity. }
      clear -Fx Fe. induction Fx as [|e p es ps H F IH]; [exists []; reflexivity|]. apply Forall_cons_iff in Fe. destruct Fe as [(w & ->) Fe]. destruct (IH Fe) as (ws & ->). cbn in H. destruct p as [v|]; [|destruct H]. exists (v :: ws). reflexivity.
    + clear -FL1 H F1 Nb. revert FL1 H Nb. generalize (merge gs) as m. intros m FL1 H Nb. revert L1 FL1. induction m as [|x m IH]; intros L1 FL1; inversion FL1 as [|n y l L Hy FL]; subst; [constructor|]. constructor.
      * destruct Hy as [Ey Fy]. split; [exact Ey|]. rewrite (proj1 (H x (or_introl eq_refl))), F1; [exact Fy|]. apply Nb. left. reflexivity.
      * apply IH; [intros z Hz; apply H; right; exact Hz|intros z Hz; apply Nb; right; exact Hz|exact FL].
Qed.
