(* TextProofs3.v - ToPatterns: exactly what a text of patterns means. *)
From Coq Require Import Strings.String Strings.Byte Lia.
From Verif Require Import Go GoLemmas DomainModel CardModel PatModel RuleModel RuleProofs PathModel SigProofs2 Regex RegexProofs TextModel TextBytes TextSpec TextProofs TextProofs2.
Open Scope list_scope.
Local Arguments in_class : simpl never.

(* ---- quotes ---- *)
Lemma hide_replace s : forall n, length s <= n -> replace_all [backslash; dq] escape_code s = hide_quotes s.
Proof.
  intros n. revert s. induction n as [|n IH]; intros s L.
  - destruct s; [reflexivity|cbn in L; lia].
  - destruct s as [|a [|b r]]; [reflexivity| |].
    + unfold replace_all. cbn [replace_go has_prefix hide_quotes]. rewrite andb_false_r. reflexivity.
    + unfold replace_all. cbn [replace_go hide_quotes]. cbn [has_prefix].
      replace (Byte.eqb a backslash) with (Byte.eqb backslash a) by (destruct (Byte.eqb backslash a) eqn:E1, (Byte.eqb a backslash) eqn:E2; try reflexivity; [apply Byte.byte_dec_bl in E1; subst; rewrite eqb_refl in E2; discriminate|apply Byte.byte_dec_bl in E2; subst; rewrite eqb_refl in E1; discriminate]).
      replace (Byte.eqb b dq) with (Byte.eqb dq b) by (destruct (Byte.eqb dq b) eqn:E1, (Byte.eqb b dq) eqn:E2; try reflexivity; [apply Byte.byte_dec_bl in E1; subst; rewrite eqb_refl in E2; discriminate|apply Byte.byte_dec_bl in E2; subst; rewrite eqb_refl in E1; discriminate]).
      rewrite andb_true_r. destruct (Byte.eqb backslash a && Byte.eqb dq b).
      * cbn [length Nat.sub replace_go]. f_equal. apply IH. cbn in L. lia.
      * f_equal. apply (IH (b :: r)). cbn in *. lia.
Qed.
Lemma hide_replace' s : replace_all [backslash; dq] escape_code s = hide_quotes s.
Proof. apply (hide_replace s (length s)). lia. Qed.

Lemma bind_ok {A B} (r : res A) (f : A -> res B) b : bind r f = Ok b -> exists a, r = Ok a /\ f a = Ok b.
Proof. destruct r; cbn; try discriminate. intros H. eauto. Qed.
(* ---- the last of a name ---- *)
Lemma last_lookup {A} (name : A -> bytes) l k x : mlookup (fold_left (fun m x => minsert m (name x) x) l []) k = Some x <-> last_named name l k x.
Proof.
  rewrite fold_minsert_lookup. cbn [mlookup]. assert (F := find_rev_last (fun z => bytes_eqb (name z) k) l x). unfold last_named. split.
  - intros H. destruct (find _ (rev l)) as [y|]; [|discriminate]. injection H as ->. destruct (proj1 F eq_refl) as (a & b & H1 & H2 & H3). exists a, b. split; [exact H1|]. split; [apply bytes_eqb_eq; exact H2|]. intros y I N. specialize (H3 y I). apply bytes_eqb_eq in N. congruence.
  - intros (a & b & H1 & H2 & H3). rewrite (proj2 F); [reflexivity|]. exists a, b. split; [exact H1|]. split; [apply bytes_eqb_eq; exact H2|]. intros y I. destruct (bytes_eqb (name y) k) eqn:B; [|reflexivity]. apply bytes_eqb_eq in B. exfalso. exact (H3 y I B).
Qed.
Lemma last_table_iff {A} (name : A -> bytes) l t : last_table_now name (Some l) = Ok t <-> l <> [] /\ t = (l, fold_left (fun m x => minsert m (name x) x) l []).
Proof. unfold last_table_now. destruct l as [|x l]; cbn [norm_list]; [split; [discriminate|intros [H _]; contradiction]|]. split; [intros [= <-]; split; [discriminate|reflexivity]|intros [_ ->]; reflexivity]. Qed.
Lemma last_table_tame {A} (name : A -> bytes) s : tame (last_table_now name s).
Proof. unfold last_table_now. destruct (norm_list s); [apply tame_ok|apply tame_err]. Qed.
Lemma last_find {A} (name : A -> bytes) l k x : table_find (l, fold_left (fun m x => minsert m (name x) x) l []) k = Ok x <-> last_named name l k x.
Proof. rewrite <- last_lookup. unfold table_find. cbn [snd]. destruct (mlookup _ k); split; congruence. Qed.
Lemma table_find_tame {A} (t : table A) k : tame (table_find t k).
Proof. unfold table_find. destruct (mlookup _ k); [apply tame_ok|apply tame_err]. Qed.

(* ---- groups ---- *)
Definition opt_value (o : bytes) : bytes := if bytes_eqb o escape_code then [dq] else o.
Definition group_fun (d : bytes * bytes) : group := {| g_name := fst d; g_list := map opt_value (strsplit (bs ",") (snd d)) |}.
Lemma opt_value_iff o v : option_value o v <-> v = opt_value o.
Proof.
  unfold option_value, opt_value. destruct (bytes_eqb o escape_code) eqn:E.
  - apply bytes_eqb_eq in E. split; [intros [[_ H]|[H _]]; [exact H|contradiction]|intros ->; left; auto].
  - assert (N : o <> escape_code) by (intros ->; rewrite bytes_eqb_refl in E; discriminate). split; [intros [[H _]|[_ H]]; [contradiction|exact H]|intros ->; right; auto].
Qed.
Lemma parted_iff d s l : parted d s l <-> l = strsplit [d] s.
Proof.
  unfold parted. rewrite Forall_forall. split.
  - intros H. symmetry. apply split1_iff. exact H.
  - intros H. apply split1_iff. symmetry. exact H.
Qed.
Lemma group_of_iff d g : group_of d g <-> g = group_fun d.
Proof.
  unfold group_of, group_fun. split.
  - intros (N & os & P & F). apply parted_iff in P. subst os. rewrite (Forall2_iff _ (fun o v => v = opt_value o) _ _ (fun a b _ => opt_value_iff a b)), Forall2_fun in F. destruct g as [n l]. cbn in N, F. subst. reflexivity.
  - intros ->. cbn [g_name g_list]. split; [reflexivity|]. exists (strsplit [","%byte] (snd d)). split; [apply parted_iff; reflexivity|]. apply (Forall2_iff _ (fun o v => v = opt_value o) _ _ (fun a b _ => opt_value_iff a b)). apply Forall2_fun. reflexivity.
Qed.
Lemma caps_map {X} (f : rmatch -> X) (g : bytes * bytes -> X) (ms : list rmatch) xs : map m_caps ms = map mk2 xs ->
  (forall m x, m_caps m = mk2 x -> f m = g x) -> map f ms = map g xs.
Proof.
  intros E H. revert xs E. induction ms as [|m ms IH]; intros [|x xs] E; try discriminate; [reflexivity|]. cbn in E |- *. injection E as E1 E2. rewrite (H m x E1), (IH xs E2). reflexivity.
Qed.
Lemma read_group_fun m x : m_caps m = mk2 x -> read_group m = group_fun x.
Proof. intros H. unfold read_group, m_cap. rewrite H. reflexivity. Qed.
Lemma fun_group u x x' : ~ In semi u -> opens_quoted group_name u x -> opens_quoted group_name u x' -> x = x'.
Proof. apply (fun_of_match (compile group_text) mk2 _ mk2_inj group_decl_some). Qed.
Lemma fun_serie u x x' : ~ In semi u -> opens serie_name u x -> opens serie_name u x' -> x = x'.
Proof. apply (fun_of_match (compile (declaration_text serie_name_text)) mk2 _ mk2_inj serie_decl_some). Qed.
Lemma fun_pattern u x x' : ~ In semi u -> opens pattern_name u x -> opens pattern_name u x' -> x = x'.
Proof. apply (fun_of_match (compile (declaration_text pattern_name_text)) mk2 _ mk2_inj pattern_decl_some). Qed.
Lemma groups_iff text : exists gd, declares_all (opens_quoted group_name) (hide_quotes text) gd /\ find_groups text = last_table_now g_name (Some (map group_fun gd)).
Proof.
  destruct (find_declared (opens_quoted group_name) (compile group_text) mk2 (hide_quotes text) group_decl_some group_decl_none) as (gd & D & E).
  exists gd. split; [exact D|]. unfold find_groups. rewrite all_group, hide_replace'. do 2 f_equal. apply (caps_map _ _ _ _ E). exact read_group_fun.
Qed.
(* ---- series ---- *)
Lemma caps_ind (P : list rmatch -> list (bytes * bytes) -> Prop) : P [] [] -> (forall m x ms xs, m_caps m = mk2 x -> P ms xs -> P (m :: ms) (x :: xs)) ->
  forall ms xs, map m_caps ms = map mk2 xs -> P ms xs.
Proof. intros H0 H1. induction ms as [|m ms IH]; intros [|x xs] E; try discriminate; [exact H0|]. cbn in E. injection E as E1 E2. apply H1; [exact E1|apply IH; exact E2]. Qed.
Lemma cap1 m x : m_caps m = mk2 x -> m_cap m 1 = fst x. Proof. unfold m_cap. intros ->. reflexivity. Qed.
Lemma cap2 m x : m_caps m = mk2 x -> m_cap m 2 = snd x. Proof. unfold m_cap. intros ->. reflexivity. Qed.
Lemma naming_cons is_name x sd r : naming is_name (x :: sd) r -> (names is_name in_serie_name (snd x) [] /\ naming is_name sd r) \/ exists ns r', r = (fst x, ns) :: r' /\ names is_name in_serie_name (snd x) ns /\ ns <> [] /\ naming is_name sd r'.
Proof. intros H. inversion H; subst; [left; auto|right; eauto 10]. Qed.
Lemma naming_none is_name (F : bytes -> list bytes) x sd r : (forall s l, names is_name in_serie_name s l <-> l = F s) -> F (snd x) = [] -> naming is_name (x :: sd) r -> naming is_name sd r.
Proof. intros H E N. apply naming_cons in N. destruct N as [[_ N]|(ns & r' & -> & N & Ne & _)]; [exact N|]. apply H in N. congruence. Qed.
Lemma naming_some is_name (F : bytes -> list bytes) x sd r n ns : (forall s l, names is_name in_serie_name s l <-> l = F s) -> F (snd x) = n :: ns -> naming is_name (x :: sd) r -> exists r', r = (fst x, n :: ns) :: r' /\ naming is_name sd r'.
Proof. intros H E N. apply naming_cons in N. destruct N as [[N _]|(ns' & r' & -> & N & Ne & K)]; [apply H in N; congruence|]. apply H in N. exists r'. split; [|exact K]. do 2 f_equal. congruence. Qed.
Section Series.
Variable groups : list group.
Let gt : table group := (groups, fold_left (fun m x => minsert m (g_name x) x) groups []).
Lemma find_all_groups names gs : mapM (table_find gt) names = Ok gs <-> Forall2 (last_named g_name groups) names gs.
Proof. rewrite mapM_iff. apply Forall2_iff. intros a b _. apply last_find. Qed.
Lemma series_iff ms sd : map m_caps ms = map mk2 sd -> forall out out',
  read_series gt ms out = Ok out' <-> exists sn series, naming group_name sd sn /\ Forall2 (serie_of groups) sn series /\ out' = fold_left (fun m x => minsert m (s_name x) x) series out.
Proof.
  revert ms sd. apply (caps_ind (fun ms sd => forall out out', read_series gt ms out = Ok out' <-> exists sn series, naming group_name sd sn /\ Forall2 (serie_of groups) sn series /\ out' = fold_left (fun m x => minsert m (s_name x) x) series out)).
  - intros out out'. cbn. split.
    + intros [= <-]. exists [], []. split; [constructor|]. split; [constructor|reflexivity].
    + intros (sn & series & N & F & ->). inversion N; subst. inversion F; subst. reflexivity.
  - intros m x ms sd E IH out out'. cbn [read_series]. rewrite (cap1 m x E), (cap2 m x E), all_group_name.
    destruct (map m_text (find_all (compile group_name_text) (snd x))) as [|n ns] eqn:En.
    + assert (K : names group_name in_serie_name (snd x) []) by (apply group_names_iff; symmetry; exact En). rewrite IH. split.
      * intros (sn & series & N & F & ->). exists sn, series. split; [apply naming_skip; assumption|auto].
      * intros (sn & series & N & F & ->). exists sn, series. split; [apply (naming_none _ _ _ _ _ group_names_iff En N)|auto].
    + assert (K : names group_name in_serie_name (snd x) (n :: ns)) by (apply group_names_iff; symmetry; exact En).
      assert (U := fun r => naming_some group_name _ x sd r n ns group_names_iff En).
      destruct (mapM (table_find gt) (n :: ns)) as [gs| | |] eqn:Eg.
      * cbn [bind]. rewrite IH. apply find_all_groups in Eg. split.
        -- intros (sn & series & N & F & ->). exists ((fst x, n :: ns) :: sn), ({| s_name := fst x; s_list := gs |} :: series). split; [apply naming_take; [exact K|discriminate|exact N]|]. split; [|reflexivity]. constructor; [|exact F]. split; [reflexivity|exact Eg].
        -- intros (sn & series & N & F & ->). destruct (U sn N) as (r & -> & N'). inversion F as [|d s sn' series' Hs F']; subst. destruct Hs as [Hs1 Hs2]. exists r, series'. split; [exact N'|]. split; [exact F'|]. cbn [fold_left]. f_equal. cbn [fst snd] in Hs1, Hs2. assert (El : s_list s = gs). { apply find_all_groups in Eg. apply find_all_groups in Hs2. congruence. } destruct s as [sn sl]. cbn in Hs1, El |- *. subst. reflexivity.
      * cbn [bind]. split; [discriminate|]. intros (sn & series & N & F & ->). exfalso. destruct (U sn N) as (r & -> & N'). inversion F as [|d s sn' series' Hs F']; subst. destruct Hs as [_ Hs2]. cbn [fst snd] in Hs2. apply find_all_groups in Hs2. congruence.
      * exfalso. exact (proj1 (tame_mapM (table_find gt) (n :: ns) (fun k _ => table_find_tame gt k)) Eg).
      * exfalso. exact (proj2 (tame_mapM (table_find gt) (n :: ns) (fun k _ => table_find_tame gt k)) Eg).
Qed.
Lemma series_tame g ms out : tame (read_series g ms out).
Proof.
  revert out. induction ms as [|m ms IH]; intros out; cbn [read_series]; [apply tame_ok|]. destruct (map m_text _) as [|n ns]; [apply IH|]. apply tame_bind; [apply tame_mapM; intros; apply table_find_tame|]. intros a _. apply IH.
Qed.
End Series.
(* ---- patterns ---- *)
Section Patterns.
Variable series : list serie.
Let sm : gmap serie := fold_left (fun m x => minsert m (s_name x) x) series [].
Lemma prefix_at b w : has_prefix (bs "@") (b :: w) = Byte.eqb "@"%byte b.
Proof. cbn. apply andb_true_r. Qed.
Lemma eqb_sym a b : Byte.eqb a b = Byte.eqb b a.
Proof. destruct (Byte.eqb a b) eqn:E1, (Byte.eqb b a) eqn:E2; try reflexivity; [apply Byte.byte_dec_bl in E1; subst; rewrite eqb_refl in E2; discriminate|apply Byte.byte_dec_bl in E2; subst; rewrite eqb_refl in E1; discriminate]. Qed.
Lemma choice_iff n c : choice_name n -> (read_choice sm n = Ok c <-> choice_of series n c).
Proof.
  intros H. unfold read_choice, choice_of. destruct H as [H|(m & -> & H)].
  - assert (N := not_at n H). destruct n as [|b w]; [contradiction|]. cbv zeta. rewrite prefix_at, eqb_sym, N.
    split.
    + destruct (mlookup sm (b :: w)) as [s|] eqn:E; [|discriminate]. intros [= <-]. left. split; [reflexivity|]. split; [exact H|]. apply last_lookup. exact E.
    + intros [(R & _ & L)|(R & m & E & _)]; [|injection E as E _; subst b; cbn in N; discriminate]. apply last_lookup in L. fold sm in L. rewrite L. destruct c as [s r]. cbn in R |- *. subst r. reflexivity.
  - cbv zeta. rewrite prefix_at, eqb_refl. cbn [skipn]. split.
    + destruct (mlookup sm m) as [s|] eqn:E; [|discriminate]. intros [= <-]. right. split; [reflexivity|]. exists m. split; [reflexivity|]. apply last_lookup. exact E.
    + intros [(R & N & _)|(R & m' & E & L)]; [assert (K := not_at _ N); cbn in K; discriminate|]. injection E as <-. apply last_lookup in L. fold sm in L. rewrite L. destruct c as [s r]. cbn in R |- *. subst r. reflexivity.
Qed.
Lemma read_choice_tame n : tame (read_choice sm n).
Proof. unfold read_choice. destruct (mlookup _ _); [apply tame_ok|apply tame_err]. Qed.
Lemma names_are {is_name goes_on s l} : names is_name goes_on s l -> Forall is_name l.
Proof. intros H. induction H; try assumption; constructor; assumption. Qed.
Lemma find_all_choices s ns cs : names choice_name in_serie_name s ns -> (mapM (read_choice sm) ns = Ok cs <-> Forall2 (choice_of series) ns cs).
Proof. intros H. apply names_are in H. rewrite Forall_forall in H. rewrite mapM_iff. apply Forall2_iff. intros a b I. apply choice_iff. apply H. exact I. Qed.
Lemma patterns_iff ms pd : map m_caps ms = map mk2 pd -> forall ps,
  read_patterns sm ms = Ok ps <-> exists pn, naming choice_name pd pn /\ Forall2 (pattern_of series) pn ps.
Proof.
  revert ms pd. apply (caps_ind (fun ms pd => forall ps, read_patterns sm ms = Ok ps <-> exists pn, naming choice_name pd pn /\ Forall2 (pattern_of series) pn ps)).
  - intros ps. cbn. split.
    + intros [= <-]. exists []. split; constructor.
    + intros (pn & N & F). inversion N; subst. inversion F; subst. reflexivity.
  - intros m x ms pd E IH ps. cbn [read_patterns]. rewrite (cap1 m x E), (cap2 m x E), all_choice.
    destruct (map m_text (find_all (compile choice_text) (snd x))) as [|n ns] eqn:En.
    + assert (K : names choice_name in_serie_name (snd x) []) by (apply choice_names_iff; symmetry; exact En). rewrite IH. split.
      * intros (pn & N & F). exists pn. split; [apply naming_skip; assumption|exact F].
      * intros (pn & N & F). exists pn. split; [apply (naming_none _ _ _ _ _ choice_names_iff En N)|exact F].
    + assert (K : names choice_name in_serie_name (snd x) (n :: ns)) by (apply choice_names_iff; symmetry; exact En).
      assert (U := fun r => naming_some choice_name _ x pd r n ns choice_names_iff En).
      destruct (mapM (read_choice sm) (n :: ns)) as [cs| | |] eqn:Eg.
      * cbn [bind]. assert (Eg' := Eg). apply (find_all_choices _ _ _ K) in Eg. split.
        -- destruct (read_patterns sm ms) as [qs| | |] eqn:Eq; try discriminate. cbn [bind]. intros [= <-]. destruct (proj1 (IH qs) eq_refl) as (pn & N & F). exists ((fst x, n :: ns) :: pn). split; [apply naming_take; [exact K|discriminate|exact N]|]. constructor; [|exact F]. split; [reflexivity|exact Eg].
        -- intros (pn & N & F). destruct (U pn N) as (r & -> & N'). inversion F as [|d p pn' ps' Hp F']; subst. rewrite (proj2 (IH ps') (ex_intro _ r (conj N' F'))). cbn [bind]. destruct Hp as [Hp1 Hp2]. cbn [fst snd] in Hp1, Hp2. apply (find_all_choices _ _ _ K) in Hp2. destruct p as [pn pl]. cbn in Hp1, Hp2. subst pn. assert (El := eq_trans (eq_sym Eg') Hp2). injection El as ->. reflexivity.
      * cbn [bind]. split; [discriminate|]. intros (pn & N & F). exfalso. destruct (U pn N) as (r & -> & N'). inversion F as [|d p pn' ps' Hp F']; subst. destruct Hp as [_ Hp2]. cbn [fst snd] in Hp2. apply (find_all_choices _ _ _ K) in Hp2. assert (El := eq_trans (eq_sym Eg) Hp2). discriminate.
      * exfalso. exact (proj1 (tame_mapM (read_choice sm) (n :: ns) (fun k _ => read_choice_tame k)) Eg).
      * exfalso. exact (proj2 (tame_mapM (read_choice sm) (n :: ns) (fun k _ => read_choice_tame k)) Eg).
Qed.
End Patterns.
Lemma read_patterns_tame sm ms : tame (read_patterns sm ms).
Proof.
  induction ms as [|m ms IH]; cbn [read_patterns]; [apply tame_ok|]. destruct (map m_text _) as [|n ns]; [exact IH|]. apply tame_bind; [apply tame_mapM; intros k _; unfold read_choice; destruct (mlookup _ _); [apply tame_ok|apply tame_err]|]. intros a _. apply tame_bind; [exact IH|]. intros. apply tame_ok.
Qed.
(* ---- the whole text ---- *)
Lemma to_patterns_tame text : tame (to_patterns text).
Proof.
  unfold to_patterns. apply tame_bind; [apply last_table_tame|]. intros g _. apply tame_bind; [apply series_tame|]. intros s _. unfold find_patterns. apply tame_bind; [apply read_patterns_tame|]. intros l _. apply last_table_tame.
Qed.
Lemma to_patterns_exact text t : to_patterns text = Ok t <-> exists ps, means_patterns text ps /\ t = (ps, fold_left (fun m x => minsert m (p_name x) x) ps []).
Proof.
  destruct (groups_iff text) as (gd & Dg & Eg).
  destruct (find_declared (opens serie_name) (compile (declaration_text serie_name_text)) mk2 text serie_decl_some serie_decl_none) as (sd & Ds & Es).
  destruct (find_declared (opens pattern_name) (compile (declaration_text pattern_name_text)) mk2 text pattern_decl_some pattern_decl_none) as (pd & Dp & Ep).
  unfold to_patterns. rewrite Eg. split.
  - intros H. apply bind_ok in H. destruct H as (gt & Hg & H). apply last_table_iff in Hg. destruct Hg as [Ng ->].
    apply bind_ok in H. destruct H as (sm & Hs & H). unfold find_series in Hs. rewrite all_serie in Hs. apply (series_iff _ _ _ Es) in Hs. destruct Hs as (sn & series & Nn & Fs & ->).
    unfold find_patterns in H. rewrite all_pattern in H. apply bind_ok in H. destruct H as (ps & Hp & H). apply (patterns_iff _ _ _ Ep) in Hp. destruct Hp as (pn & Np & Fp). apply last_table_iff in H. destruct H as [Nps ->].
    exists ps. split; [|reflexivity]. exists gd, (map group_fun gd), sd, sn, series, pd, pn. repeat (split; [first [assumption | idtac]|]); try assumption. apply (Forall2_iff _ (fun d g => g = group_fun d) _ _ (fun a b _ => group_of_iff a b)). apply Forall2_fun. reflexivity.
  - intros (ps & (gd' & groups & sd' & sn & series & pd' & pn & Dg' & Fg & Ng & Ds' & Nn & Fs & Dp' & Np & Fp & Nps) & ->).
    rewrite (declares_all_fun _ fun_group _ _ _ Dg' Dg) in *. rewrite (declares_all_fun _ fun_serie _ _ _ Ds' Ds) in *. rewrite (declares_all_fun _ fun_pattern _ _ _ Dp' Dp) in *.
    rewrite (Forall2_iff _ (fun d g => g = group_fun d) _ _ (fun a b _ => group_of_iff a b)), Forall2_fun in Fg. subst groups.
    rewrite (proj2 (last_table_iff g_name (map group_fun gd) _) (conj Ng eq_refl)). cbn [bind]. unfold find_series. rewrite all_serie, (proj2 (series_iff (map group_fun gd) _ _ Es [] _) (ex_intro _ sn (ex_intro _ series (conj Nn (conj Fs eq_refl))))). cbn [bind].
    unfold find_patterns. rewrite all_pattern, (proj2 (patterns_iff series _ _ Ep ps) (ex_intro _ pn (conj Np Fp))). cbn [bind]. apply last_table_iff. auto.
Qed.
