(* TextRefProofs2.v - ToReferences. *)
From Coq Require Import Strings.String Strings.Byte Lia.
From Verif Require Import Go GoLemmas DomainModel CardModel PatModel RuleModel RuleProofs PathModel Regex RegexProofs TextModel TextBytes TextSpec TextRefSpec TextProofs TextProofs2 TextProofs3 TextRefProofs.
Open Scope list_scope.
Local Arguments in_class : simpl never.

Section Scan.
Context {X : Type} (r : re) (P : bytes -> X -> bytes -> Prop) (mk : X -> caps -> caps) (I : implements r P mk).
Hypothesis shrinks : forall s x rest, P s x rest -> exists u, u <> [] /\ s = u ++ rest.
Hypothesis no_blank : forall b s x rest, blank b -> ~ P (b :: s) x rest.
Hypothesis inj : forall x x', mk x [] = mk x' [] -> x = x'.
Let R : re := RSeq (RStar false c_ws) r.
Let K (s : bytes) : bytes -> caps -> option rmatch := fun t cs => Some {| m_text := firstn (length s - length t) s; m_caps := cs |}.
Lemma K_total s : total (K s). Proof. intros t cs. discriminate. Qed.
Lemma at_blanks s : match_at R s = exec r (dropc c_ws s) [] (K s).
Proof.
  change (match_at R s) with (star_lazy c_ws (fun t => exec r t [] (K s)) s). apply star_lazy_det. intros b t B. apply (impl_none r P mk I _ _ _ (K_total s)). intros x rest. apply no_blank. apply in_ws. exact B.
Qed.
Lemma skip_blanks w u xs : Forall blank w -> reads_all P u xs -> reads_all P (w ++ u) xs.
Proof. intros W H. induction W as [|b w B W IH]; [exact H|]. cbn [app]. apply all_skip; [|exact IH]. intros x rest. apply no_blank. exact B. Qed.
Lemma find_blanks w u f : Forall blank w -> (forall b v, u = b :: v -> ~ blank b) -> (forall x rest, ~ P u x rest) -> find_from R 0 f (w ++ u) = match u with [] => [] | _ :: t => find_from R 0 false t end.
Proof.
  intros W U N. assert (Hu : stops c_ws u). { destruct u as [|b v]; [constructor|]. cbn. destruct (in_class c_ws b) eqn:B; [|reflexivity]. apply in_ws in B. exfalso. exact (U b v eq_refl B). }
  assert (M : forall w, Forall blank w -> match_at R (w ++ u) = None).
  { intros v V. rewrite at_blanks. destruct (span_unique c_ws v u (proj2 (all_iff c_ws _ _ in_ws) V) Hu) as [_ ->]. apply (impl_none r P mk I _ _ _ (K_total _)). exact N. }
  revert f. induction W as [|b w B W IH]; intros f.
  - cbn [app]. specialize (M [] (Forall_nil _)). cbn [app] in M. destruct u as [|c u]; cbn [find_from]; rewrite M; reflexivity.
  - cbn [app find_from]. specialize (M (b :: w) (Forall_cons _ B W)). cbn [app] in M. rewrite M. apply IH.
Qed.
Lemma find_reads : forall n s f, length s <= n -> exists xs, reads_all P s xs /\ map m_caps (find_from R 0 f s) = map (fun x => mk x []) xs.
Proof.
  induction n as [|n IH]; intros s f L.
  - assert (s = []) by (destruct s; [reflexivity|cbn in L; lia]). subst s. exists []. split; [constructor|]. cut (find_from R 0 f [] = []); [intros ->; reflexivity|]. apply (find_blanks [] [] f (Forall_nil _)); [intros; discriminate|]. intros x rest H. destruct (shrinks _ _ _ H) as (u & Nu & E). symmetry in E. apply app_eq_nil in E. destruct E as [E _]. contradiction.
  - assert (E := take_drop c_ws s). assert (W := takec_all c_ws s). apply (all_iff c_ws _ _ in_ws) in W. assert (D := dropc_stops c_ws s). destruct (exec r (dropc c_ws s) [] (K s)) as [m|] eqn:M.
    + assert (M' := M). apply (I _ _ _ _ _ (K_total s)) in M'. destruct M' as (x & rest & H & Km). destruct (shrinks _ _ _ H) as (v & Nv & Ev).
      assert (Es : s = (takec c_ws s ++ v) ++ rest) by (rewrite <- app_assoc, <- Ev; exact E). remember (takec c_ws s) as w eqn:Ew.
      assert (Em : m = {| m_text := w ++ v; m_caps := mk x [] |}). { injection Km as <-. f_equal. rewrite Es. exact (firstn_diff (w ++ v) rest). }
      destruct (w ++ v) as [|b a] eqn:Wv; [apply app_eq_nil in Wv; destruct Wv; contradiction|].
      assert (Lr : length rest <= n). { apply (f_equal (@length _)) in Es. rewrite app_length in Es. cbn [length] in Es. lia. }
      destruct (IH rest true Lr) as (xs & Rx & Mx). exists (x :: xs). split.
      * rewrite E, Ev. apply skip_blanks; [exact W|]. apply (all_here P _ x rest); [rewrite <- Ev; exact H|exact Rx].
      * assert (F : find_from R 0 f s = m :: find_from R 0 true rest). { rewrite <- at_blanks in M. rewrite Es in M |- *. cbn [app find_from]. cbn [app] in M. rewrite M. rewrite Em at 1. cbn [m_text]. rewrite find_skip. reflexivity. }
        rewrite F. cbn [map]. rewrite Mx, Em. reflexivity.
    + assert (N := proj1 (impl_none r P mk I _ _ _ (K_total s)) M). assert (U : forall b v, dropc c_ws s = b :: v -> ~ blank b) by (intros b v Eb B; rewrite Eb in D; cbn in D; apply in_ws in B; congruence).
      assert (F := find_blanks (takec c_ws s) (dropc c_ws s) f W U N). rewrite <- E in F. rewrite F. destruct (dropc c_ws s) as [|b t] eqn:Dr.
      * exists []. split; [|reflexivity]. rewrite E. apply skip_blanks; [exact W|constructor].
      * assert (Lt : length t <= n). { apply (f_equal (@length _)) in E. rewrite app_length in E. cbn [length] in E. lia. }
        destruct (IH t false Lt) as (xs & Rx & Mx). exists xs. split; [|exact Mx]. rewrite E. apply skip_blanks; [exact W|]. apply all_skip; assumption.
Qed.
Lemma scan s : exists xs, reads_all P s xs /\ map m_caps (find_all R s) = map (fun x => mk x []) xs.
Proof. apply (find_reads (length s)). reflexivity. Qed.
Lemma reads_fun s xs : reads_all P s xs -> forall ys, reads_all P s ys -> xs = ys.
Proof.
  intros H. induction H as [|s x rest l Hx H IH|b s l N H IH]; intros ys Hy.
  - inversion Hy as [|? x rest l Hx _|]; subst; [reflexivity|]. destruct (shrinks _ _ _ Hx) as (u & Nu & E). symmetry in E. apply app_eq_nil in E. destruct E as [E _]. contradiction.
  - inversion Hy as [|? x' rest' l' Hx' H'|? ? ? N H']; subst.
    + destruct (shrinks _ _ _ Hx) as (u & Nu & E). symmetry in E. apply app_eq_nil in E. destruct E as [E _]. contradiction.
    + destruct (impl_fun r P mk I s x rest x' rest' inj Hx Hx') as [<- <-]. f_equal. apply IH. exact H'.
    + exfalso. exact (N _ _ Hx).
  - inversion Hy as [|? x' rest' l' Hx' H'|? ? ? N' H']; subst; [exfalso; exact (N _ _ Hx')|]. apply IH. exact H'.
Qed.
End Scan.
Lemma shrink_text {X} (P : bytes -> X -> bytes -> Prop) t s x rest : (forall s x rest, P s x rest -> exists u, s = u ++ rest) -> t <> [] -> after_text P t s x rest -> exists u, u <> [] /\ s = u ++ rest.
Proof. intros H N (u & -> & Hu). destruct (H _ _ _ Hu) as (v & ->). exists (t ++ v). split; [intros E; apply app_eq_nil in E; destruct E; contradiction|apply app_assoc]. Qed.
Lemma shrink_name {X} (P : bytes -> X -> bytes -> Prop) : (forall s x rest, P s x rest -> exists u, s = u ++ rest) -> forall s x rest, longest_name P s x rest -> exists u, s = u ++ rest.
Proof. intros H s x rest (u & -> & _ & Hu & _). destruct (H _ _ _ Hu) as (v & ->). rewrite app_assoc. eauto. Qed.
Lemma shrink_blanks {X} (P : bytes -> X -> bytes -> Prop) : (forall s x rest, P s x rest -> exists u, s = u ++ rest) -> forall s x rest, after_blanks P s x rest -> exists u, s = u ++ rest.
Proof. intros H s x rest (w & u & -> & _ & _ & Hu). destruct (H _ _ _ Hu) as (v & ->). rewrite app_assoc. eauto. Qed.
Lemma shrink_any {X} (P : bytes -> X -> bytes -> Prop) : (forall s x rest, P s x rest -> exists u, s = u ++ rest) -> forall s x rest, after_any P s x rest -> exists u, s = u ++ rest.
Proof. intros H s x rest (w & u & -> & _ & _ & Hu). destruct (H _ _ _ Hu) as (v & ->). rewrite app_assoc. eauto. Qed.
Lemma shrink_done s x rest : done s x rest -> exists u, s = u ++ rest. Proof. intros ->. exists []. reflexivity. Qed.
Lemma text_no_blank {X} (P : bytes -> X -> bytes -> Prop) c t b s x rest : ~ blank c -> blank b -> ~ after_text P (c :: t) (b :: s) x rest.
Proof. intros C B (u & E & _). injection E as -> _. contradiction. Qed.
Lemma ref_shrinks s x rest : reference_at s x rest -> exists u, u <> [] /\ s = u ++ rest.
Proof. apply shrink_text; [|discriminate]. apply shrink_blanks, shrink_name, shrink_blanks, shrink_name, shrink_any, shrink_name, shrink_blanks, shrink_done. Qed.
Lemma rep_shrinks s x rest : replace_at s x rest -> exists u, u <> [] /\ s = u ++ rest.
Proof. apply shrink_text; [|discriminate]. apply shrink_blanks, shrink_name, shrink_any, shrink_name, shrink_blanks, shrink_name, shrink_blanks, shrink_done. Qed.
Lemma inc_shrinks s x rest : include_at s x rest -> exists u, u <> [] /\ s = u ++ rest.
Proof. intros (w1 & w2 & -> & _). exists (bs "include" ++ w1 ++ fst x ++ w2 ++ dq :: snd x ++ [dq]). split; [discriminate|]. cbn [app]. rewrite <- !app_assoc. cbn [app]. rewrite <- !app_assoc. reflexivity. Qed.
Lemma letter_blank c : (Byte.to_N c > 32)%N -> ~ blank c.
Proof. intros L [->|[->|[->| ->]]]; cbn in L; lia. Qed.
Lemma ref_no_blank b s x rest : blank b -> ~ reference_at (b :: s) x rest.
Proof. apply text_no_blank. apply letter_blank. cbn. lia. Qed.
Lemma rep_no_blank b s x rest : blank b -> ~ replace_at (b :: s) x rest.
Proof. apply text_no_blank. apply letter_blank. cbn. lia. Qed.
Lemma inc_no_blank b s x rest : blank b -> ~ include_at (b :: s) x rest.
Proof. intros B (w1 & w2 & E & _). injection E as -> _. revert B. apply letter_blank. cbn. lia. Qed.
Lemma mk3_inj x x' : mk3 x [] = mk3 x' [] -> x = x'.
Proof. destruct x as [a [b [c []]]], x' as [a' [b' [c' []]]]. unfold mk3. cbn. intros [= -> -> ->]. reflexivity. Qed.
Lemma mki_inj (x x' : bytes * bytes) : [(2, snd x); (1, fst x)] = [(2, snd x'); (1, fst x')] -> x = x'.
Proof. destruct x, x'. cbn. intros [= -> ->]. reflexivity. Qed.
Lemma includes_found text : exists ids, reads_all include_at text ids /\ map m_caps (find_all (compile include_text) text) = map (fun x => [(2, snd x); (1, fst x)]) ids.
Proof. rewrite c_inc. exact (scan _ _ _ inc_impl inc_shrinks inc_no_blank mki_inj text). Qed.
Lemma references_found text : exists ds, reads_all reference_at text ds /\ map m_caps (find_all (compile reference_text) text) = map (fun x => mk3 x []) ds.
Proof. rewrite c_ref. exact (scan _ _ _ ref_impl ref_shrinks ref_no_blank mk3_inj text). Qed.
Lemma replacements_found text : exists ds, reads_all replace_at text ds /\ map m_caps (find_all (compile replace_text) text) = map (fun x => mk3 x []) ds.
Proof. rewrite c_rep. exact (scan _ _ _ rep_impl rep_shrinks rep_no_blank mk3_inj text). Qed.
Lemma includes_fun text a b : reads_all include_at text a -> reads_all include_at text b -> a = b.
Proof. intros H H'. exact (reads_fun _ _ _ inc_impl inc_shrinks mki_inj text a H b H'). Qed.
Lemma references_fun text a b : reads_all reference_at text a -> reads_all reference_at text b -> a = b.
Proof. intros H H'. exact (reads_fun _ _ _ ref_impl ref_shrinks mk3_inj text a H b H'). Qed.
Lemma replacements_fun text a b : reads_all replace_at text a -> reads_all replace_at text b -> a = b.
Proof. intros H H'. exact (reads_fun _ _ _ rep_impl rep_shrinks mk3_inj text a H b H'). Qed.
Lemma reads_sound {X} (P : bytes -> X -> bytes -> Prop) (Q : X -> Prop) : (forall s x rest, P s x rest -> Q x) -> forall s xs, reads_all P s xs -> Forall Q xs.
Proof. intros H s xs R. induction R; auto. constructor; eauto. Qed.
(* a function of the captures, over the matches *)
Lemma mapM_caps {A X} (f : rmatch -> res A) (g : caps -> res A) (mk : X -> caps) ms xs : (forall m, f m = g (m_caps m)) -> map m_caps ms = map mk xs -> mapM f ms = mapM (fun x => g (mk x)) xs.
Proof.
  intros E. revert xs. induction ms as [|m ms IH]; intros [|x xs] H; try discriminate; [reflexivity|]. cbn [map] in H. injection H as Em H. cbn [mapM]. rewrite E, Em, (IH xs H). reflexivity.
Qed.
Definition inc_of (d : bytes * bytes) : res include := read_include {| m_text := []; m_caps := [(2, snd d); (1, fst d)] |}.
Lemma inc_of_iff d : fst d <> [] -> (forall i, inc_of d = Ok i <-> include_of d i) /\ (inc_of d = Panic <-> ~ In semi (snd d)) /\ inc_of d <> NoFuel.
Proof.
  destruct d as [[|c n] body]; intros Hn; [exfalso; apply Hn; reflexivity|]. unfold inc_of, read_include, m_cap. cbn [m_caps cap fst snd Nat.eqb]. change (bs ";") with [semi].
  assert (Pt := proj2 (parted_iff semi body _) eq_refl). assert (Pu : forall ps, parted semi body ps -> ps = strsplit [semi] body) by (intros ps H; apply parted_iff; exact H). destruct (strsplit [semi] body) as [|a [|b [|ch [|x l]]]] eqn:E.
  - destruct Pt as [Pt _]. exfalso. apply Pt. reflexivity.
  - split; [|split; [|discriminate]].
    + intros i. split; [discriminate|]. intros (_ & _ & _ & ps & Hp & [[Hq _]|Hq]); apply Pu in Hp; subst ps; discriminate.
    + split; [|reflexivity]. intros _. destruct Pt as (_ & -> & F). cbn [join]. inversion F; assumption.
  - split; [|split].
    + intros i. split.
      * destruct a as [|a0 a]; [discriminate|]. destruct b as [|b0 b]; [discriminate|]. intros [= <-]. split; [reflexivity|]. split; [discriminate|]. split; [discriminate|]. exists [a0 :: a; b0 :: b]. split; [exact Pt|]. left. split; reflexivity.
      * intros (E1 & E2 & E3 & ps & Hp & [[Hq Ec]|Hq]); apply Pu in Hp; subst ps; [|discriminate]. injection Hq as -> ->. destruct i as [nm [r t ch]]. cbn in *. subst. destruct r; [contradiction|]. destruct t; [contradiction|]. reflexivity.
    + split; [destruct a; [discriminate|]; destruct b; discriminate|]. intros N. exfalso. apply N. destruct Pt as (_ & -> & _). cbn [join]. apply in_or_app. right. left. reflexivity.
    + destruct a; [discriminate|]; destruct b; discriminate.
  - split; [|split].
    + intros i. split.
      * destruct a as [|a0 a]; [discriminate|]. destruct b as [|b0 b]; [discriminate|]. intros [= <-]. split; [reflexivity|]. split; [discriminate|]. split; [discriminate|]. exists [a0 :: a; b0 :: b; ch]. split; [exact Pt|]. right. reflexivity.
      * intros (E1 & E2 & E3 & ps & Hp & [[Hq Ec]|Hq]); apply Pu in Hp; subst ps; [discriminate|]. injection Hq as -> -> ->. destruct i as [nm [r t ch']]. cbn in *. subst. destruct r; [contradiction|]. destruct t; [contradiction|]. reflexivity.
    + split; [destruct a; [discriminate|]; destruct b; discriminate|]. intros N. exfalso. apply N. destruct Pt as (_ & -> & _). cbn [join]. apply in_or_app. right. left. reflexivity.
    + destruct a; [discriminate|]; destruct b; discriminate.
  - split; [|split; [|discriminate]].
    + intros i. split; [discriminate|]. intros (_ & _ & _ & ps & Hp & [[Hq _]|Hq]); apply Pu in Hp; subst ps; discriminate.
    + split; [discriminate|]. intros N. exfalso. apply N. destruct Pt as (_ & -> & _). cbn [join]. apply in_or_app. right. left. reflexivity.
Qed.
Lemma token_ne n : token_name n -> n <> []. Proof. intros (b & w & -> & _). discriminate. Qed.
Lemma include_names text ids : reads_all include_at text ids -> Forall (fun d => fst d <> []) ids.
Proof. apply reads_sound. intros s x rest (w1 & w2 & _ & Hn & _). apply token_ne. exact Hn. Qed.
Definition three_names (d : bytes * (bytes * (bytes * unit))) : Prop := fst d <> [] /\ fst (snd d) <> [] /\ fst (snd (snd d)) <> [].
Lemma reference_names text ds : reads_all reference_at text ds -> Forall three_names ds.
Proof. apply reads_sound. intros s x rest (u & _ & w1 & v & _ & _ & _ & v1 & _ & N1 & (w2 & v2 & _ & _ & _ & v3 & _ & N2 & (w5 & v5 & _ & _ & _ & v4 & _ & N3 & _) & _) & _). repeat split; apply token_ne; assumption. Qed.
Lemma replacement_names text ds : reads_all replace_at text ds -> Forall three_names ds.
Proof. apply reads_sound. intros s x rest (u & _ & w1 & v & _ & _ & _ & v1 & _ & N1 & (w5 & v5 & _ & _ & _ & v2 & _ & N2 & (w3 & v3 & _ & _ & _ & v4 & _ & N3 & _) & _) & _). repeat split; apply token_ne; assumption. Qed.
Lemma read_includes_iff text ids : reads_all include_at text ids ->
  (forall m, read_includes text = Ok m <-> exists is, Forall2 include_of ids is /\ m = fold_left (fun m i => minsert m (in_name i) i) is []) /\
  (read_includes text = Panic <-> exists before d after, ids = before ++ d :: after /\ Forall (fun d => exists i, include_of d i) before /\ ~ In semi (snd d)) /\ read_includes text <> NoFuel.
Proof.
  intros R. destruct (includes_found text) as (ids' & R' & E). rewrite <- (includes_fun text ids ids' R R') in E. clear ids' R'. assert (N := include_names _ _ R).
  unfold read_includes. rewrite all_include, (mapM_caps read_include (fun c => read_include {| m_text := []; m_caps := c |}) _ _ _ (fun m => eq_refl) E). change (fun x => read_include {| m_text := []; m_caps := [(2, snd x); (1, fst x)] |}) with inc_of. clear R E.
  induction ids as [|d ids IH]; cbn [mapM].
  - split; [|split; [split; [discriminate|]|discriminate]].
    + intros m. split; [intros [= <-]; exists []; split; constructor|]. intros (is & F & ->). inversion F. reflexivity.
    + intros (before & d & after & Eq & _). destruct before; discriminate.
  - inversion N as [|? ? Nd N']; subst. destruct (inc_of_iff d Nd) as (I1 & I2 & I3). destruct (IH N') as (H1 & H2 & H3). destruct (inc_of d) as [i| | |] eqn:Ei; cbn [bind].
    + assert (Hi := proj1 (I1 i) eq_refl). assert (Hs : In semi (snd d)). { destruct Hi as (_ & _ & _ & ps & (_ & -> & _) & [[-> _]| ->]); cbn [join]; apply in_or_app; right; left; reflexivity. }
      destruct (mapM inc_of ids) as [is| | |] eqn:Em; cbn [bind] in *.
      * split; [|split; [split; [discriminate|]|discriminate]].
        { intros m. split.
          - intros [= <-]. apply mapM_iff in Em. exists (i :: is). split; [|reflexivity]. constructor; [exact Hi|]. eapply Forall2_iff; [|exact Em]. intros a b Ha. rewrite Forall_forall in N'. symmetry. apply (inc_of_iff a (N' a Ha)).
          - intros (is' & F & ->). inversion F as [|? i' ? is'' Hi' F']; subst. f_equal. f_equal. assert (i' = i) by (apply I1 in Hi'; congruence). subst i'. f_equal. assert (Z : mapM inc_of ids = Ok is''). { apply mapM_iff. eapply Forall2_iff; [|exact F']. intros a b Ha. rewrite Forall_forall in N'. apply (inc_of_iff a (N' a Ha)). } congruence. }
        { intros (before & d' & after & Eq & Fb & Nd'). exfalso. destruct before as [|d0 before]; cbn [app] in Eq; injection Eq as <- Eq; [contradiction|]. inversion Fb; subst. assert (Z : Ok (fold_left (fun m i => minsert m (in_name i) i) is []) = Panic) by (apply H2; eauto 6). discriminate. }
      * split; [|split; [split; [discriminate|]|discriminate]].
        { intros m. split; [discriminate|]. intros (is' & F & ->). inversion F as [|? i' ? is'' Hi' F']; subst. assert (Z : Err = Ok (fold_left (fun m i => minsert m (in_name i) i) is'' [])) by (apply H1; eauto). discriminate. }
        { intros (before & d' & after & Eq & Fb & Nd'). exfalso. destruct before as [|d0 before]; cbn [app] in Eq; injection Eq as <- Eq; [contradiction|]. inversion Fb; subst. assert (Z : @Err (gmap include) = Panic) by (apply H2; eauto 6). discriminate. }
      * split; [|split; [|discriminate]].
        { intros m. split; [discriminate|]. intros (is' & F & ->). inversion F as [|? i' ? is'' Hi' F']; subst. assert (Z : Panic = Ok (fold_left (fun m i => minsert m (in_name i) i) is'' [])) by (apply H1; eauto). discriminate. }
        { split; [|reflexivity]. intros _. destruct (proj1 H2 eq_refl) as (before & d' & after & -> & Fb & Nd'). exists (d :: before), d', after. split; [reflexivity|]. split; [constructor; eauto|exact Nd']. }
      * contradiction.
    + split; [|split; [split; [discriminate|]|discriminate]].
      * intros m. split; [discriminate|]. intros (is' & F & ->). inversion F as [|? i' ? is'' Hi' F']; subst. apply I1 in Hi'. discriminate.
      * intros (before & d' & after & Eq & Fb & Nd'). exfalso. destruct before as [|d0 before]; cbn [app] in Eq; injection Eq as <- Eq; [apply I2 in Nd'; discriminate|]. inversion Fb as [|? ? [i Hi] _]; subst. apply I1 in Hi. discriminate.
    + split; [|split; [|discriminate]].
      * intros m. split; [discriminate|]. intros (is' & F & ->). inversion F as [|? i' ? is'' Hi' F']; subst. apply I1 in Hi'. discriminate.
      * split; [|reflexivity]. intros _. exists [], d, ids. split; [reflexivity|]. split; [constructor|]. apply I2. reflexivity.
    + contradiction.
Qed.
Section Links.
Variable is : list include.
Let m : gmap include := fold_left (fun m i => minsert m (in_name i) i) is [].
Lemma new_link_iff name local reference l : local <> [] -> reference <> [] ->
  (new_link m name local reference = Ok l <-> lk_local l = local /\ lk_reference l = reference /\ last_named in_name is name (lk_include l)).
Proof.
  intros Nl Nr. unfold new_link. destruct local as [|a local]; [contradiction|]. destruct reference as [|b reference]; [contradiction|]. destruct (mlookup m name) as [i|] eqn:E; split.
  - intros [= <-]. cbn. split; [reflexivity|]. split; [reflexivity|]. apply last_lookup. exact E.
  - intros (E1 & E2 & E3). apply last_lookup in E3. fold m in E3. rewrite E in E3. injection E3 as ->. destruct l. cbn in *. subst. reflexivity.
  - discriminate.
  - intros (_ & _ & E3). apply last_lookup in E3. fold m in E3. congruence.
Qed.
Lemma new_link_tame name local reference : tame (new_link m name local reference).
Proof. unfold new_link. destruct local; [apply tame_err|]. destruct reference; [apply tame_err|]. destruct (mlookup m name); [apply tame_ok|apply tame_err]. Qed.
Lemma some_links_iff l o : links_of l = o <-> some_links l o.
Proof. unfold links_of, some_links. destruct l; split; intros H; subst; auto; [destruct H as [[_ ->]|[K _]]; [reflexivity|contradiction]|right; split; [discriminate|reflexivity]|destruct H as [[K _]|[_ ->]]; [discriminate|reflexivity]]. Qed.
Lemma read_references_iff text ds o : reads_all reference_at text ds -> (read_references m text = Ok o <-> exists ls, Forall2 (reference_of is) ds ls /\ some_links ls o).
Proof.
  intros R. destruct (references_found text) as (ds' & R' & E). rewrite <- (references_fun text ds ds' R R') in E. assert (N := reference_names _ _ R).
  unfold read_references. rewrite all_reference, (mapM_caps (fun x => new_link m (m_cap x 2) (m_cap x 1) (m_cap x 3)) (fun c => new_link m (cap c 2) (cap c 1) (cap c 3)) _ _ _ (fun m => eq_refl) E).
  assert (Z : forall ls, mapM (fun x => new_link m (cap (mk3 x []) 2) (cap (mk3 x []) 1) (cap (mk3 x []) 3)) ds = Ok ls <-> Forall2 (reference_of is) ds ls).
  { intros ls. rewrite mapM_iff. apply Forall2_iff. intros d l Hd. rewrite Forall_forall in N. destruct (N d Hd) as (N1 & N2 & N3). cbn [mk3 cap Nat.eqb]. rewrite (new_link_iff _ _ _ _ N1 N3). unfold reference_of. tauto. }
  split.
  - intros H. apply bind_ok in H. destruct H as (ls & Hl & [= H]). exists ls. split; [apply Z; exact Hl|]. apply some_links_iff. exact H.
  - intros (ls & Hl & H). apply Z in Hl. rewrite Hl. cbn [bind]. apply some_links_iff in H. rewrite H. reflexivity.
Qed.
Lemma read_replacements_iff text ds o : reads_all replace_at text ds -> (read_replacements m text = Ok o <-> exists ls, Forall2 (replacement_of is) ds ls /\ some_links ls o).
Proof.
  intros R. destruct (replacements_found text) as (ds' & R' & E). rewrite <- (replacements_fun text ds ds' R R') in E. assert (N := replacement_names _ _ R).
  unfold read_replacements. rewrite all_replace, (mapM_caps (fun x => new_link m (m_cap x 1) (m_cap x 3) (m_cap x 2)) (fun c => new_link m (cap c 1) (cap c 3) (cap c 2)) _ _ _ (fun m => eq_refl) E).
  assert (Z : forall ls, mapM (fun x => new_link m (cap (mk3 x []) 1) (cap (mk3 x []) 3) (cap (mk3 x []) 2)) ds = Ok ls <-> Forall2 (replacement_of is) ds ls).
  { intros ls. rewrite mapM_iff. apply Forall2_iff. intros d l Hd. rewrite Forall_forall in N. destruct (N d Hd) as (N1 & N2 & N3). cbn [mk3 cap Nat.eqb]. rewrite (new_link_iff _ _ _ _ N3 N2). unfold replacement_of. tauto. }
  split.
  - intros H. apply bind_ok in H. destruct H as (ls & Hl & [= H]). exists ls. split; [apply Z; exact Hl|]. apply some_links_iff. exact H.
  - intros (ls & Hl & H). apply Z in Hl. rewrite Hl. cbn [bind]. apply some_links_iff in H. rewrite H. reflexivity.
Qed.
Lemma read_references_tame text : tame (read_references m text).
Proof. apply tame_bind; [|intros; apply tame_ok]. apply tame_mapM. intros. apply new_link_tame. Qed.
Lemma read_replacements_tame text : tame (read_replacements m text).
Proof. apply tame_bind; [|intros; apply tame_ok]. apply tame_mapM. intros. apply new_link_tame. Qed.
End Links.
Lemma to_references_exact text r : to_references text = Ok r <-> means_references text r.
Proof.
  destruct (includes_found text) as (ids & Ri & _). destruct (references_found text) as (fds & Rf & _). destruct (replacements_found text) as (pds & Rp & _). destruct (read_includes_iff text ids Ri) as (I1 & _ & _). unfold to_references. split.
  - intros H. apply bind_ok in H. destruct H as (m & Hm & H). apply I1 in Hm. destruct Hm as (is & Fi & ->). apply bind_ok in H. destruct H as (a & Ha & H). apply bind_ok in H. destruct H as (b & Hb & [= <-]).
    apply (read_references_iff is text fds) in Ha; [|exact Rf]. destruct Ha as (fs & Ff & Hf). apply (read_replacements_iff is text pds) in Hb; [|exact Rp]. destruct Hb as (ps & Fp & Hp). exists ids, is, fds, fs, pds, ps. cbn. auto 10.
  - intros (ids' & is & fds' & fs & pds' & ps & Ri' & Fi & Rf' & Ff & Hf & Rp' & Fp & Hp). rewrite (includes_fun _ _ _ Ri' Ri) in Fi. rewrite (proj2 (I1 _) (ex_intro _ is (conj Fi eq_refl))). cbn [bind].
    rewrite (proj2 (read_references_iff is text fds' _ Rf') (ex_intro _ fs (conj Ff Hf))). cbn [bind]. rewrite (proj2 (read_replacements_iff is text pds' _ Rp') (ex_intro _ ps (conj Fp Hp))). cbn [bind]. destruct r. reflexivity.
Qed.
Lemma to_references_panic text : (to_references text = Panic <-> exists before d after, reads_all include_at text (before ++ d :: after) /\ Forall (fun d => exists i, include_of d i) before /\ ~ In semi (snd d)) /\ to_references text <> NoFuel.
Proof.
  destruct (includes_found text) as (ids & Ri & _). destruct (read_includes_iff text ids Ri) as (I1 & I2 & I3). unfold to_references.
  assert (Q : read_includes text = Panic <-> exists before d after, reads_all include_at text (before ++ d :: after) /\ Forall (fun d => exists i, include_of d i) before /\ ~ In semi (snd d)).
  { rewrite I2. split; intros (before & d & after & H & F & N); exists before, d, after; (split; [|split; assumption]); [subst ids; exact Ri|exact (includes_fun _ _ _ Ri H)]. }
  rewrite <- Q. destruct (read_includes text) as [m| | |] eqn:E; cbn [bind]; [|split; [split; discriminate|discriminate]|split; [tauto|discriminate]|contradiction].
  destruct (proj1 (I1 m) eq_refl) as (is & _ & ->). match goal with |- context [bind ?e _] => assert (T : tame (bind e (fun a => let* b := read_replacements (fold_left (fun m i => minsert m (in_name i) i) is []) text in Ok {| rf_references := a; rf_replacements := b |}))) end.
  { apply tame_bind; [apply read_references_tame|]. intros a _. apply tame_bind; [apply read_replacements_tame|]. intros. apply tame_ok. }
  destruct T as [T1 T2]. split; [split; [intros K; contradiction|discriminate]|exact T2].
Qed.
