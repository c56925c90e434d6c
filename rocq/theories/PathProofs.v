From Coq Require Import Strings.String Strings.Byte Lia.
From Verif Require Import Go GoLemmas DomainModel DomainSpec DomainProofs CardModel PatModel RuleModel RuleProofs PathModel PathSpec.

Definition computes {A} (m : SM A) (s : stack) (P : A -> Prop) : Prop :=
  exists r, m s = (r, s) /\ (r = Err \/ exists x, r = Ok x) /\ forall x, r = Ok x <-> P x.

Lemma computes_ret {A} (r : res A) s (P : A -> Prop) : (r = Err \/ exists x, r = Ok x) -> (forall x, r = Ok x <-> P x) -> computes (sret r) s P.
Proof. intros H1 H2. exists r. repeat split; auto; apply H2. Qed.
Lemma computes_ext {A} (m : SM A) s (P Q : A -> Prop) : computes m s P -> (forall x, P x <-> Q x) -> computes m s Q.
Proof. intros (r & E & T & H) F. exists r. split; [exact E|]. split; [exact T|]. intros x. rewrite H. apply F. Qed.
Lemma computes_bind {A B} (m : SM A) (f : A -> SM B) s (P : A -> Prop) (Q : A -> B -> Prop) :
  computes m s P -> (forall a, P a -> computes (f a) s (Q a)) -> computes (sbind m f) s (fun b => exists a, P a /\ Q a b).
Proof.
  intros (r & E & T & H) F. unfold sbind, computes. rewrite E. destruct T as [->|[a ->]].
  - exists Err. repeat split; auto; [discriminate|]. intros (a & Pa & _). apply H in Pa. discriminate.
  - destruct (F a (proj1 (H a) eq_refl)) as (r' & E' & T' & H'). exists r'. rewrite E'. split; [reflexivity|]. split; [exact T'|].
    intros b. rewrite H'. split; [intros Qb; exists a; split; [apply H; reflexivity|exact Qb]|]. intros (a' & Pa' & Qb).
    apply H in Pa'. injection Pa' as <-. exact Qb.
Qed.

Lemma on_stack_in s n : on_stack s n = true <-> In n s.
Proof.
  unfold on_stack. rewrite existsb_exists. split.
  - intros (x & I & E). apply bytes_eqb_eq in E. subst. exact I.
  - intros I. exists n. split; [exact I|apply bytes_eqb_refl].
Qed.
Lemma on_stack_notin s n : on_stack s n = false <-> ~ In n s.
Proof. rewrite <- on_stack_in. destruct (on_stack s n); intuition congruence. Qed.
Lemma pop_push s n : ~ In n s -> pop (push s n) n = s.
Proof.
  intros H. unfold push. rewrite (proj2 (on_stack_notin s n) H). unfold pop. cbn [filter]. rewrite bytes_eqb_refl. cbn [negb].
  induction s as [|m s IH]; [reflexivity|]. cbn [filter]. destruct (bytes_eqb n m) eqn:E.
  - apply bytes_eqb_eq in E. subst. exfalso. apply H. left. reflexivity.
  - cbn [negb]. f_equal. apply IH. intros I. apply H. right. exact I.
Qed.
Lemma push_new s n : ~ In n s -> push s n = n :: s.
Proof. intros H. unfold push. rewrite (proj2 (on_stack_notin s n) H). reflexivity. Qed.

Lemma build_specifiers_ok l : forallb tspec_ok l = true -> exists x, build_specifiers l = Ok x /\ map (fun s => (sp_name s, sp_card s)) x = map (fun s => (ts_name s, ts_card s)) l.
Proof.
  induction l as [|s l IH]; cbn; [eauto|]. intros H. apply andb_prop in H. destruct H as [H1 H2]. destruct (IH H2) as (x & -> & E).
  unfold tspec_ok in H1. destruct (ts_name s) as [|b n] eqn:Es; [discriminate|]. cbn. eexists. split; [reflexivity|]. cbn. rewrite E. reflexivity.
Qed.
Lemma pspec_map_inj (x y : list pspec) : map (fun s => (sp_name s, sp_card s)) x = map (fun s => (sp_name s, sp_card s)) y -> x = y.
Proof. revert y. induction x as [|a x IH]; intros [|b y] E; try discriminate; [reflexivity|]. injection E as E1 E2 E3. f_equal; [destruct a, b; cbn in *; congruence|auto]. Qed.
Lemma opt_specifiers_ok r : tref_ok r = true -> exists x, opt_specifiers (tr_specs r) = Ok x /\ forall y, specs_are r y <-> y = x.
Proof.
  unfold tref_ok, specs_are, opt_specifiers. intros H. apply andb_prop in H. destruct H as [_ H]. destruct (tr_specs r) as [l|].
  - apply andb_prop in H. destruct H as [_ H]. destruct (build_specifiers_ok l H) as (x & E & F). exists x. split; [exact E|].
    intros y. split; [intros G; apply pspec_map_inj; congruence|intros ->; exact F].
  - exists []. split; [reflexivity|]. intros y. split; [destruct y; [reflexivity|discriminate]|intros ->; reflexivity].
Qed.
Lemma eff_card_is e c : card_is e c <-> c = eff_card e.
Proof.
  unfold card_is, eff_card. destruct (te_card e) as [d|]; split; intros H; subst; auto.
  - destruct H as [[= ->]|[H _]]; [reflexivity|discriminate].
  - destruct H as [H|[_ H]]; [discriminate|exact H].
Qed.
Lemma lonely_count l : lonely l <-> length (filter is_elem l) <= 1.
Proof.
  unfold lonely, elements. replace (length (concat (map (fun i : tinstr => match i with TSwitch => [] | TElem e => [e] end) l))) with (length (filter is_elem l)); [reflexivity|].
  induction l as [|[|e] l IH]; cbn; auto.
Qed.

Section Correct.
Variable T : table token.
Variable nf rp : bytes -> option (element * list element).
Notation unf := (unfolds (table_all T) nf rp).
Notation lunf := (lines_unfold (table_all T) nf rp).
Notation iunf := (instrs_unfold (table_all T) nf rp).
Notation eunf := (elem_unfolds (table_all T) nf rp).
Hypothesis find_ok : forall k y, table_find T k = Ok y <-> (In y (table_all T) /\ t_name y = k).
Hypothesis all_ok : Forall (fun t => token_ok t = true) (table_all T).

Lemma find_err k : table_find T k = Err \/ exists t, table_find T k = Ok t.
Proof. unfold table_find. destruct (mlookup (snd T) k); eauto. Qed.
Lemma find_none k : (table_find T k = Err <-> forall t, In t (table_all T) -> t_name t <> k).
Proof.
  split.
  - intros E t I N. assert (X := proj2 (find_ok k t) (conj I N)). congruence.
  - intros H. destruct (find_err k) as [E|[t E]]; [exact E|]. apply find_ok in E. destruct E as [I N]. exfalso. apply (H t I N).
Qed.

Section Level.
Variable expand : token -> SM (element * list element).
Variable s : stack.
Hypothesis expand_ok : forall t, In t (table_all T) -> ~ In (t_name t) s -> computes (expand t) s (fun x => unf (t_name t :: s) t (fst x) (snd x)).

Lemma trtp_computes r : tref_ok r = true -> ~ In (tr_name r) s ->
  computes (token_reference_to_token_path T nf rp expand r) s (fun x => specs_are r (snd (fst x)) /\
    forall p alone e c, te_content e = TRef r -> card_is e c -> eunf s p alone e (PToken (fst (fst x)) (snd (fst x)) c) (snd x)).
Proof.
  intros Hr Hn. unfold token_reference_to_token_path. destruct (opt_specifiers_ok r Hr) as (specs & Es & Hs).
  eapply computes_ext.
  - apply computes_bind with (P := fun x : element * list element => 
       rp (tr_name r) = Some x \/
       (rp (tr_name r) = None /\ exists t, In t (table_all T) /\ t_name t = tr_name r /\ unf (tr_name r :: s) t (fst x) (snd x)) \/
       (rp (tr_name r) = None /\ (forall t, In t (table_all T) -> t_name t <> tr_name r) /\ nf (tr_name r) = Some x)).
    + destruct (rp (tr_name r)) as [[el ext]|] eqn:Er.
      * apply computes_ret; [eauto|]. intros x. split; [intros [= <-]; auto|]. intros [[= <-]|[[H _]|[H _]]]; [reflexivity|discriminate..].
      * destruct (find_err (tr_name r)) as [E|[t E]]; rewrite E.
        -- assert (E' := proj1 (find_none _) E). destruct (nf (tr_name r)) as [[el ext]|] eqn:En.
           ++ apply computes_ret; [eauto|]. intros x. split; [intros [= <-]; auto|].
              intros [H|[(_ & t & I & N & _)|(_ & _ & [= <-])]]; [discriminate|exfalso; apply (E' t I N)|reflexivity].
           ++ apply computes_ret; [auto|]. intros x. split; [discriminate|].
              intros [H|[(_ & t & I & N & _)|(_ & _ & H)]]; [discriminate|exfalso; apply (E' t I N)|discriminate].
        -- assert (E' := E). apply find_ok in E'. destruct E' as [I N]. eapply computes_ext; [apply expand_ok; [exact I|rewrite N; exact Hn]|].
           intros x. rewrite N. split; [intros H; right; left; split; [reflexivity|]; exists t; auto|].
           intros [H|[(_ & t' & I' & N' & H)|(_ & H & _)]]; [discriminate| |exfalso; apply (H t I N)].
           assert (X : table_find T (tr_name r) = Ok t') by (apply find_ok; auto). rewrite E in X. injection X as <-. exact H.
    + intros x _. apply computes_bind with (P := fun y => y = specs).
      * apply computes_ret; rewrite Es; [eauto|]. intros y. split; [intros [= <-]; reflexivity|intros ->; reflexivity].
      * intros y Hy. apply computes_ret with (P := fun z => z = (fst x, y, snd x)); [eauto|]. intros z. split; [intros [= <-]; reflexivity|intros ->; reflexivity].
  - intros [[el sp] ext]. cbn [fst snd]. split.
    + intros (x & Hx & y & -> & [= -> -> ->]). split; [apply Hs; reflexivity|]. intros p alone e c Ee Ec.
      destruct Hx as [E|[(E & t & I & N & U)|(E & F & N)]].
      * eapply eu_replaced; eauto; [apply Hs; reflexivity|]. rewrite E. destruct x; reflexivity.
      * eapply eu_declared; eauto. apply Hs; reflexivity.
      * eapply eu_foreign; eauto; [apply Hs; reflexivity|]. rewrite N. destruct x; reflexivity.
    + intros [Hsp HU]. exists (el, ext). cbn [fst snd].
      specialize (HU [] True {| te_content := TRef r; te_card := None |} CMandatory eq_refl (or_intror (conj eq_refl eq_refl))).
      split; [|exists specs; split; [reflexivity|]; apply Hs in Hsp; subst; reflexivity].
      inversion HU as [| |? ? ? ? r0 ? ? ? ? E1 E2 E3 E4 E5|? ? ? ? r0 ? ? t ? ? E1 E2 E3 E4 E5 E6 E7 E8|? ? ? ? r0 ? ? ? ? E1 E2 E3 E4 E5 E6 E7]; subst;
        cbn [te_content] in E1; injection E1 as <-; [left; exact E5| |right; right; auto].
      right. left. split; [exact E5|]. exists t. auto.
Qed.

Lemma etc_computes p e n : tinstr_ok (TElem e) = true ->
  computes (element_to_container T nf rp expand p e n) s (fun x => eunf s p (n <= 1) e (fst x) (snd x)).
Proof.
  intros He. cbn [tinstr_ok] in He. unfold element_to_container. destruct (te_content e) as [r|r] eqn:Ee.
  - destruct (on_stack s (tr_name r)) eqn:Eo.
    + apply on_stack_in in Eo. destruct (opt_specifiers_ok r He) as (specs & Es & Hs).
      destruct (bytes_eqb p (tr_name r) && (n <=? 1)) eqn:Eb.
      * exists Err. rewrite (proj2 (on_stack_in _ _) Eo). split; [reflexivity|]. split; [auto|]. intros x. split; [discriminate|]. intros U. exfalso.
        apply andb_prop in Eb. destruct Eb as [Ep En]. apply bytes_eqb_eq in Ep. apply Nat.leb_le in En.
        inversion U as [|? ? ? ? r0 ? ? E1 E2 E3 E4 E5| | |]; subst; try congruence;
          match goal with H : te_content e = TRef ?r0 |- _ => rewrite Ee in H; injection H as <- end; [|contradiction..].
        apply E5. auto.
      * exists (Ok (PRec (tr_name r) specs (eff_card e), [])). rewrite (proj2 (on_stack_in _ _) Eo). unfold sret. rewrite Es. cbn [bind].
        assert (En : new_rec (tr_name r) specs (eff_card e) = Ok (PRec (tr_name r) specs (eff_card e))).
        { unfold tref_ok in He. unfold new_rec. destruct (tr_name r); [discriminate|reflexivity]. }
        rewrite En. cbn [bind]. split; [reflexivity|]. split; [eauto|]. intros [c ext]. cbn [fst snd]. split.
        -- intros [= <- <-]. eapply eu_back; eauto; [apply eff_card_is; reflexivity|apply Hs; reflexivity|].
           intros [-> L]. rewrite bytes_eqb_refl in Eb. cbn in Eb. destruct n as [|[|n]]; cbn in Eb; try discriminate. lia.
        -- intros U. inversion U as [|? ? ? ? r0 ? ? E1 E2 E3 E4 E5| | |]; subst; try congruence;
             match goal with H : te_content e = TRef ?r0 |- _ => rewrite Ee in H; injection H as <- end; [|contradiction..].
           apply Hs in E3. apply eff_card_is in E2. subst. reflexivity.
    + apply on_stack_notin in Eo.
      assert (X : computes (sbind (token_reference_to_token_path T nf rp expand r) (fun x => let '(el, specs, ext) := x in sret (Ok (PToken el specs (eff_card e), ext)))) s
               (fun x => eunf s p (n <= 1) e (fst x) (snd x))).
      { eapply computes_ext; [eapply computes_bind with (Q := fun y x => x = (PToken (fst (fst y)) (snd (fst y)) (eff_card e), snd y)); [apply trtp_computes; assumption|]|].
        - intros [[el sp] ext] _. apply computes_ret with (P := fun x => x = (PToken el sp (eff_card e), ext)); [eauto|].
          intros x. split; [intros [= <-]; reflexivity|intros ->; reflexivity].
        - intros [c ext]. cbn [fst snd]. split.
          + intros ([[el sp] ext'] & [Hsp H] & [= -> ->]). apply (H p (n <= 1) e (eff_card e) Ee). apply eff_card_is. reflexivity.
          + intros U.
            assert (Hc : exists el sp, c = PToken el sp (eff_card e) /\ specs_are r sp).
            { inversion U; subst; try congruence;
              match goal with H : te_content e = TRef ?r0 |- _ => rewrite Ee in H; injection H as <- end; try contradiction;
              match goal with H : card_is _ _ |- _ => apply eff_card_is in H; subst end; eauto. }
            destruct Hc as (el & sp & -> & Hsp). exists (el, sp, ext). cbn [fst snd]. split; [|reflexivity]. split; [exact Hsp|].
            intros p' alone' e' c' Ee' Ec'.
            inversion U; subst; try congruence;
              match goal with H : te_content e = TRef ?r0 |- _ => rewrite Ee in H; injection H as <- end; try contradiction.
            * eapply eu_replaced; eauto.
            * eapply eu_declared; eauto.
            * eapply eu_foreign; eauto. }
      destruct X as (res0 & E & H). exists res0. rewrite (proj2 (on_stack_notin _ _) Eo). split; [exact E|exact H].
  - apply computes_ret; [eauto|]. intros [c ext]. cbn [fst snd]. split.
    + intros [= <- <-]. apply eu_rule; [exact Ee|apply eff_card_is; reflexivity].
    + intros U. inversion U; subst; try congruence. match goal with H : te_content e = _ |- _ => rewrite Ee in H; injection H as <- end.
      match goal with H : card_is _ _ |- _ => apply eff_card_is in H; subst end. reflexivity.
Qed.

Lemma pis_computes p n l : forallb tinstr_ok l = true ->
  computes (process_instrs T nf rp expand p n l) s (fun x => iunf s p (n <= 1) l (fst x) (snd x)).
Proof.
  induction l as [|[|e] l IH]; intros H; cbn [process_instrs].
  - apply computes_ret; [eauto|]. intros [x ext]. cbn [fst snd]. split; [intros [= <- <-]; constructor|intros U; inversion U; reflexivity].
  - eapply computes_ext; [eapply computes_bind; [apply IH; exact H|]|].
    + intros y _. apply computes_ret with (P := fun x => x = (ISwitch :: fst y, snd y)); [eauto|]. intros x. split; [intros [= <-]; reflexivity|intros ->; reflexivity].
    + intros [x ext]. cbn [fst snd]. split; [intros ([y ext'] & U & [= -> ->]); constructor; exact U|].
      intros U. inversion U; subst. eexists (_, _). split; [eassumption|reflexivity].
  - cbn [forallb] in H. apply andb_prop in H. destruct H as [He H].
    eapply computes_ext; [eapply computes_bind; [apply etc_computes; exact He|]|].
    + intros x _. eapply computes_bind; [apply IH; exact H|]. intros y _.
      apply computes_ret with (P := fun z => z = (ICont (fst x) :: fst y, snd x ++ snd y)); [eauto|]. intros z. split; [intros [= <-]; reflexivity|intros ->; reflexivity].
    + intros [x ext]. cbn [fst snd]. split.
      * intros ([c ext1] & U1 & [y ext2] & U2 & [= -> ->]). constructor; assumption.
      * intros U. inversion U; subst. eexists (_, _). split; [eassumption|]. eexists (_, _). split; [eassumption|]. reflexivity.
Qed.
Lemma pl_computes p l : tline_ok l = true ->
  computes (process_line T nf rp expand p l) s (fun x => iunf s p (lonely l) l (fst x) (snd x)).
Proof.
  unfold tline_ok. intros H. apply andb_prop in H. destruct H as [Hn H]. unfold process_line.
  eapply computes_ext; [eapply computes_bind; [apply pis_computes; exact H|]|].
  - intros y Hy. apply computes_ret with (P := fun x => x = y).
    + destruct y as [[|a y] ext]; cbn; [left; reflexivity|right; eauto].
    + intros x. assert (Ny : fst y <> []) by (destruct l as [|i l]; [discriminate|]; inversion Hy; subst; discriminate).
      destruct y as [[|a y] ext]; [contradiction|]. cbn. split; [intros [= <-]; reflexivity|intros ->; reflexivity].
  - assert (Alone : forall x ext, iunf s p (length (filter is_elem l) <= 1) l x ext <-> iunf s p (lonely l) l x ext).
    { intros x ext. assert (G : forall (A B : Prop), (A <-> B) -> forall l x ext, iunf s p A l x ext -> iunf s p B l x ext).
      { clear. intros A B HAB l. induction l as [|[|e] l IH]; intros x ext U; inversion U; subst; constructor; auto.
        match goal with H : elem_unfolds _ _ _ _ _ _ _ _ _ |- _ => inversion H; subst end.
        - eapply eu_rule; eauto.
        - eapply eu_back; eauto. intros [-> Hb]. match goal with H : ~ (_ /\ A) |- _ => apply H; split; [reflexivity|apply HAB; exact Hb] end.
        - eapply eu_replaced; eauto.
        - eapply eu_declared; eauto.
        - eapply eu_foreign; eauto. }
      split; apply G; [symmetry|]; apply lonely_count. }
    intros [x ext]. cbn [fst snd]. rewrite <- Alone. split; [intros ([y ext'] & U & [= -> ->]); exact U|]. intros U. exists (x, ext). auto.
Qed.
Lemma pls_computes p ls : forallb tline_ok ls = true ->
  computes (process_lines T nf rp expand p ls) s (fun x => lunf s p ls (fst x) (snd x)).
Proof.
  induction ls as [|l ls IH]; intros H; cbn [process_lines].
  - apply computes_ret; [eauto|]. intros [x ext]. cbn [fst snd]. split; [intros [= <- <-]; constructor|intros U; inversion U; reflexivity].
  - cbn [forallb] in H. apply andb_prop in H. destruct H as [He H].
    eapply computes_ext; [eapply computes_bind; [apply pl_computes; exact He|]|].
    + intros x _. eapply computes_bind; [apply IH; exact H|]. intros y _.
      apply computes_ret with (P := fun z => z = (fst x :: fst y, snd x ++ snd y)); [eauto|]. intros z. split; [intros [= <-]; reflexivity|intros ->; reflexivity].
    + intros [x ext]. cbn [fst snd]. split.
      * intros ([c ext1] & U1 & [y ext2] & U2 & [= -> ->]). constructor; assumption.
      * intros U. inversion U; subst. eexists (_, _). split; [eassumption|]. eexists (_, _). split; [eassumption|]. reflexivity.
Qed.
Lemma lunf_nonnil p ls x ext : ls <> [] -> lunf s p ls x ext -> x <> [].
Proof. intros N U. destruct ls; [contradiction|]. inversion U; subst. discriminate. Qed.
Lemma tew_computes t : token_ok t = true ->
  computes (to_element_with T nf rp expand t) s (fun x => unf s t (fst x) (snd x)).
Proof.
  unfold token_ok. intros H. apply andb_prop in H. destruct H as [H Hnot]. apply andb_prop in H. destruct H as [H Hm]. apply andb_prop in H. destruct H as [Hname Hne].
  assert (NE : forall m n, m <> [] -> n <> Some [] -> new_element (t_name t) m n = Ok (Element (t_name t) m n)).
  { intros m n Nm Nn. unfold new_element. destruct (t_name t); [discriminate|]. destruct m; [contradiction|]. destruct n as [[|]|]; [contradiction|reflexivity..]. }
  assert (Nmust : t_must t <> []) by (destruct (t_must t); [discriminate|discriminate]).
  unfold to_element_with. eapply computes_ext; [eapply computes_bind; [apply pls_computes; exact Hm|]|].
  - intros m Um. apply lunf_nonnil in Um; [|exact Nmust]. instantiate (1 := fun m x =>
      match t_not t with None => x = (Element (t_name t) (fst m) None, snd m)
      | Some ls => exists n, lunf s (t_name t) ls (fst n) (snd n) /\ x = (Element (t_name t) (fst m) (Some (fst n)), snd m ++ snd n) end). cbv beta.
    destruct (t_not t) as [ls|] eqn:En.
    + apply andb_prop in Hnot. destruct Hnot as [Hnn Hnot]. eapply computes_bind; [apply pls_computes; exact Hnot|].
      intros n Un. apply lunf_nonnil in Un; [|destruct ls; discriminate].
      rewrite NE; [|exact Um|congruence]. cbn [bind].
      apply computes_ret with (P := fun x => x = (Element (t_name t) (fst m) (Some (fst n)), snd m ++ snd n)); [eauto|].
      intros x. split; [intros [= <-]; reflexivity|intros ->; reflexivity].
    + rewrite NE; [|exact Um|discriminate]. cbn [bind]. apply computes_ret; [eauto|]. intros x. split; [intros [= <-]; reflexivity|intros ->; reflexivity].
  - intros [e ext]. cbn [fst snd]. split.
    + intros ([m ext1] & Um & Hx). cbn [fst snd] in *. destruct (t_not t) as [ls|] eqn:En.
      * destruct Hx as ([n ext2] & Un & [= -> ->]). eapply unf_not; eauto.
      * injection Hx as -> ->. apply unf_must; assumption.
    + intros U. inversion U; subst; (eexists (_, _); split; [eassumption|]); cbn [fst snd].
      * match goal with H : t_not t = None |- _ => rewrite H end. reflexivity.
      * match goal with H : t_not t = Some _ |- _ => rewrite H end. eexists (_, _). split; [eassumption|reflexivity].
Qed.
End Level.

Definition small (s : stack) : Prop := NoDup s /\ incl s (map t_name (table_all T)).
Lemma small_length s : small s -> length s <= length (table_all T).
Proof. intros [N I]. rewrite <- (map_length t_name). apply NoDup_incl_length; assumption. Qed.
Lemma small_cons t s : small s -> In t (table_all T) -> ~ In (t_name t) s -> small (t_name t :: s).
Proof. intros [N I] It Nt. split; [constructor; assumption|]. intros x [<-|Ix]; [apply in_map; exact It|apply I; exact Ix]. Qed.

Lemma to_element_computes fuel t s : small s -> token_ok t = true -> length (table_all T) < fuel + length s ->
  computes (to_element T nf rp fuel t) s (fun x => unf s t (fst x) (snd x)).
Proof.
  revert t s. induction fuel as [|fuel IH]; intros t s Hs Ht Hf.
  - exfalso. apply small_length in Hs. lia.
  - cbn [to_element]. apply tew_computes; [|exact Ht]. intros u Iu Nu. unfold encapsulated, computes.
    assert (Ou : token_ok u = true) by (rewrite Forall_forall in all_ok; auto).
    destruct (IH u (t_name u :: s) (small_cons u s Hs Iu Nu) Ou ltac:(cbn [length]; lia)) as (r & E & H). exists r.
    rewrite push_new by exact Nu. rewrite E. split; [|exact H]. f_equal. rewrite <- (push_new s (t_name u) Nu). apply pop_push. exact Nu.
Qed.
Lemma small_nil : small [].
Proof. split; [constructor|intros x []]. Qed.
Lemma to_element_root t : token_ok t = true -> computes (to_element T nf rp (path_fuel T) t) [] (fun x => unf [] t (fst x) (snd x)).
Proof. intros Ht. apply to_element_computes; [apply small_nil|exact Ht|]. unfold path_fuel. cbn. lia. Qed.

(* the dependencies *)
Inductive deps_of : list token -> list element -> Prop :=
| do_nil : deps_of [] []
| do_cons t e ext ts es : unf [] t e ext -> deps_of ts es -> deps_of (t :: ts) (e :: ext ++ es).
Lemma build_deps_computes l : Forall (fun t => token_ok t = true) l -> computes (build_dependencies T nf rp l) [] (deps_of l).
Proof.
  intros F. induction F as [|t l Ht F IH]; cbn [build_dependencies].
  - apply computes_ret; [eauto|]. intros x. split; [intros [= <-]; constructor|intros D; inversion D; reflexivity].
  - eapply computes_ext; [eapply computes_bind; [apply to_element_root; exact Ht|]|].
    + intros x _. eapply computes_bind; [exact IH|]. intros y _.
      apply computes_ret with (P := fun z => z = fst x :: snd x ++ y); [eauto|]. intros z. split; [intros [= <-]; reflexivity|intros ->; reflexivity].
    + intros z. split; [intros ([e ext] & U & y & D & ->); constructor; assumption|].
      intros D. inversion D; subst. eexists (_, _). split; [eassumption|]. eexists. split; [eassumption|reflexivity].
Qed.
Lemma unf_fun s t e1 x1 e2 x2 : small s -> token_ok t = true -> unf s t e1 x1 -> unf s t e2 x2 -> e1 = e2 /\ x1 = x2.
Proof.
  intros Hs Ht U1 U2. destruct (to_element_computes (S (length (table_all T))) t s Hs Ht ltac:(lia)) as (r & _ & _ & H).
  apply (H (e1, x1)) in U1. apply (H (e2, x2)) in U2. rewrite U1 in U2. injection U2 as -> ->. auto.
Qed.

(* state after any calls *)
Definition state_ok (st : pstate) : Prop := ps_stack st = [] /\ forall d, ps_deps st = Some d -> deps_of (table_all T) d.
Definition tp_ok (t : token) (p : path) : Prop :=
  exists deps e ext, deps_of (table_all T) deps /\ unf [] t e ext /\ pa_element p = e /\
    pa_deps p = fold_left (fun m x => minsert m (el_name x) x) (deps ++ ext ++ [e]) [].
Lemma to_path_step st t : state_ok st -> token_ok t = true ->
  state_ok (snd (to_path T nf rp st t)) /\
  (fst (to_path T nf rp st t) = Err \/ exists p, fst (to_path T nf rp st t) = Ok p) /\
  forall p, fst (to_path T nf rp st t) = Ok p <-> tp_ok t p.
Proof.
  intros [Hs Hd] Ht. unfold to_path. rewrite Hs.
  destruct (build_deps_computes (table_all T) all_ok) as (rd & Ed & Td & Pd).
  destruct (to_element_root t Ht) as (r & E & Tr & Pr).
  assert (Main : forall deps, deps_of (table_all T) deps ->
    let out := (let '(r, s2) := to_element T nf rp (path_fuel T) t [] in
      let st' := {| ps_deps := Some deps; ps_stack := s2 |} in
      match r with
      | Ok (e, ext) => (Ok {| pa_element := e; pa_deps := fold_left (fun m x => minsert m (el_name x) x) (deps ++ ext ++ [e]) [] |}, st')
      | Err => (Err, st') | Panic => (Panic, st') | NoFuel => (NoFuel, st') end) in
    state_ok (snd out) /\ (fst out = Err \/ exists p, fst out = Ok p) /\ forall p, fst out = Ok p <-> tp_ok t p).
  { intros deps D. cbv zeta. rewrite E. destruct Tr as [->|[[e ext] ->]]; cbn [fst snd].
    - split; [split; [reflexivity|cbn; intros d [= <-]; exact D]|]. split; [auto|]. intros p. split; [discriminate|].
      intros (d' & e & ext & _ & U & _). apply (Pr (e, ext)) in U. discriminate.
    - split; [split; [reflexivity|cbn; intros d [= <-]; exact D]|]. split; [eauto|]. intros p. split.
      + intros [= <-]. exists deps, e, ext. split; [exact D|]. split; [apply (Pr (e, ext)); reflexivity|]. split; reflexivity.
      + intros (d' & e' & ext' & D' & U & E1 & E2). apply (Pr (e', ext')) in U. injection U as <- <-.
        assert (d' = deps) as ->. { apply Pd in D. apply Pd in D'. congruence. }
        destruct p; cbn in *; subst; reflexivity. }
  destruct (ps_deps st) as [d|] eqn:Edp.
  - apply (Main d). apply Hd. reflexivity.
  - rewrite Ed. destruct Td as [->|[d ->]].
    + cbn [fst snd]. split; [split; [reflexivity|cbn; discriminate]|]. split; [auto|]. intros p. split; [discriminate|].
      intros (d' & e & ext & D' & _). apply Pd in D'. discriminate.
    + apply (Main d). apply Pd. reflexivity.
Qed.
Lemma state_ok_init : state_ok pstate_init.
Proof. split; [reflexivity|discriminate]. Qed.
Lemma after_calls_ok ts : Forall (fun t => token_ok t = true) ts -> state_ok (after_calls T nf rp ts).
Proof.
  unfold after_calls. intros F. assert (G : forall st, state_ok st -> state_ok (fold_left (fun st t => snd (to_path T nf rp st t)) ts st)).
  { induction F as [|t ts Ht F IH]; intros st Hst; cbn [fold_left]; [exact Hst|]. apply IH. apply to_path_step; assumption. }
  apply G, state_ok_init.
Qed.
End Correct.

(* ---- consequences, stated for tables the builders let exist ---- *)
Lemma good_find T : good_table T -> (forall k y, table_find T k = Ok y <-> (In y (table_all T) /\ t_name y = k)) /\ NoDup (map t_name (table_all T)) /\ Forall (fun t => token_ok t = true) (table_all T).
Proof. intros [[ops E] F]. apply (unique_table_exact t_name) in E. destruct E as (_ & _ & N & H). auto. Qed.

Section Facts.
Variable D : list token.
Variable nf rp : bytes -> option (element * list element).
Lemma unf_name s t e ext : unfolds D nf rp s t e ext -> el_name e = t_name t.
Proof. intros U. inversion U; reflexivity. Qed.
Lemma iunf_elem s p al l x ext y : instrs_unfold D nf rp s p al l x ext -> In (TElem y) l -> exists c ext', elem_unfolds D nf rp s p al y c ext'.
Proof.
  revert x ext. induction l as [|i l IH]; intros x ext U I; [destruct I|]. inversion U; subst.
  - destruct I as [I|I]; [discriminate|]. eapply IH; eauto.
  - destruct I as [[= <-]|I]; [eauto|]. eapply IH; eauto.
Qed.
Lemma lunf_elem s p ls xs ext l y : lines_unfold D nf rp s p ls xs ext -> In l ls -> In (TElem y) l -> exists c ext', elem_unfolds D nf rp s p (lonely l) y c ext'.
Proof.
  revert xs ext. induction ls as [|l0 ls IH]; intros xs ext U I J; [destruct I|]. inversion U; subst. destruct I as [<-|I]; [eapply iunf_elem; eauto|]. eapply IH; eauto.
Qed.
Lemma unf_elem s t e ext l y : unfolds D nf rp s t e ext -> In l (all_lines t) -> In (TElem y) l -> exists c ext', elem_unfolds D nf rp s (t_name t) (lonely l) y c ext'.
Proof.
  unfold all_lines. intros U I J. inversion U as [? ? ? ? En|? ? ? ? ? ? ? En]; subst; rewrite En in I; [rewrite app_nil_r in I|apply in_app_or in I; destruct I]; match goal with H: In l ?ls, X : lines_unfold _ _ _ _ _ ?ls _ _ |- _ => eapply lunf_elem; [exact X|exact H|exact J] end.
Qed.
Lemma iunf_cont s p al l x ext c : instrs_unfold D nf rp s p al l x ext -> In (ICont c) x -> exists y ext', elem_unfolds D nf rp s p al y c ext'.
Proof.
  revert x ext. induction l as [|i l IH]; intros x ext U I; inversion U; subst; [destruct I| |].
  - destruct I as [I|I]; [discriminate|]. eapply IH; eauto.
  - destruct I as [[= <-]|I]; [eauto|]. eapply IH; eauto.
Qed.
Lemma lunf_cont s p ls xs ext c : lines_unfold D nf rp s p ls xs ext -> in_lines xs c -> exists al y ext', elem_unfolds D nf rp s p al y c ext'.
Proof.
  revert xs ext. induction ls as [|l0 ls IH]; intros xs ext U (l & I & J); inversion U; subst; [destruct I|].
  destruct I as [<-|I]; [|eapply IH; eauto; exists l; auto].
  match goal with H : instrs_unfold _ _ _ _ _ _ _ _ _ |- _ => eapply iunf_cont in H; eauto; destruct H as (y & e' & H); eauto end.
Qed.
Lemma unf_cont s t e ext c : unfolds D nf rp s t e ext -> directly e c -> exists al y ext', elem_unfolds D nf rp s (t_name t) al y c ext'.
Proof.
  intros U Hd. inversion U; subst; unfold directly in Hd; cbn [el_must el_not] in Hd; destruct Hd as [Hin|(ls1 & Els & Hin)]; try discriminate;
    try (injection Els as <-); match goal with X : lines_unfold _ _ _ _ _ _ ?xs _ |- _ => match type of Hin with in_lines xs _ => eapply lunf_cont; [exact X|exact Hin] end end.
Qed.
End Facts.

Lemma below_unfold D s t e ext names c : unfolds D none none s t e ext -> NoDup s -> below e names c ->
  NoDup (names ++ s) /\ (forall n, In n names -> is_declared D n) /\
  match c with
  | PRec n _ _ => In n (names ++ s)
  | PToken e' _ _ => ~ In (el_name e') (names ++ s) /\ exists t' ext', In t' D /\ unfolds D none none (el_name e' :: names ++ s) t' e' ext'
  | PRule _ _ => True
  | PLines _ => False
  end.
Proof.
  intros U Ns B. revert s t ext U Ns. induction B as [e c H|e e' specs card names c H B IH]; intros s t ext U Ns.
  - cbn [app]. split; [exact Ns|]. split; [intros n []|]. destruct (unf_cont _ _ _ _ _ _ _ _ U H) as (al & y & ext' & E).
    inversion E as [| |? ? ? ? ? ? ? ? ? _ _ _ _ X|? ? ? ? ? ? ? ? ? ? _ _ _ X1 _ X2 X3 X4|? ? ? ? ? ? ? ? ? _ _ _ _ _ _ X]; subst; try exact I; try assumption; try discriminate.
    rewrite (unf_name _ _ _ _ _ _ _ X4), X3. split; [exact X1|]. eauto.
  - destruct (unf_cont _ _ _ _ _ _ _ _ U H) as (al & y & ext' & E).
    inversion E as [| |? ? ? ? ? ? ? ? ? _ _ _ _ X|? ? ? ? r ? ? t' ? ? _ _ _ X1 _ X2 X3 X4|? ? ? ? ? ? ? ? ? _ _ _ _ _ _ X]; subst; try discriminate.
    pose proof (unf_name _ _ _ _ _ _ _ X4) as En.
    destruct (IH _ _ _ X4 ltac:(constructor; assumption)) as (I1 & I2 & I3).
    rewrite En, X3. rewrite <- app_assoc. cbn [app]. split; [exact I1|]. split.
    + intros n I. apply in_app_or in I. destruct I as [I|[<-|[]]]; [auto|]. exists t'. auto.
    + exact I3.
Qed.

(* existence *)
Lemma elem_exists D s t l e : token_ok t = true -> In l (all_lines t) -> In (TElem e) l ->
  (forall n, refers t n -> is_declared D n) -> (In (t_name t) s -> ~ refers_alone t (t_name t)) ->
  (forall u n, In u D -> t_name u = n -> ~ In n s -> exists el ext, unfolds D none none (n :: s) u el ext) ->
  exists c ext, elem_unfolds D none none s (t_name t) (lonely l) e c ext.
Proof.
  intros Ht Il Ie Hr Ha Hu. destruct (te_content e) as [r|r] eqn:Ee; [|exists (PRule r (eff_card e)), []; apply eu_rule; [exact Ee|apply eff_card_is; reflexivity]].
  assert (Hok : tref_ok r = true).
  { unfold token_ok in Ht. apply andb_prop in Ht. destruct Ht as [Ht Hn]. apply andb_prop in Ht. destruct Ht as [_ Hm].
    assert (Hl : tline_ok l = true).
    { unfold all_lines in Il. apply in_app_or in Il. destruct Il as [Il|Il]; [rewrite forallb_forall in Hm; auto|].
      destruct (t_not t) as [ls|]; [|destruct Il]. apply andb_prop in Hn. destruct Hn as [_ Hn]. rewrite forallb_forall in Hn. auto. }
    unfold tline_ok in Hl. apply andb_prop in Hl. destruct Hl as [_ Hl]. rewrite forallb_forall in Hl. specialize (Hl _ Ie). cbn in Hl. rewrite Ee in Hl. exact Hl. }
  destruct (opt_specifiers_ok r Hok) as (specs & _ & Hs). assert (Hspecs : specs_are r specs) by (apply Hs; reflexivity).
  destruct (in_dec (list_eq_dec byte_eq_dec) (tr_name r) s) as [Is|Is].
  - exists (PRec (tr_name r) specs (eff_card e)), []. eapply eu_back; eauto; [apply eff_card_is; reflexivity|].
    intros [Ep L]. rewrite <- Ep in Is. apply (Ha Is). exists l, e, r. auto.
  - destruct (Hr (tr_name r)) as (u & Iu & Eu); [exists l, e, r; auto|]. destruct (Hu u _ Iu Eu Is) as (el & ext & U).
    exists (PToken el specs (eff_card e)), ext. eapply eu_declared; eauto. apply eff_card_is. reflexivity.
Qed.
Lemma instrs_exists D s p al l : (forall e, In (TElem e) l -> exists c ext, elem_unfolds D none none s p al e c ext) ->
  exists x ext, instrs_unfold D none none s p al l x ext.
Proof.
  induction l as [|[|e] l IH]; intros H; [exists [], []; constructor| |].
  - destruct IH as (x & ext & U); [intros e I; apply H; right; exact I|]. eexists _, _. constructor. exact U.
  - destruct IH as (x & ext & U); [intros e' I; apply H; right; exact I|]. destruct (H e (or_introl eq_refl)) as (c & ext' & Ue). eexists _, _. constructor; eauto.
Qed.
Lemma lines_exists D s p ls : (forall l e, In l ls -> In (TElem e) l -> exists c ext, elem_unfolds D none none s p (lonely l) e c ext) ->
  exists x ext, lines_unfold D none none s p ls x ext.
Proof.
  induction ls as [|l ls IH]; intros H; [exists [], []; constructor|].
  destruct IH as (x & ext & U); [intros l' e I; apply H; right; exact I|].
  destruct (instrs_exists D s p (lonely l) l) as (y & ext' & Ul); [intros e I; apply (H l e); [left; reflexivity|exact I]|]. eexists _, _. constructor; eauto.
Qed.
Lemma unfolds_exists T : good_table T ->
  (forall u n, In u (table_all T) -> refers u n -> is_declared (table_all T) n) ->
  (forall u, In u (table_all T) -> ~ refers_alone u (t_name u)) ->
  forall k s t, length (table_all T) <= k + length s -> NoDup s -> incl s (map t_name (table_all T)) -> token_ok t = true ->
  (forall n, refers t n -> is_declared (table_all T) n) -> (In (t_name t) s -> ~ refers_alone t (t_name t)) ->
  exists e ext, unfolds (table_all T) none none s t e ext.
Proof.
  intros G H1 H2. destruct (good_find T G) as (_ & _ & Hok). rewrite Forall_forall in Hok.
  induction k as [k IH] using lt_wf_ind. intros s t Hk Ns Is Ht Hr Ha.
  assert (Sub : forall u n, In u (table_all T) -> t_name u = n -> ~ In n s -> exists el ext, unfolds (table_all T) none none (n :: s) u el ext).
  { intros u n Iu <- Nu. assert (Hlen : length s < length (table_all T)).
    { rewrite <- (map_length t_name). apply Nat.lt_le_trans with (length (t_name u :: s)); [cbn; lia|].
      apply NoDup_incl_length; [constructor; assumption|]. intros x [<-|I]; [apply in_map; exact Iu|apply Is; exact I]. }
    apply (IH (k - 1) ltac:(lia)); auto; [cbn [length]; lia|constructor; assumption| |intros n R; eauto].
    intros x [<-|I]; [apply in_map; exact Iu|apply Is; exact I]. }
  assert (E : forall l e, In l (all_lines t) -> In (TElem e) l -> exists c ext, elem_unfolds (table_all T) none none s (t_name t) (lonely l) e c ext).
  { intros l e Il Ie. apply elem_exists; auto. }
  destruct (lines_exists (table_all T) s (t_name t) (t_must t)) as (m & ext & Um).
  { intros l e Il. apply E. unfold all_lines. apply in_or_app. auto. }
  destruct (t_not t) as [ls|] eqn:En.
  - destruct (lines_exists (table_all T) s (t_name t) ls) as (n & ext' & Un).
    { intros l e Il. apply E. unfold all_lines. rewrite En. apply in_or_app. auto. }
    eexists _, _. eapply unf_not; eauto.
  - eexists _, _. apply unf_must; eauto.
Qed.
Lemma unf_refs_declared D t e ext : unfolds D none none [] t e ext -> forall n, refers t n -> is_declared D n.
Proof.
  intros U n (l & y & r & Il & Iy & Ey & <-). destruct (unf_elem _ _ _ _ _ _ _ _ _ U Il Iy) as (c & ext' & E).
  inversion E; subst; try congruence; match goal with H : te_content y = TRef ?r0 |- _ => rewrite Ey in H; injection H as <- end;
    try contradiction; try discriminate. eexists. split; eauto.
Qed.
Lemma unf_not_alone D t e ext : NoDup (map t_name D) -> In t D -> unfolds D none none [] t e ext -> ~ refers_alone t (t_name t).
Proof.
  intros N It U (l & y & r & Il & Iy & Ey & En & L). destruct (unf_elem _ _ _ _ _ _ _ _ _ U Il Iy) as (c & ext' & E).
  assert (X : forall t', In t' D -> t_name t' = t_name t -> t' = t).
  { clear - N It. intros t' I' E. revert N It I'. induction D as [|d D' IH]; intros N It I'; [destruct It|]. cbn in N. inversion N as [|? ? Nd N']; subst.
    destruct It as [->|It], I' as [->|I']; auto; exfalso; apply Nd; [rewrite <- E|rewrite E]; apply in_map; assumption. }
  inversion E as [| | |? ? ? ? r0 ? ? t' ? ? E1 _ _ _ _ I' N' U'|]; subst; try congruence;
    try (match goal with H : te_content y = TRef ?r0 |- _ => rewrite Ey in H; injection H as <- end); try contradiction; try discriminate.
  assert (t' = t) as -> by (apply X; [exact I'|congruence]).
  destruct (unf_elem _ _ _ _ _ _ _ _ _ U' Il Iy) as (c2 & ext2 & E2).
  inversion E2; subst; try congruence; match goal with H : te_content y = TRef ?r1 |- _ => rewrite Ey in H; injection H as <- end.
  all: try (match goal with H : ~ (_ /\ _) |- _ => apply H; split; [symmetry; exact En|exact L] end).
  all: match goal with H : ~ In _ (_ :: _) |- _ => apply H; left; first [reflexivity|symmetry; exact En|exact En] end.
Qed.

Lemma deps_of_all D rp nf l d : deps_of D nf rp l d -> forall u, In u l -> exists e ext, unfolds (table_all D) nf rp [] u e ext.
Proof. intros H. induction H as [|t e ext ts es U H IH]; intros u I; [destruct I|]. destruct I as [<-|I]; eauto. Qed.
Lemma deps_of_exists T l : (forall u, In u l -> exists e ext, unfolds (table_all T) none none [] u e ext) -> exists d, deps_of T none none l d.
Proof.
  induction l as [|t l IH]; intros H; [eexists; constructor|]. destruct IH as [d Hd]; [intros u I; apply H; right; exact I|].
  destruct (H t (or_introl eq_refl)) as (e & ext & U). eexists. econstructor; eauto.
Qed.

Scheme unf_min := Minimality for unfolds Sort Prop
with lunf_min := Minimality for lines_unfold Sort Prop
with iunf_min := Minimality for instrs_unfold Sort Prop
with eunf_min := Minimality for elem_unfolds Sort Prop.
Lemma unf_no_ext D s t e ext : unfolds D none none s t e ext -> ext = [].
Proof.
  intros U. apply (unf_min D none none (fun _ _ _ ext => ext = []) (fun _ _ _ _ ext => ext = []) (fun _ _ _ _ _ ext => ext = []) (fun _ _ _ _ _ ext => ext = [])) in U;
    intros; subst; try reflexivity; try assumption; discriminate.
Qed.

(* ---- the property lemmas ---- *)
Lemma path_always_answers T nf rp ts t : good_table T -> Forall (fun t => token_ok t = true) ts -> token_ok t = true ->
  let out := to_path T nf rp (after_calls T nf rp ts) t in
  (fst out = Err \/ exists p, fst out = Ok p) /\ ps_stack (snd out) = [].
Proof.
  intros G F Ht. destruct (good_find T G) as (Hf & Hn & Hok). cbv zeta.
  destruct (to_path_step T nf rp Hf Hok _ t (after_calls_ok T nf rp Hf Hok ts F) Ht) as ((H1 & _) & H2 & _). auto.
Qed.
Lemma path_history_independent T nf rp ts t : good_table T -> Forall (fun t => token_ok t = true) ts -> token_ok t = true ->
  fst (to_path T nf rp (after_calls T nf rp ts) t) = fst (to_path T nf rp pstate_init t).
Proof.
  intros G F Ht. destruct (good_find T G) as (Hf & Hn & Hok).
  destruct (to_path_step T nf rp Hf Hok _ t (after_calls_ok T nf rp Hf Hok ts F) Ht) as (_ & H1 & P1).
  destruct (to_path_step T nf rp Hf Hok _ t (state_ok_init T nf rp) Ht) as (_ & H2 & P2).
  destruct H1 as [E1|[p E1]].
  - destruct H2 as [E2|[p E2]]; [congruence|]. apply P2, P1 in E2. congruence.
  - rewrite E1. symmetry. apply P2, P1. exact E1.
Qed.
Lemma path_element_exact T nf rp ts t p : good_table T -> Forall (fun t => token_ok t = true) ts -> token_ok t = true ->
  fst (to_path T nf rp (after_calls T nf rp ts) t) = Ok p -> exists ext, unfolds (table_all T) nf rp [] t (pa_element p) ext.
Proof.
  intros G F Ht E. destruct (good_find T G) as (Hf & Hn & Hok).
  apply (to_path_step T nf rp Hf Hok _ t (after_calls_ok T nf rp Hf Hok ts F) Ht) in E.
  destruct E as (deps & e & ext & _ & U & <- & _). eauto.
Qed.
Lemma unfolding_unique T nf rp t e e' ext ext' : good_table T -> token_ok t = true ->
  unfolds (table_all T) nf rp [] t e ext -> unfolds (table_all T) nf rp [] t e' ext' -> e = e' /\ ext = ext'.
Proof. intros G Ht. destruct (good_find T G) as (Hf & Hn & Hok). apply (unf_fun T nf rp Hf Hok); [apply small_nil|exact Ht]. Qed.
Lemma path_fails_exactly T ts t : good_table T -> Forall (fun t => token_ok t = true) ts -> token_ok t = true ->
  (fst (to_path T none none (after_calls T none none ts) t) = Err <->
   (exists u n, (u = t \/ In u (table_all T)) /\ refers u n /\ ~ is_declared (table_all T) n) \/
   (exists u, In u (table_all T) /\ refers_alone u (t_name u))).
Proof.
  intros G F Ht. destruct (good_find T G) as (Hf & Hn & Hok).
  destruct (to_path_step T none none Hf Hok _ t (after_calls_ok T none none Hf Hok ts F) Ht) as (_ & H & P). rewrite Forall_forall in Hok.
  assert (Ddec : forall n, is_declared (table_all T) n \/ ~ is_declared (table_all T) n).
  { intros n. destruct (find_err T n) as [E|[u E]].
    - right. intros (u & I & N). apply (proj1 (find_none T Hf n) E u I N).
    - left. exists u. apply Hf. exact E. }
  split.
  - intros E.
    assert (Hno : ~ exists p, tp_ok T none none t p).
    { intros [p X]. apply P in X. congruence. }
    (* decide the finite condition *)
    assert (Dec : forall u, {forall n, refers u n -> is_declared (table_all T) n} + {exists n, refers u n /\ ~ is_declared (table_all T) n}).
    { intros u.
      set (fi := fun i => match i with TElem e => match te_content e with TRef r => [tr_name r] | _ => [] end | _ => [] end).
      set (fl := fun l => concat (map fi l)). set (names := concat (map fl (all_lines u))).
      assert (Rn : forall n, refers u n <-> In n names).
      { intros n. unfold names, refers. split.
        - intros (l & e & r & I1 & I2 & I3 & <-). apply in_concat. exists (fl l). split; [apply in_map; exact I1|]. apply in_concat. exists (fi (TElem e)). split; [apply in_map; exact I2|]. cbn. rewrite I3. left. reflexivity.
        - intros I. apply in_concat in I. destruct I as (x & I & J). apply in_map_iff in I. destruct I as (l & <- & I). apply in_concat in J. destruct J as (y & J & K).
          apply in_map_iff in J. destruct J as ([|e] & <- & J); [destruct K|]. cbn [fi] in K. destruct (te_content e) as [r|] eqn:Ee; [|destruct K]. destruct K as [<-|[]]. exists l, e, r. auto. }
      destruct (existsb (fun n => match table_find T n with Ok _ => false | _ => true end) names) eqn:Ex.
      - right. apply existsb_exists in Ex. destruct Ex as (n & I & Hb). exists n. split; [apply Rn; exact I|]. intros (u' & I' & N').
        rewrite (proj2 (Hf n u') (conj I' N')) in Hb. discriminate.
      - left. intros n R. apply Rn in R. destruct (table_find T n) as [u'| | |] eqn:Eu; [exists u'; apply Hf; exact Eu| | |];
          assert (X : existsb (fun n => match table_find T n with Ok _ => false | _ => true end) names = true) by (apply existsb_exists; exists n; rewrite Eu; auto); congruence. }
    assert (Dec2 : forall u, {refers_alone u (t_name u)} + {~ refers_alone u (t_name u)}).
    { intros u.
      set (b := existsb (fun l => (length (elements l) <=? 1) && existsb (fun i => match i with TElem e => match te_content e with TRef r => bytes_eqb (tr_name r) (t_name u) | _ => false end | _ => false end) l) (all_lines u)).
      assert (R : refers_alone u (t_name u) <-> b = true).
      { unfold b, refers_alone, lonely. rewrite existsb_exists. split.
        - intros (l & e & r & I1 & I2 & I3 & I4 & L). exists l. split; [exact I1|]. apply andb_true_intro. split; [apply Nat.leb_le; exact L|]. apply existsb_exists. exists (TElem e). split; [exact I2|]. rewrite I3. apply bytes_eqb_eq. exact I4.
        - intros (l & I1 & H1). apply andb_prop in H1. destruct H1 as [L H1]. apply Nat.leb_le in L. apply existsb_exists in H1. destruct H1 as ([|e] & I2 & H1); [discriminate|].
          destruct (te_content e) as [r|] eqn:Ee; [|discriminate]. apply bytes_eqb_eq in H1. exists l, e, r. auto. }
      destruct b; [left; apply R; reflexivity|right; intros X; apply R in X; discriminate]. }
    destruct (Dec t) as [Dt|[n [R1 R2]]]; [|left; exists t, n; auto].
    assert (All : forall l, incl l (table_all T) -> (exists u n, In u (table_all T) /\ refers u n /\ ~ is_declared (table_all T) n) \/ (exists u, In u (table_all T) /\ refers_alone u (t_name u)) \/
        (forall u, In u l -> (forall n, refers u n -> is_declared (table_all T) n) /\ ~ refers_alone u (t_name u))).
    { induction l as [|u l IH]; intros Hi; [right; right; intros u []|]. assert (Iu : In u (table_all T)) by (apply Hi; left; reflexivity).
      destruct (Dec u) as [Du|[n [R1 R2]]]; [|left; eauto]. destruct (Dec2 u) as [A|A]; [right; left; eauto|].
      destruct (IH ltac:(intros x I; apply Hi; right; exact I)) as [X|[X|X]]; auto. right. right. intros u' [<-|I']; auto. }
    destruct (All (table_all T) (incl_refl _)) as [(u & n & X)|[X|X]]; [left; exists u, n; tauto|right; exact X|].
    exfalso. apply Hno.
    assert (Ex : forall u, token_ok u = true -> (forall n, refers u n -> is_declared (table_all T) n) -> exists e ext, unfolds (table_all T) none none [] u e ext).
    { intros u Hu Ru. apply (unfolds_exists T G) with (k := length (table_all T)); try (intros; apply X; assumption); auto; [intros u' n I' R'; apply (X u' I'); exact R'|lia|constructor|intros x []]. }
    destruct (Ex t Ht Dt) as (e & ext & U).
    destruct (deps_of_exists T (table_all T)) as [d Hd]; [intros u Iu; apply Ex; [auto|apply X; exact Iu]|].
    eexists {| pa_element := e; pa_deps := _ |}. exists d, e, ext. repeat split; eauto.
  - intros X. destruct H as [E|[p E]]; [exact E|]. exfalso. apply P in E. destruct E as (d & e & ext & Hd & U & _).
    destruct X as [(u & n & [->|Iu] & R & ND)|(u & Iu & R)].
    + apply ND. eapply unf_refs_declared; eauto.
    + destruct (deps_of_all _ _ _ _ _ Hd u Iu) as (e' & ext' & U'). apply ND. eapply unf_refs_declared; eauto.
    + destruct (deps_of_all _ _ _ _ _ Hd u Iu) as (e' & ext' & U'). apply (unf_not_alone _ _ _ _ Hn Iu U' R).
Qed.
Lemma path_no_repeat T ts t p names c : good_table T -> Forall (fun t => token_ok t = true) ts -> token_ok t = true ->
  fst (to_path T none none (after_calls T none none ts) t) = Ok p -> below (pa_element p) names c ->
  NoDup names /\ (forall n, In n names -> is_declared (table_all T) n) /\
  match c with
  | PRec n _ _ => In n names
  | PToken e _ _ => ~ In (el_name e) names /\ is_declared (table_all T) (el_name e)
  | PRule _ _ => True
  | PLines _ => False
  end.
Proof.
  intros G F Ht E B. destruct (path_element_exact T none none ts t p G F Ht E) as [ext U].
  destruct (below_unfold _ _ _ _ _ _ _ U ltac:(constructor) B) as (H1 & H2 & H3). rewrite app_nil_r in *. split; [exact H1|]. split; [exact H2|].
  destruct c as [e' sp cd| | |]; auto. destruct H3 as (H3 & t' & ext' & I' & U'). split; [exact H3|]. exists t'. split; [exact I'|]. symmetry. eapply unf_name; eauto.
Qed.
Lemma deps_of_find T l d n : deps_of T none none l d -> NoDup (map t_name l) -> forall m,
  mlookup (fold_left (fun m x => minsert m (el_name x) x) d m) n =
  match find (fun x => bytes_eqb (el_name x) n) d with Some x => Some x | None => mlookup m n end.
Proof.
  intros H. induction H as [|t e ext ts es U H IH]; intros N m; [reflexivity|]. cbn [map] in N. inversion N as [|? ? Nt N']; subst.
  rewrite (unf_no_ext _ _ _ _ _ U). cbn [app fold_left find]. rewrite (IH N'). unfold minsert. cbn [mlookup].
  destruct (find (fun x => bytes_eqb (el_name x) n) es) as [x|] eqn:Ef; destruct (bytes_eqb (el_name e) n) eqn:B; try reflexivity.
  exfalso. apply bytes_eqb_eq in B. apply find_some in Ef. destruct Ef as [Ix Ex]. apply bytes_eqb_eq in Ex. apply Nt.
  rewrite <- (unf_name _ _ _ _ _ _ _ U), B, <- Ex. clear - H Ix. induction H as [|t' e' ext' ts es U' H IH]; [destruct Ix|].
  rewrite (unf_no_ext _ _ _ _ _ U') in Ix. cbn [app] in Ix. destruct Ix as [<-|Ix]; [left; symmetry; eapply unf_name; eauto|right; auto].
Qed.
Lemma path_fetch T ts t p n e : good_table T -> Forall (fun t => token_ok t = true) ts -> token_ok t = true ->
  fst (to_path T none none (after_calls T none none ts) t) = Ok p ->
  (dep_fetch (pa_deps p) n = Ok e <->
   (n = t_name t /\ e = pa_element p) \/
   (n <> t_name t /\ exists u, In u (table_all T) /\ t_name u = n /\ unfolds (table_all T) none none [] u e [])).
Proof.
  intros G F Ht E. destruct (good_find T G) as (Hf & Hn & Hok).
  apply (to_path_step T none none Hf Hok _ t (after_calls_ok T none none Hf Hok ts F) Ht) in E.
  destruct E as (deps & e0 & ext & Hd & U & E1 & E2). rewrite E1, E2. rewrite (unf_no_ext _ _ _ _ _ U). cbn [app].
  unfold dep_fetch. rewrite fold_left_app. cbn [fold_left]. unfold minsert at 1. cbn [mlookup]. rewrite (unf_name _ _ _ _ _ _ _ U).
  destruct (bytes_eqb (t_name t) n) eqn:B.
  - apply bytes_eqb_eq in B. subst n. split; [intros [= <-]; auto|]. intros [[_ ->]|[X _]]; [reflexivity|contradiction].
  - assert (Nn : n <> t_name t) by (intros ->; rewrite bytes_eqb_refl in B; discriminate).
    rewrite (deps_of_find T _ _ n Hd Hn). cbn [mlookup].
    assert (Q : find (fun x => bytes_eqb (el_name x) n) deps = Some e <-> exists u, In u (table_all T) /\ t_name u = n /\ unfolds (table_all T) none none [] u e []).
    { clear - Hd Hf Hn Hok. rewrite Forall_forall in Hok.
      assert (K : forall l d, deps_of T none none l d -> NoDup (map t_name l) -> incl l (table_all T) -> (find (fun x => bytes_eqb (el_name x) n) d = Some e <-> exists u, In u l /\ t_name u = n /\ unfolds (table_all T) none none [] u e [])).
      { intros l d H. induction H as [|t e1 ext ts es U H IH]; intros N Il; [cbn; split; [discriminate|intros (u & [] & _)]|].
        assert (ext = []) as -> by (eapply unf_no_ext; eauto). cbn [app find]. cbn [map] in N. inversion N as [|? ? Nt N']; subst.
        rewrite (unf_name _ _ _ _ _ _ _ U). destruct (bytes_eqb (t_name t) n) eqn:B.
        - apply bytes_eqb_eq in B. subst n. split.
          + intros [= <-]. exists t. repeat split; [left; reflexivity|exact U].
          + intros (u & [<-|Iu] & Eu & Uu).
            * f_equal. eapply (unf_fun T none none Hf); [apply Forall_forall; exact Hok|apply small_nil| |exact U|exact Uu]. apply Hok, Il. left. reflexivity.
            * exfalso. apply Nt. rewrite <- Eu. apply in_map. exact Iu.
        - rewrite (IH N' ltac:(intros x I; apply Il; right; exact I)). split; intros (u & Iu & Eu & Uu).
          + exists u. split; [right; exact Iu|auto].
          + destruct Iu as [<-|Iu]; [rewrite Eu, bytes_eqb_refl in B; discriminate|exists u; auto]. }
      apply K; [exact Hd|exact Hn|apply incl_refl]. }
    split.
    + intros X. right. split; [exact Nn|]. apply Q. destruct (find _ deps); [injection X as ->; reflexivity|discriminate].
    + intros [[X _]|[_ X]]; [contradiction|]. apply Q in X. rewrite X. reflexivity.
Qed.
(* every reference left in the tree resolves *)
Lemma path_rec_resolves T ts t p names n specs card : good_table T -> Forall (fun t => token_ok t = true) ts -> token_ok t = true ->
  fst (to_path T none none (after_calls T none none ts) t) = Ok p -> below (pa_element p) names (PRec n specs card) ->
  exists e, dep_fetch (pa_deps p) n = Ok e /\ el_name e = n.
Proof.
  intros G F Ht E B. assert (E' := E). destruct (path_no_repeat T ts t p names _ G F Ht E B) as (_ & H2 & H3). cbn in H3. specialize (H2 _ H3).
  destruct (good_find T G) as (Hf & Hn & Hok).
  destruct (list_eq_dec byte_eq_dec n (t_name t)) as [->|Ne].
  - destruct (path_element_exact T none none ts t p G F Ht E) as [ext U]. exists (pa_element p). split; [apply (path_fetch T ts t p _ _ G F Ht E); left; auto|]. eapply unf_name; eauto.
  - destruct H2 as (u & Iu & Eu). apply (to_path_step T none none Hf Hok _ t (after_calls_ok T none none Hf Hok ts F) Ht) in E.
    destruct E as (deps & e0 & ext & Hd & _). destruct (deps_of_all _ _ _ _ _ Hd u Iu) as (e & ext' & U).
    exists e. split; [|rewrite <- Eu; eapply unf_name; eauto]. apply (path_fetch T ts t p _ _ G F Ht E'). right. split; [exact Ne|]. exists u. assert (ext' = []) as -> by (eapply unf_no_ext; eauto). auto.
Qed.
