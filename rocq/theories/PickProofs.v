(* PickProofs.v - proofs for PickProps.v: the lexer reads the longest lines. *)
From Coq Require Import Strings.String Strings.Byte Lia.
From Verif Require Import Go GoLemmas DomainModel DomainSpec DomainProofs CardModel CardSpec CardProofs PatModel PatSpec PatProofs RuleModel RuleSpec RuleProofs PathModel PathSpec PathProofs LexModel LexSpec LexProofs LexProofs2 LexProofs3 AstModel AstSpec AstProofs AstProofs2 AstProofs3 OrdSpec OrdProofs PickSpec.
Open Scope list_scope.

(* ---- one rule ---- *)
Lemma takes_result r s s1 : leaf_rule r -> rule_takes r s s1 -> exists x, to_result r s = Ok x /\ rr_matches x <> None /\ first_index x = Some 0 /\ s = rr_content x ++ s1 /\ rr_content x <> [].
Proof.
  intros [G L] H. inversion H as [c rest Ec Nc E|ps k s0 ms rest Ec He Nm Ha Hs]; subst.
  - destruct (constant_rule_total r (c ++ s1) c Ec Nc) as [x E]. exists x. split; [exact E|]. destruct (proj1 (constant_rule_exact r _ c x Ec Nc) E) as (_ & [(k & Fk & Em)|(No & _)]).
    + assert (k = 0).
      { destruct k as [|k]; [reflexivity|]. destruct Fk as (_ & _ & N). exfalso. apply (N 0 ltac:(lia)). exists s1. reflexivity. }
      subst k. rewrite rr_content_taken. unfold found, first_index. rewrite Em. cbn. rewrite !app_nil_r. split; [discriminate|]. auto.
    + exfalso. apply (No 0); [rewrite app_length; destruct c; [contradiction|cbn; lia]|]. exists s1. reflexivity.
  - rewrite Ec in L. set (x := {| rr_input := r; rr_matches := Some ms |}). assert (E : to_result r s = Ok x).
    { apply (pattern_rule_exact r s ps k x (proj1 G) Ec L). split; [reflexivity|]. split; [cbn; congruence|]. exists s1. auto. }
    exists x. split; [exact E|]. split; [discriminate|]. destruct (to_result_cases r s x G E) as [N|[(c & k0 & Ec' & _)|(ps' & kd & ms' & rest & Ec' & He' & Nm' & _ & _ & Hf & Ht & Nt & Fi)]]; [discriminate|congruence|].
    split; [exact Fi|]. split; [|exact Nt]. rewrite rr_content_taken. exact (eats_text _ _ _ _ He).
Qed.
Lemma missing_result r s x : leaf_rule r -> ~ begins r s -> to_result r s = Ok x -> rr_matches x = None \/ exists i, first_index x = Some (S i).
Proof.
  intros [G L] N E. destruct (rr_matches x) as [ms|] eqn:Em; [right|left; reflexivity]. destruct (to_result_index r s x G E ltac:(congruence)) as (i & Fi & _). destruct i as [|i]; [|exists i; exact Fi].
  exfalso. apply N. destruct (to_result_takes r s x G E Fi) as (_ & _ & T). exact (takes_begins _ _ _ T).
Qed.
Lemma takes_loop r n : leaf_rule r -> forall m s s1 fuel sl acc st, rule_times r (S m) s s1 -> length acc + S m = n -> length s < fuel -> length s <= sl -> (acc <> [] -> length s < sl) -> ls_pre st = false ->
  exists xs, rule_loop fuel r (Some (N.of_nat n)) false sl acc s st = (Ok (acc ++ xs), st) /\ length xs = S m /\ s = concat (map rr_content xs) ++ s1 /\ (exists x0 xs0, xs = x0 :: xs0 /\ first_index x0 = Some 0) /\ concat (map rr_content xs) <> [].
Proof.
  intros L. induction m as [|m IH]; intros s s1 fuel sl acc st T En Lf Ls La P; inversion T as [|n0 sa s2 sb T1 T2]; clear T; try subst n0; try subst sa; try subst sb; subst n.
  - destruct (takes_result r s s2 L T1) as (x & E & Nm & Fi & Es & Nc). destruct fuel as [|fuel]; [lia|]. exists [x]. cbn [rule_loop]. rewrite E. destruct (rr_matches x) as [ms|] eqn:Em; [|contradiction]. rewrite Fi. cbv zeta. change (0 <? 0) with false. cbn [andb].
    assert (X : s2 = s1) by (inversion T2; congruence). subst s2. split.
    + destruct (sl <=? length (rr_content x)); [reflexivity|]. assert (Lx : length s = length (rr_content x) + length s1) by (rewrite Es at 1; apply app_length). replace (length s <? length (rr_content x)) with false by (symmetry; apply Nat.ltb_ge; lia).
      rewrite app_length. cbn [length]. rewrite N.leb_refl. reflexivity.
    + split; [reflexivity|]. cbn [map concat]. rewrite app_nil_r. split; [exact Es|]. split; [exists x, []; auto|exact Nc].
  - destruct (takes_result r s s2 L T1) as (x & E & Nm & Fi & Es & Nc). destruct fuel as [|fuel]; [lia|]. assert (Lx : length s = length (rr_content x) + length s2) by (rewrite Es at 1; apply app_length).
    assert (L2 : 0 < length s2). { inversion T2 as [|n1 s4 s5 s6 U1 U2]. destruct (takes_result r s2 s5 L U1) as (y & _ & _ & _ & Ey & Ny). rewrite Ey, app_length. destruct (rr_content y); [contradiction|cbn; lia]. }
    assert (Lc : 0 < length (rr_content x)) by (destruct (rr_content x); [contradiction|cbn; lia]).
    destruct (IH s2 s1 fuel sl (acc ++ [x]) st T2) as (xs & R & Lxs & Ex & _); [rewrite app_length; cbn; lia|lia|lia|intros _; lia|exact P|].
    exists (x :: xs). cbn [rule_loop]. rewrite E. destruct (rr_matches x) as [ms|] eqn:Em; [|contradiction]. rewrite Fi. cbv zeta. change (0 <? 0) with false. cbn [andb].
    replace (sl <=? length (rr_content x)) with false by (symmetry; apply Nat.leb_gt; destruct acc; [|specialize (La ltac:(discriminate))]; lia).
    replace (length s <? length (rr_content x)) with false by (symmetry; apply Nat.ltb_ge; lia).
    replace (N.of_nat (length acc + S (S m)) <=? N.of_nat (length (acc ++ [x])))%N with false by (symmetry; apply N.leb_gt; rewrite app_length; cbn; lia).
    assert (Sk : skipn (length (rr_content x)) s = s2) by (rewrite Es at 1; rewrite skipn_app, skipn_all, Nat.sub_diag; reflexivity). rewrite Sk, R. rewrite <- app_assoc. split; [reflexivity|]. split; [cbn; lia|]. cbn [map concat]. rewrite <- app_assoc, <- Ex. split; [exact Es|]. split; [exists x, xs; auto|]. intros X. apply app_eq_nil in X. tauto.
Qed.
Lemma takes_match r k s w s1 : leaf_rule r -> takes r k s w s1 -> forall st ch, ls_pre st = false ->
  exists x, rule_to_match r k s ch st = (Ok x, st) /\ rm_card x = k /\ rm_rule x = r /\ rm_valid x = true /\ rm_disc x = w /\ rm_results x <> [] /\ w <> [].
Proof.
  intros L (Es & n & T & Em & V) st ch P. unfold rule_to_match. destruct (delimiter k) as [mn mx] eqn:Ed. cbn [snd] in Em. subst mx. rewrite P. cbn [andb].
  destruct (takes_loop r (S n) L n s s1 (S (length s)) (length s) [] st T eq_refl ltac:(lia) ltac:(lia) ltac:(intros X; contradiction) P) as (xs & R & Lx & Ex & (x0 & xs0 & E0 & F0) & Ne). unfold mbind. rewrite R. cbn [app]. rewrite P. cbn [andb].
  eexists. split; [reflexivity|]. cbn [rm_card rm_rule]. split; [reflexivity|]. split; [reflexivity|].
  assert (W : concat (map rr_content xs) = w) by (rewrite Es in Ex; apply app_inv_tail in Ex; symmetry; exact Ex). split; [|split; [unfold rm_disc; cbn [rm_results]; rewrite join_concat; exact W|split; [cbn [rm_results]; rewrite E0; discriminate|rewrite <- W; exact Ne]]].
  unfold rm_valid, rm_card_valid, rm_exact, rm_amount. cbn [rm_results rm_card rm_prefix]. rewrite Lx, V, E0, F0. reflexivity.
Qed.
Lemma missing_match r k s : leaf_rule r -> ~ begins r s -> forall st ch, ls_pre st = false ->
  exists x, rule_to_match r k s ch st = (Ok x, st) /\ rm_card x = k /\ (rm_valid x = true -> rm_results x = [] /\ is_valid k 0 = true) /\ (is_valid k 0 = false -> rm_valid x = false).
Proof.
  intros L N st ch P. destruct (to_result_answers r s (proj1 L)) as [y E]. unfold rule_to_match. destruct (delimiter k) as [mn mx] eqn:Ed. rewrite P. cbn [andb]. unfold mbind. cbn [rule_loop]. rewrite E.
  destruct (missing_result r s y L N E) as [Em|(i & Fi)].
  - rewrite Em. cbn [ret]. rewrite P. cbn [andb]. eexists. split; [reflexivity|]. split; [reflexivity|]. unfold rm_valid, rm_card_valid, rm_exact, rm_amount. cbn [rm_results rm_card length N.of_nat]. split; [intros V; apply andb_prop in V; tauto|intros ->; reflexivity].
  - destruct (rr_matches y) as [ms|] eqn:Em; [|unfold first_index in Fi; rewrite Em in Fi; discriminate]. rewrite Fi. cbv zeta. change (0 <? S i) with true. cbn [andb negb app ls_pre]. eexists. split; [rewrite (state_pre st P); reflexivity|]. split; [reflexivity|].
    assert (V : rm_valid {| rm_rule := r; rm_card := k; rm_results := [y]; rm_prefix := false |} = false).
    { unfold rm_valid, rm_exact. cbn [rm_results rm_prefix]. rewrite Fi. cbn. apply andb_false_r. }
    split; [rewrite V; discriminate|intros _; exact V].
Qed.
