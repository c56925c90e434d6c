From Coq Require Import Strings.String Strings.Byte Lia.
From Verif Require Import Go GoLemmas DomainModel DomainSpec DomainProofs CardModel CardSpec CardProofs PatModel PatSpec PatProofs RuleModel RuleSpec.

(* ---- evaluation of pattern rules ---- *)
Lemma matches_as_here p t r : pattern_ok p = true -> t <> [] -> (matches_as p t r <-> match_pattern p t 0 = Ok (Some r)).
Proof. intros Hok Ht. unfold matches_as. rewrite (match_pattern_exact p t 0 r Hok Ht). reflexivity. Qed.
Lemma matches_here_nonnil p t : pattern_ok p = true -> matches_here p t -> t <> [].
Proof.
  intros Hok (c & cs & x & rest & E & H) ->. destruct (pattern_ok_series p Hok) as [F _]. rewrite E in F. inversion F as [|? ? Hs _]; subst.
  pose proof (choice_reads_nonempty _ _ _ _ Hs H) as N. apply choice_reads_text in H. destruct H as [T Fx].
  destruct x as [|[w k] x]; [contradiction|]. inversion Fx as [|? ? Hw _]; subst. cbn in *. destruct w; [contradiction|discriminate].
Qed.
Lemma matches_as_matches p t r : pattern_ok p = true -> matches_as p t r -> matches_here p t.
Proof.
  intros Hok (xs & rest & left & H & N & _). destruct (p_list p) as [|c cs] eqn:E; [inversion H; subst; contradiction|].
  apply (choices_read_head _ _ _ _ _ _ H) in N. destruct N as (x & r' & N). exists c, cs, x, r'. auto.
Qed.
Lemma taken_amount r : disc_amount (r_disc r) = length (taken r).
Proof. unfold disc_amount, taken. rewrite disc_content_concat. reflexivity. Qed.
Lemma matches_as_taken p t r : pattern_ok p = true -> matches_as p t r -> taken r <> [] /\ exists t', t = taken r ++ t'.
Proof.
  intros Hok H. pose proof (matches_here_nonnil _ _ Hok (matches_as_matches _ _ _ Hok H)) as Ht.
  apply matches_as_here in H; auto.
  assert (F : first_offset (matches_here p) t 0).
  { split; [destruct t; [contradiction|cbn; lia]|]. split; [|intros j L; lia]. cbn [skipn]. apply (match_pattern_here p t 0 Hok Ht). eauto. }
  assert (E : from_pattern_to_result p t = Ok r) by (apply from_pattern_exact; [exact Hok|]; exists 0; auto).
  pose proof (pattern_result_prefix _ _ _ Hok E) as [[t' P] N]. unfold taken. rewrite <- disc_content_concat. split; [exact N|]. exists t'.
  rewrite <- P. apply match_pattern_exact in H; auto. destruct H as (? & ? & ? & _ & _ & <- & _). reflexivity.
Qed.
Lemma first_here_result ps t r : forallb pattern_ok ps = true -> (t <> [] -> first_here ps t r -> from_patterns_to_result ps t = Ok r /\ disc_index (r_disc r) = Ok 0).
Proof.
  intros Hok Ht (before & p & after & -> & H & NB).
  assert (Hp : pattern_ok p = true) by (rewrite forallb_forall in Hok; apply Hok, in_elt).
  pose proof (matches_as_matches _ _ _ Hp H) as Hh. apply matches_as_here in H; auto.
  pose proof (match_pattern_index _ _ _ _ Hp Ht H) as Hi. split; [|exact Hi].
  destruct (from_patterns_total _ t Hok) as [E|[r' E]].
  - exfalso. rewrite from_patterns_err in E by exact Hok. apply (E p 0); [apply in_elt|destruct t; [contradiction|cbn; lia]|exact Hh].
  - rewrite E. f_equal. destruct (from_patterns_ok _ _ _ Hok E) as (b2 & q & a2 & k & Es & Eq & Ek & Fk & B2 & A2).
    assert (F0 : first_offset (matches_here p) t 0) by (split; [destruct t; [contradiction|cbn; lia]|split; [exact Hh|intros j L; lia]]).
    assert (Kz : k = 0).
    { assert (I : In p (b2 ++ q :: a2)) by (rewrite <- Es; apply in_elt). apply in_app_or in I. destruct I as [I|[->|I]].
      - specialize (B2 _ _ I F0). lia.
      - destruct Fk as (_ & _ & J). destruct k; [reflexivity|]. exfalso. apply (J 0); [lia|]. apply Hh.
      - specialize (A2 _ _ I F0). lia. }
    subst k. destruct Fk as (_ & Mq & _). cbn [skipn] in Mq.
    assert (before = b2 /\ p = q) as [-> ->].
    { clear - Es NB Mq B2 F0. revert b2 Es B2. induction before as [|x before IH]; intros [|y b2] Es B2; cbn in Es.
      - injection Es as -> _. auto.
      - injection Es as -> Es. specialize (B2 y 0 (or_introl eq_refl) F0). lia.
      - injection Es as -> Es. exfalso. apply (NB q); [left; reflexivity|exact Mq].
      - injection Es as -> Es. destruct (IH (fun q' I => NB q' (or_intror I)) b2 Es) as [-> ->]; auto.
        intros q' j I. apply B2. right. exact I. }
    assert (Hok' : pattern_ok q = true) by exact Hp. apply from_pattern_exact in Eq; [|exact Hok'].
    destruct Eq as (k & (L & Mk & J) & Eq). destruct k; [cbn [skipn] in Eq; congruence|]. exfalso. apply (J 0); [lia|exact Mq].
Qed.
Lemma stuck_result ps t : forallb pattern_ok ps = true -> t <> [] -> stuck ps t ->
  from_patterns_to_result ps t = Err \/ exists r k, from_patterns_to_result ps t = Ok r /\ disc_index (r_disc r) = Ok (S k).
Proof.
  intros Hok Ht [->|St]; [contradiction|]. destruct (from_patterns_total _ t Hok) as [E|[r E]]; [auto|]. right.
  destruct (from_patterns_ok _ _ _ Hok E) as (b2 & q & a2 & k & -> & Eq & Ek & Fk & _). destruct k; [|eauto].
  exfalso. apply (St q); [apply in_elt|]. apply Fk.
Qed.
Lemma first_here_dec ps t : forallb pattern_ok ps = true -> t <> [] -> stuck ps t \/ exists r, first_here ps t r.
Proof.
  intros Hok Ht. unfold stuck, first_here. induction ps as [|p ps IH]; [left; right; intros p []|].
  cbn in Hok. apply andb_prop in Hok. destruct Hok as [Hp Hok]. destruct (matches_here_dec p t Hp Ht) as [M|M].
  - right. apply (match_pattern_here p t 0 Hp Ht) in M. destruct M as [r M]. exists r, [], p, ps. split; [reflexivity|].
    split; [apply matches_as_here; auto|intros q []].
  - destruct (IH Hok) as [[->|St]|(r & b & q & a & -> & H & NB)]; [contradiction| |].
    + left. right. intros q [->|I]; [exact M|apply St; exact I].
    + right. exists r, (p :: b), q, a. split; [reflexivity|]. split; [exact H|]. intros q' [->|I]; [exact M|apply NB; exact I].
Qed.
Lemma first_here_taken ps t r : forallb pattern_ok ps = true -> first_here ps t r -> t <> [] /\ taken r <> [] /\ exists t', t = taken r ++ t'.
Proof.
  intros Hok (b & p & a & -> & H & _). assert (Hp : pattern_ok p = true) by (rewrite forallb_forall in Hok; apply Hok, in_elt).
  split; [|eapply matches_as_taken; eauto]. eapply matches_here_nonnil; eauto using matches_as_matches.
Qed.

Lemma full_dec c k : full c k \/ ~ full c k.
Proof.
  unfold full. destruct (snd (delimiter c)) as [m|]; [|right; intros (m & E & _); discriminate].
  destruct (N.eq_dec (N.of_nat k) m) as [->|Ne]; [left; eauto|right; intros (m' & [= <-] & E); contradiction].
Qed.
Lemma to_int64_small m : (m < 2 ^ 63)%N -> to_int64 m = Z.of_N m.
Proof.
  intros L. unfold to_int64. cbv zeta. rewrite N.mod_small by (change (2 ^ 64)%N with 18446744073709551616%N; change (2 ^ 63)%N with 9223372036854775808%N in L; lia).
  destruct (N.ltb_spec m (2 ^ 63)) as [H|H]; [reflexivity|lia].
Qed.

Lemma loop_eats ps c l t rest fuel acc : forallb pattern_ok ps = true -> fits c ->
  eats ps t l rest -> at_most c (length acc + length l) ->
  (full c (length acc + length l) \/ stuck ps rest) -> length t < fuel ->
  pattern_rule_loop fuel ps (snd (delimiter c)) acc t = Ok (acc ++ l).
Proof.
  intros Hok Hf H. revert fuel acc. induction H as [t|t t' r rs rest Hr Et H IH]; intros fuel acc Hm Hs Hl.
  - rewrite app_nil_r in *. cbn [length] in *. rewrite Nat.add_0_r in *. destruct fuel as [|fuel]; [lia|]. cbn [pattern_rule_loop].
    destruct t as [|b t]; [reflexivity|]. set (t0 := b :: t) in *.
    destruct (snd (delimiter c)) as [m|] eqn:Em.
    + specialize (Hm _ Em). specialize (Hf _ Em). rewrite to_int64_small by exact Hf.
      destruct (Z.leb_spec (Z.of_N m) (Z.of_nat (length acc))) as [L|L]; [reflexivity|].
      destruct Hs as [(m' & Em' & E)|Hs]; [rewrite Em in Em'; injection Em' as <-; lia|].
      destruct (stuck_result ps t0 Hok ltac:(discriminate) Hs) as [->|(r & k & -> & Ek)]; [reflexivity|]. rewrite Ek. reflexivity.
    + destruct Hs as [(m' & Em' & E)|Hs]; [congruence|].
      destruct (stuck_result ps t0 Hok ltac:(discriminate) Hs) as [->|(r & k & -> & Ek)]; [reflexivity|]. rewrite Ek. reflexivity.
  - destruct fuel as [|fuel]; [lia|]. cbn [pattern_rule_loop]. destruct (first_here_taken _ _ _ Hok Hr) as (Ht & Nt & _).
    destruct (first_here_result _ _ _ Hok Ht Hr) as [Er Ei]. destruct t as [|b t]; [contradiction|]. set (t0 := b :: t) in *.
    assert (Emax : match snd (delimiter c) with Some m => (to_int64 m <=? Z.of_nat (length acc))%Z | None => false end = false).
    { destruct (snd (delimiter c)) as [m|] eqn:Em; [|reflexivity]. specialize (Hm _ Em). specialize (Hf _ Em). rewrite to_int64_small by exact Hf.
      cbn [length] in Hm. apply Z.leb_gt. lia. }
    rewrite Emax, Er, Ei. cbn [bind]. change (0 <? 0) with false. cbv iota. cbv zeta. rewrite taken_amount.
    assert (L : length t0 <? length (taken r) = false) by (apply Nat.ltb_ge; rewrite Et, app_length; lia).
    rewrite L. rewrite Et. rewrite skipn_app, skipn_all, Nat.sub_diag. cbn [skipn app].
    replace (acc ++ r :: rs) with ((acc ++ [r]) ++ rs) by (rewrite <- app_assoc; reflexivity).
    apply IH.
    + rewrite app_length. cbn [length] in *. replace (length acc + 1 + length rs) with (length acc + S (length rs)) by lia. exact Hm.
    + rewrite app_length. cbn [length] in *. replace (length acc + 1 + length rs) with (length acc + S (length rs)) by lia. exact Hs.
    + apply (f_equal (@length _)) in Et. rewrite app_length in Et. destruct (taken r); [contradiction|]. cbn [length] in Et. lia.
Qed.
Lemma eats_exists ps c t k : forallb pattern_ok ps = true -> at_most c k ->
  exists l rest, eats ps t l rest /\ at_most c (k + length l) /\ (full c (k + length l) \/ stuck ps rest).
Proof.
  intros Hok. remember (length t) as n eqn:En. revert t k En. induction n as [n IH] using lt_wf_ind. intros t k -> Hm.
  destruct (full_dec c k) as [F|NF].
  - exists [], t. cbn. rewrite Nat.add_0_r. repeat split; [constructor|exact Hm|left; exact F].
  - destruct t as [|b t]; [exists [], []; cbn; rewrite Nat.add_0_r; repeat split; [constructor|exact Hm|right; left; reflexivity]|].
    destruct (first_here_dec ps (b :: t) Hok ltac:(discriminate)) as [S|[r Hr]].
    + exists [], (b :: t). cbn. rewrite Nat.add_0_r. repeat split; [constructor|exact Hm|right; exact S].
    + destruct (first_here_taken _ _ _ Hok Hr) as (_ & Nt & t' & Et).
      destruct (IH (length t') ltac:(rewrite Et, app_length; destruct (taken r); [contradiction|cbn; lia]) t' (S k) eq_refl) as (l & rest & H1 & H2 & H3).
      { intros m Em. specialize (Hm m Em). destruct (N.eq_dec (N.of_nat k) m) as [E|E]; [exfalso; apply NF; exists m; auto|]. lia. }
      exists (r :: l), rest. cbn [length]. rewrite <- plus_n_Sm. cbn [plus] in *. repeat split; [econstructor; eauto|exact H2|exact H3].
Qed.

Lemma pattern_rule_exact r script ps c o : rule_ok r = true -> rl_content r = RPattern ps c -> fits c ->
  (to_result r script = Ok o <->
   rr_input o = r /\ rr_matches o <> Some [] /\
   exists rest, eats ps script (found o) rest /\ at_most c (length (found o)) /\ (full c (length (found o)) \/ stuck ps rest)).
Proof.
  intros Hok Ec Hf. unfold rule_ok in Hok. rewrite Ec in Hok. apply andb_prop in Hok. destruct Hok as [_ Hok].
  cbn [rule_content_ok] in Hok. apply andb_prop in Hok. destruct Hok as [_ Hok].
  assert (Run : forall l rest, eats ps script l rest -> at_most c (length l) -> full c (length l) \/ stuck ps rest ->
     to_result r script = Ok {| rr_input := r; rr_matches := match l with [] => None | _ => Some l end |}).
  { intros l rest H1 H2 H3. unfold to_result. rewrite Ec. destruct (delimiter c) as [mn mx] eqn:Ed.
    assert (L := loop_eats ps c l script rest (S (length script)) [] Hok Hf H1 H2 H3 ltac:(lia)). rewrite Ed in L. cbn [snd app] in L. rewrite L. reflexivity. }
  split.
  - intros E. destruct (eats_exists ps c script 0 Hok ltac:(intros m Em; lia)) as (l & rest & H1 & H2 & H3). cbn [plus] in *.
    rewrite (Run l rest H1 H2 H3) in E. injection E as <-. unfold found. cbn [rr_input rr_matches].
    destruct l as [|x l]; (split; [reflexivity|]; split; [discriminate|]; exists rest; auto).
  - intros (Ei & En & rest & H1 & H2 & H3). rewrite (Run _ _ H1 H2 H3). f_equal. destruct o as [i m]. cbn in *. subst i.
    unfold found. cbn. destruct m as [[|x m]|]; [contradiction| |]; reflexivity.
Qed.
Lemma pattern_rule_total r script ps c : rule_ok r = true -> rl_content r = RPattern ps c -> fits c -> exists o, to_result r script = Ok o.
Proof.
  intros Hok Ec Hf. assert (Hok' := Hok). unfold rule_ok in Hok'. rewrite Ec in Hok'. apply andb_prop in Hok'. destruct Hok' as [_ Hok'].
  cbn [rule_content_ok] in Hok'. apply andb_prop in Hok'. destruct Hok' as [_ Hps].
  destruct (eats_exists ps c script 0 Hps ltac:(intros m Em; lia)) as (l & rest & H1 & H2 & H3).
  exists {| rr_input := r; rr_matches := match l with [] => None | _ => Some l end |}. apply (pattern_rule_exact r script ps c _ Hok Ec Hf). cbn [rr_input rr_matches].
  split; [reflexivity|]. split; [destruct l; discriminate|]. exists rest. unfold found. cbn [rr_matches]. destruct l; auto.
Qed.
Lemma eats_text ps t l rest : eats ps t l rest -> t = concat (map taken l) ++ rest.
Proof. intros H. induction H as [t|t t' r rs rest Hr Et H IH]; [reflexivity|]. cbn. rewrite Et, IH at 1. apply app_assoc. Qed.
Lemma rr_content_taken o : rr_content o = concat (map taken (found o)).
Proof.
  unfold rr_content, found. destruct (rr_matches o) as [l|]; [|reflexivity].
  assert (J : forall l, join [] l = concat l).
  { induction l0 as [|a [|b l0] IH]; [reflexivity|cbn; rewrite app_nil_r; reflexivity|]. change (join [] (a :: b :: l0)) with (a ++ [] ++ join [] (b :: l0)). rewrite IH. reflexivity. }
  rewrite J. f_equal. apply map_ext. intros p. unfold taken. apply disc_content_concat.
Qed.
Lemma pattern_rule_prefix r script ps c o : rule_ok r = true -> rl_content r = RPattern ps c -> fits c ->
  to_result r script = Ok o -> is_prefix (rr_content o) script /\ at_most c (rr_amount o).
Proof.
  intros Hok Ec Hf E. apply (pattern_rule_exact r script ps c o Hok Ec Hf) in E. destruct E as (_ & _ & rest & H1 & H2 & _).
  split; [|replace (rr_amount o) with (length (found o)) by (unfold rr_amount, found; destruct (rr_matches o); reflexivity); exact H2]. exists rest. rewrite rr_content_taken. apply (eats_text _ _ _ _ H1).
Qed.
(* the wrap of int(max): a maximum of 2^63 or more means no match at all *)
Lemma huge_maximum r script ps c m : rl_content r = RPattern ps c -> snd (delimiter c) = Some m -> (2 ^ 63 <= m < 2 ^ 64)%N ->
  to_result r script = Ok {| rr_input := r; rr_matches := None |}.
Proof.
  intros Ec Em B. unfold to_result. rewrite Ec. destruct (delimiter c) as [mn mx]. cbn [snd] in Em. subst mx. cbn [pattern_rule_loop].
  destruct script as [|b s]; [reflexivity|]. cbn [length].
  assert (L : (to_int64 m <=? Z.of_nat 0)%Z = true).
  { apply Z.leb_le. unfold to_int64. cbv zeta. rewrite N.mod_small by apply B. destruct (N.ltb_spec m (2 ^ 63)) as [L|L]; [lia|]. change (2 ^ 64)%Z with (Z.of_N (2 ^ 64)). lia. }
  rewrite L. reflexivity.
Qed.

(* ---- constant rules ---- *)
Lemma const_word c t : c <> [] -> (~ no_word {| g_name := c; g_list := [c] |} t <-> is_prefix c t).
Proof.
  intros Nc. unfold no_word. cbn [g_list]. split.
  - intros H. destruct (has_prefix c t) eqn:E; [apply has_prefix_is_prefix; exact E|]. exfalso. apply H.
    intros v [<-|[]] P. apply has_prefix_is_prefix in P. congruence.
  - intros P H. apply Nc, H; [left; reflexivity|exact P].
Qed.
Lemma const_longest c t w : c <> [] -> (longest_word {| g_name := c; g_list := [c] |} t w <-> w = c /\ is_prefix c t).
Proof.
  intros Nc. unfold longest_word. cbn [g_list]. split.
  - intros (_ & [<-|[]] & P & _). auto.
  - intros [-> P]. repeat split; auto; [left; reflexivity|]. intros v [<-|[]] _. lia.
Qed.
Lemma first_offset_ext P Q t k : (forall s, P s <-> Q s) -> (first_offset P t k <-> first_offset Q t k).
Proof.
  intros H. unfold first_offset. rewrite H. split; intros (A & B & C); repeat split; auto; intros j L; specialize (C j L); rewrite H in *; auto; rewrite <- H; auto.
Qed.
Lemma first_offset_dec (P : bytes -> Prop) t : (forall s, P s \/ ~ P s) -> (exists k, first_offset P t k) \/ (forall k, k < length t -> ~ P (skipn k t)).
Proof.
  intros D. assert (A : forall n, n <= length t -> (exists k, first_offset P t k) \/ forall k, k < n -> ~ P (skipn k t)).
  { induction n as [|n IH]; intros L; [right; intros k Lk; lia|]. destruct (IH ltac:(lia)) as [E|N]; [auto|].
    destruct (D (skipn n t)) as [Y|Y]; [left; exists n; split; [lia|split; [exact Y|exact N]]|].
    right. intros k Lk. destruct (Nat.eq_dec k n) as [->|]; [exact Y|apply N; lia]. }
  apply A. lia.
Qed.
Lemma constant_rule_exact r script c o : rl_content r = RConstant c -> c <> [] ->
  (to_result r script = Ok o <->
   rr_input o = r /\
   ((exists k, first_occurrence c script k /\
       rr_matches o = Some [{| r_input := script; r_disc := [stamp k (c, CGroup {| g_name := c; g_list := [c] |})];
                               r_rem := skipn (length c) script; r_next := None |}]) \/
    ((forall k, k < length script -> ~ is_prefix c (skipn k script)) /\ rr_matches o = None))).
Proof.
  intros Ec Nc. unfold to_result. rewrite Ec. destruct c as [|b c]; [contradiction|]. cbv iota beta. remember (b :: c) as cc eqn:Ecc in *. set (g := {| g_name := cc; g_list := [cc] |}).
  assert (W : forall t x, from_group_to_result g t = Ok x <-> exists k, first_occurrence cc t k /\ x = {| r_input := t; r_disc := [stamp k (cc, CGroup g)]; r_rem := skipn (length cc) t; r_next := None |}).
  { intros t x. rewrite from_group_exact. split.
    - intros (k & w & Fk & Lw & E1 & E2 & E3 & E4). exists k. apply (const_longest cc) in Lw; [|exact Nc]. destruct Lw as [-> P].
      split; [apply (first_offset_ext _ _ _ _ (fun s => const_word cc s Nc)); exact Fk|]. destruct x; cbn in *; subst; reflexivity.
    - intros (k & Fk & ->). exists k, cc. split; [apply (first_offset_ext _ _ _ _ (fun s => const_word cc s Nc)); exact Fk|].
      split; [apply const_longest; [exact Nc|]; split; [reflexivity|apply Fk]|]. cbn. repeat split. }
  assert (D : forall s, is_prefix cc s \/ ~ is_prefix cc s).
  { intros s. destruct (has_prefix cc s) eqn:E; [left; apply has_prefix_is_prefix; exact E|right; intros P; apply has_prefix_is_prefix in P; congruence]. }
  destruct (first_offset_dec _ script D) as [[k Fk]|No].
  - assert (E := proj2 (W script _) (ex_intro _ k (conj Fk eq_refl))). match goal with |- context[from_group_to_result ?x ?y] => change (from_group_to_result x y) with (from_group_to_result g script) end; rewrite E. split.
    + intros [= <-]. cbn. split; [reflexivity|]. left. exists k. auto.
    + intros [<- [(k' & Fk' & Em)|[No _]]]; [|exfalso; apply (No k); apply Fk].
      assert (k = k') as <-.
      { destruct Fk as (L & P & M), Fk' as (L' & P' & M'). destruct (lt_eq_lt_dec k k') as [[X|X]|X]; [exfalso; eapply M'; eauto|exact X|exfalso; eapply M; eauto]. }
      destruct o; cbn in *; subst; reflexivity.
  - assert (E : from_group_to_result g script = Err).
    { apply from_group_err. intros k L v [<-|[]] P. exfalso. apply (No k L P). }
    match goal with |- context[from_group_to_result ?x ?y] => change (from_group_to_result x y) with (from_group_to_result g script) end; rewrite E. split.
    + intros [= <-]. cbn. auto.
    + intros [<- [(k' & Fk' & _)|[_ Em]]]; [exfalso; apply (No k'); apply Fk'|]. destruct o; cbn in *; subst; reflexivity.
Qed.
Lemma constant_rule_total r script c : rl_content r = RConstant c -> c <> [] -> exists o, to_result r script = Ok o.
Proof.
  intros Ec Nc. assert (D : forall s, is_prefix c s \/ ~ is_prefix c s).
  { intros s. destruct (has_prefix c s) eqn:E; [left; apply has_prefix_is_prefix; exact E|right; intros P; apply has_prefix_is_prefix in P; congruence]. }
  destruct (first_offset_dec _ script D) as [[k Fk]|No].
  - eexists {| rr_input := r; rr_matches := _ |}. apply (constant_rule_exact r script c _ Ec Nc). cbn. split; [reflexivity|]. left. exists k. split; [exact Fk|reflexivity].
  - eexists {| rr_input := r; rr_matches := _ |}. apply (constant_rule_exact r script c _ Ec Nc). cbn. split; [reflexivity|]. right. split; [exact No|reflexivity].
Qed.

(* ---- tables ---- *)
Section Tables.
Context {A : Type} (name : A -> bytes).
Lemma fill_unique_spec l m :
  (exists m', fill_unique name l m = Ok m') <-> (NoDup (map name l) /\ forall x, In x l -> mlookup m (name x) = None).
Proof.
  revert m. induction l as [|x l IH]; intros m; cbn [fill_unique map].
  - split; [intros _; split; [constructor|intros x []]|eauto].
  - destruct (mlookup m (name x)) as [y|] eqn:E.
    + split; [intros [m' F]; discriminate|]. intros [_ H]. rewrite (H x (or_introl eq_refl)) in E. discriminate.
    + rewrite IH. unfold minsert. cbn [mlookup]. split.
      * intros [N H]. split.
        -- constructor; [|exact N]. intros I. apply in_map_iff in I. destruct I as (y & Ey & Iy). specialize (H y Iy). rewrite Ey, bytes_eqb_refl in H. discriminate.
        -- intros y [<-|Iy]; [exact E|]. specialize (H y Iy). destruct (bytes_eqb (name x) (name y)); [discriminate|exact H].
      * intros [N H]. inversion N as [|? ? Nx Nl]; subst. split; [exact Nl|]. intros y Iy. destruct (bytes_eqb (name x) (name y)) eqn:B.
        -- apply bytes_eqb_eq in B. exfalso. apply Nx. rewrite B. apply in_map. exact Iy.
        -- apply H. right. exact Iy.
Qed.
Lemma fill_unique_lookup l m m' : fill_unique name l m = Ok m' -> forall k y,
  mlookup m' k = Some y <-> (In y l /\ name y = k) \/ mlookup m k = Some y.
Proof.
  revert m. induction l as [|x l IH]; intros m; cbn [fill_unique].
  - intros [= <-] k y. split; [auto|intros [[[] _]|E]; exact E].
  - destruct (mlookup m (name x)) as [z|] eqn:E; [discriminate|]. intros F k y. rewrite (IH _ F). unfold minsert. cbn [mlookup].
    destruct (bytes_eqb (name x) k) eqn:B.
    + apply bytes_eqb_eq in B. subst k. split.
      * intros [[I N]|[= <-]]; left; split; auto; [right; exact I|left; reflexivity].
      * intros [[[->|I] N]|G]; [right; reflexivity|left; auto|congruence].
    + split; [intros [[I N]|G]; [left; split; [right; exact I|exact N]|right; exact G]|].
      intros [[[->|I] N]|G]; [subst k; rewrite bytes_eqb_refl in B; discriminate|left; auto|right; exact G].
Qed.
Lemma unique_now_err_or_ok s : (exists t, unique_table_now name s = Ok t) \/ unique_table_now name s = Err.
Proof.
  unfold unique_table_now. destruct (norm_list s) as [l|]; [|auto]. assert (X : forall m, (exists m', fill_unique name l m = Ok m') \/ fill_unique name l m = Err).
  { induction l as [|x l IH]; intros m; cbn [fill_unique]; [eauto|]. destruct (mlookup m (name x)); auto. }
  destruct (X []) as [[m E]|E]; rewrite E; cbn; eauto.
Qed.
Lemma unique_table_exact ops t : unique_table_now name (run list_step None ops) = Ok t ->
  last_list ops = Some (table_all t) /\ table_all t <> [] /\ NoDup (map name (table_all t)) /\
  forall k y, table_find t k = Ok y <-> (In y (table_all t) /\ name y = k).
Proof.
  unfold unique_table_now. rewrite list_run. destruct (norm_list (last_list ops)) as [l|] eqn:E; [|discriminate].
  destruct (fill_unique name l []) as [m| | |] eqn:F; try discriminate. cbn. intros [= <-]. unfold table_all, table_find. cbn [fst snd].
  unfold norm_list in E. destruct (last_list ops) as [[|x l']|]; try discriminate. injection E as <-.
  split; [reflexivity|]. split; [discriminate|]. split; [apply (proj1 (fill_unique_spec _ [])); eauto|].
  intros k y. pose proof (fill_unique_lookup _ _ _ F k y) as L. cbn [mlookup] in L. destruct (mlookup m k) as [z|].
  - split; [intros [= <-]|intros H]; [|f_equal].
    + apply proj1 in L. destruct (L eq_refl) as [H|H]; [exact H|discriminate].
    + apply proj2 in L. specialize (L (or_introl H)). congruence.
  - split; [discriminate|]. intros H. apply proj2 in L. specialize (L (or_introl H)). discriminate.
Qed.
Lemma unique_table_built ops : (exists t, unique_table_now name (run list_step None ops) = Ok t) <->
  exists l, last_list ops = Some l /\ l <> [] /\ NoDup (map name l).
Proof.
  split; [intros [t E]; apply unique_table_exact in E; exists (table_all t); tauto|].
  intros (l & E & Nl & N). unfold unique_table_now. rewrite list_run, E. destruct l as [|x l]; [contradiction|]. cbn [norm_list].
  destruct (proj2 (fill_unique_spec (x :: l) [])) as [m Em]; [split; [exact N|reflexivity]|]. rewrite Em. cbn. eauto.
Qed.
Lemma unique_find_unknown ops t k : unique_table_now name (run list_step None ops) = Ok t ->
  (table_find t k = Err <-> forall y, In y (table_all t) -> name y <> k).
Proof.
  intros E. apply unique_table_exact in E. destruct E as (_ & _ & _ & H). split.
  - intros F y I <-. assert (X := proj2 (H (name y) y) (conj I eq_refl)). congruence.
  - intros F. unfold table_find in *. specialize (H k). destruct (mlookup (snd t) k) as [z|]; [|reflexivity].
    exfalso. destruct (proj1 (H z) eq_refl) as [I N]. apply (F z I N).
Qed.
(* last wins *)
Lemma fold_minsert_lookup l m k : mlookup (fold_left (fun m x => minsert m (name x) x) l m) k =
  match find (fun x => bytes_eqb (name x) k) (rev l) with Some x => Some x | None => mlookup m k end.
Proof.
  induction l as [|x l IH] using rev_ind; [reflexivity|]. rewrite fold_left_app, rev_app_distr. cbn [fold_left rev app find].
  unfold minsert at 1. cbn [mlookup]. destruct (bytes_eqb (name x) k); [reflexivity|exact IH].
Qed.
Lemma find_rev_last (P : A -> bool) l x : find P (rev l) = Some x <-> exists a b, l = a ++ x :: b /\ P x = true /\ forall y, In y b -> P y = false.
Proof.
  induction l as [|z l IH] using rev_ind.
  - cbn. split; [discriminate|]. intros (a & b & E & _). destruct a; discriminate.
  - rewrite rev_app_distr. cbn [rev app find]. destruct (P z) eqn:Ez.
    + split.
      * intros [= <-]. exists l, []. repeat split; [exact Ez|intros y []].
      * intros (a & b & E & Hx & Hb). destruct b as [|w b] using rev_ind; [apply app_inj_tail in E; destruct E; congruence|].
        clear IHb. rewrite app_comm_cons, app_assoc in E. apply app_inj_tail in E. destruct E as [_ <-]. specialize (Hb z (in_elt z b [])). congruence.
    + rewrite IH. split.
      * intros (a & b & -> & Hx & Hb). exists a, (b ++ [z]). rewrite <- app_assoc. repeat split; auto. intros y Iy. apply in_app_or in Iy. destruct Iy as [I|[<-|[]]]; auto.
      * intros (a & b & E & Hx & Hb). destruct b as [|w b] using rev_ind.
        -- apply app_inj_tail in E. destruct E as [_ ->]. congruence.
        -- clear IHb. rewrite app_comm_cons, app_assoc in E. apply app_inj_tail in E. destruct E as [-> ->]. exists a, b. repeat split; auto. intros y Iy. apply Hb, in_or_app. auto.
Qed.
Lemma last_table_built ops : (exists t, last_table_now name (run list_step None ops) = Ok t) <-> exists l, last_list ops = Some l /\ l <> [].
Proof.
  unfold last_table_now. rewrite list_run. unfold norm_list. destruct (last_list ops) as [[|x l]|]; split.
  - intros [t E]; discriminate.
  - intros (l & [= <-] & N). contradiction.
  - intros _. eexists. split; [reflexivity|discriminate].
  - eauto.
  - intros [t E]; discriminate.
  - intros (l & E & _). discriminate.
Qed.
Lemma last_table_exact ops t k y : last_table_now name (run list_step None ops) = Ok t ->
  last_list ops = Some (table_all t) /\
  (table_find t k = Ok y <-> exists before after, table_all t = before ++ y :: after /\ name y = k /\ forall z, In z after -> name z <> k).
Proof.
  unfold last_table_now. rewrite list_run. destruct (norm_list (last_list ops)) as [l|] eqn:E; [|discriminate]. intros [= <-].
  unfold table_all, table_find. cbn [fst snd]. unfold norm_list in E. destruct (last_list ops) as [[|x l']|]; try discriminate. injection E as <-.
  split; [reflexivity|]. set (l := x :: l'). change ((fold_left (fun m x => minsert m (name x) x) l' (minsert [] (name x) x))) with (fold_left (fun m x => minsert m (name x) x) l []).
  rewrite fold_minsert_lookup. cbn [mlookup].
  pose proof (find_rev_last (fun z => bytes_eqb (name z) k) l) as F.
  assert (Q : find (fun z => bytes_eqb (name z) k) (rev l) = Some y <-> exists before after, l = before ++ y :: after /\ name y = k /\ forall z, In z after -> name z <> k).
  { rewrite F. split; intros (a & b & H1 & H2 & H3); exists a, b; repeat split; auto.
    - apply bytes_eqb_eq. exact H2.
    - intros z I N. specialize (H3 z I). apply bytes_eqb_eq in N. congruence.
    - apply bytes_eqb_eq. exact H2.
    - intros z I. destruct (bytes_eqb (name z) k) eqn:B; [|reflexivity]. apply bytes_eqb_eq in B. exfalso. apply (H3 z I B). }
  rewrite <- Q. destruct (find _ (rev l)); split; intros H; inversion H; reflexivity.
Qed.
End Tables.
