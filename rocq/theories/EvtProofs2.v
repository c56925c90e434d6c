From Coq Require Import Strings.String Strings.Byte Sorting.Permutation Lia.
From Verif Require Import Go GoLemmas RuleModel RootModel RootSpec RootProofs RootProofs2 ParseModel ParseSpec ParseProofs BaseModel BaseSpec EvtModel EvtSpec EvtProofs.
Open Scope string_scope.
Open Scope list_scope.

(* ---- names ---- *)
Lemma bs_inj a b : bs a = bs b -> a = b.
Proof. intros H. rewrite <- (string_of_list_byte_of_string a), <- (string_of_list_byte_of_string b). unfold bs in H. rewrite H. reflexivity. Qed.
Lemma bs_eqb a b : bytes_eqb (bs a) (bs b) = String.eqb a b.
Proof.
  destruct (String.eqb_spec a b) as [->|Ne]; [apply bytes_eqb_refl|]. apply bytes_eqb_neq. intros E. apply Ne. apply bs_inj. exact E.
Qed.

(* ---- parts ---- *)
Definition blank_name (n : string) : bool := existsb (String.eqb n) channel_names.
Lemma blank_not ch n : Forall blank ch -> blank_name n = false -> existsb (String.eqb n) (map fst ch) = false.
Proof.
  intros F N. induction F as [|x ch (B & _) _ IH]; [reflexivity|]. cbn [map existsb]. rewrite IH, orb_false_r. destruct (String.eqb_spec n (fst x)) as [->|]; [|reflexivity].
  exfalso. unfold blank_name in N. assert (existsb (String.eqb (fst x)) channel_names = true); [|congruence]. apply existsb_exists. exists (fst x). split; [exact B|apply String.eqb_refl].
Qed.
Lemma has_parts r l n : parts r l -> blank_name n = false -> has r n = existsb (String.eqb n) (map fst l).
Proof.
  intros (ch & B & P) N. unfold has. assert (E : forall a b, Permutation a b -> existsb (fun x => bytes_eqb (no_name x) (bs n)) a = existsb (fun x => bytes_eqb (no_name x) (bs n)) b).
  { induction 1 as [|x a b _ IH|x y a|a b c _ IH1 _ IH2]; cbn; [reflexivity|rewrite IH; reflexivity|destruct (bytes_eqb (no_name x) (bs n)), (bytes_eqb (no_name y) (bs n)); reflexivity|congruence]. }
  rewrite (E _ _ P). transitivity (existsb (String.eqb n) (map fst (l ++ ch))).
  - clear. induction (l ++ ch) as [|x k IH]; [reflexivity|]. cbn [map existsb part_node no_name]. rewrite IH, bs_eqb. rewrite String.eqb_sym. reflexivity.
  - rewrite map_app, existsb_app, (blank_not _ _ B N). apply orb_false_r.
Qed.
Lemma parts_names r l x : parts r l -> In x (ro_nodes r) -> exists n ps, (In (n, ps) l \/ blank (n, ps)) /\ x = part_node (n, ps).
Proof.
  intros (ch & B & P) H. apply (Permutation_in _ P) in H. apply in_map_iff in H. destruct H as ([n ps] & E & I). exists n, ps. split; [|auto]. apply in_app_or in I. destruct I as [I|I]; [left; exact I|right]. rewrite Forall_forall in B. apply B. exact I.
Qed.
Lemma parts_in r l x : parts r l -> In x l -> In (part_node x) (ro_nodes r).
Proof. intros (ch & _ & P) H. apply (Permutation_in _ (Permutation_sym P)). apply in_map. apply in_or_app. left. exact H. Qed.
Lemma exactly r l : Permutation (ro_nodes r) (map part_node l) -> parts r l.
Proof. intros P. exists []. split; [constructor|]. rewrite app_nil_r. exact P. Qed.
Lemma blank_no_root n ps q : blank (n, ps) -> ~ In (K q) ps.
Proof. intros (_ & ws & E) I. cbn in E. subst ps. apply in_map_iff in I. destruct I as (? & ? & _). discriminate. Qed.
(* texts next to texts are never ambiguous *)
Lemma texts_absent n x (ws : list bytes) : x <> n -> absent (bs n) (part_node (x, map T ws)).
Proof.
  intros Ne. assert (E : bs x <> bs n) by (intros E; apply Ne, bs_inj, E).
  assert (U : forall k, node_in k [part_node (x, map T ws)] -> k = part_node (x, map T ws)).
  { intros k H. inversion H as [? ? J|? y c q ? J Hc Eq]; subst; destruct J as [<-|[]]; [reflexivity|]. cbn in Hc. rewrite map_map in Hc. apply in_map_iff in Hc. destruct Hc as (w & <- & _). discriminate. }
  split.
  - intros k H. apply U in H. subst k. exact E.
  - intros c (k & H & Hc). apply U in H. subst k. cbn in Hc. rewrite map_map in Hc. apply in_map_iff in Hc. destruct Hc as (w & <- & _). exact E.
Qed.
Lemma blank_absent n x qs : blank (x, qs) -> blank_name n = false -> absent (bs n) (part_node (x, qs)).
Proof.
  intros (B & ws & E) N. cbn in B, E. subst qs. apply texts_absent. intros ->. unfold blank_name in N. assert (existsb (String.eqb n) channel_names = true); [|congruence]. apply existsb_exists. exists n. split; [exact B|apply String.eqb_refl].
Qed.
Lemma parts_inside r l n ps q : parts r l -> In (n, ps) l -> In (K q) ps -> inside q r.
Proof.
  intros P H I. exists (part_container n (K q)). split; [|reflexivity]. exists (part_node (n, ps)). split; [apply ni_here; eapply parts_in; eassumption|]. exact (in_map (part_container n) ps (K q) I).
Qed.
Lemma inside_trans p q r : inside p q -> inside q r -> inside p r.
Proof.
  intros (c & (n & Hn & Hc) & E) (d & (m & Hm & Hd) & E'). exists c. split; [|exact E]. exists n. split; [|exact Hc].
  revert Hd. induction Hm as [m l H|m x e s l Hx He Es H IH]; intros Hd; [eapply ni_deep; eassumption|]. eapply ni_deep; [exact Hx|exact He|exact Es|]. apply IH. exact Hd.
Qed.
Lemma clear_inside q r : inside q r -> clear r -> clear q.
Proof. intros I C p x y Hp. apply C. right. destruct Hp as [->|Hp]; [exact I|eapply inside_trans; eassumption]. Qed.

(* ---- what is found ---- *)
Lemma list_exact name y l o : scan_node_list name l o -> In y l -> no_name y = name -> (forall x, In x l -> x = y \/ absent name x) -> o = SFound (FNode y).
Proof.
  intros H. induction H as [|n l x H|n l o o' H No H' IH]; intros I E U; [destruct I| |].
  - destruct (U n (or_introl eq_refl)) as [->|[A B]].
    + inversion H; subst; [reflexivity|]. exfalso. cbn in *. congruence.
    + apply (proj1 (proj2 (proj2 (scan_sound_all name)))) with (x := x) in H; [|reflexivity]. destruct x as [r0|m|c]; cbn in H; [destruct H|destruct H as [Hm Em]; destruct (A m Hm Em)|destruct H as [Hm Em]; destruct (B c Hm Em)].
  - destruct (U n (or_introl eq_refl)) as [->|[A B]].
    + exfalso. inversion H; subst; [eapply No; reflexivity|]. cbn in *. congruence.
    + apply IH; [|exact E|intros x Hx; apply U; right; exact Hx]. destruct I as [->|I]; [|exact I]. exfalso. apply (A y); [apply ni_here; left; reflexivity|exact E].
Qed.
Lemma scan_first name y l : In y l -> no_name y = name -> scan_nodes name l (SFound (FNode y)).
Proof.
  intros I E. apply in_split in I. destruct I as (a & b & ->). eapply sn_order; [apply Permutation_sym; apply Permutation_middle|]. apply snl_found. destruct y as [m cs]. cbn in E. subst m. apply sd_here.
Qed.

(* ---- one answer, or the only answer ---- *)
Section Mode.
Variable m : Prop.
Definition ans {A} (P : res A -> Prop) (o : res A) : Prop := P o /\ (m -> forall o', P o' -> o' = o).
Lemma runs_bind {A B} t (p : prog A) (f : A -> prog B) a o : runs t p (Ok a) -> runs t (f a) o -> runs t (pbind p f) o.
Proof. intros H F. remember (Ok a) as x eqn:E. revert E. induction H as [r|n k v o' Ht H IH|n k Ht|n k Ht]; intros E; try discriminate; [subst r; exact F|]. cbn. eapply rn_ok; [exact Ht|apply IH; exact E]. Qed.
Lemma bind_runs {A B} t (p : prog A) (f : A -> prog B) o : runs t (pbind p f) o ->
  (exists a, runs t p (Ok a) /\ runs t (f a) o) \/ (runs t p Err /\ o = Err) \/ (runs t p Panic /\ o = Panic) \/ (runs t p NoFuel /\ o = NoFuel).
Proof.
  revert o. induction p as [r|n k IH]; intros o H.
  - destruct r as [a| | |]; cbn in H; [left; exists a; split; [constructor|exact H]|right; left|right; right; left|right; right; right]; inversion H; subst; (split; [constructor|reflexivity]).
  - cbn in H. inversion H as [|? ? v ? Ht Hr|? ? Ht|? ? Ht]; subst.
    + destruct (IH v o Hr) as [(a & X & Y)|[(X & ->)|[(X & ->)|(X & ->)]]]; [left; exists a; split; [eapply rn_ok; eassumption|exact Y]|right; left|right; right; left|right; right; right]; (split; [eapply rn_ok; eassumption|reflexivity]).
    + right; left. split; [apply rn_err; exact Ht|reflexivity].
    + right; right; left. split; [apply rn_panic; exact Ht|reflexivity].
Qed.
Lemma ans_ret {A} t (r : res A) : ans (runs t (Ret r)) r.
Proof. split; [constructor|]. intros _ o H. inversion H. reflexivity. Qed.
Lemma ans_bind {A B} t (p : prog A) (f : A -> prog B) a o : ans (runs t p) (Ok a) -> ans (runs t (f a)) o -> ans (runs t (pbind p f)) o.
Proof.
  intros [P1 P2] [F1 F2]. split; [eapply runs_bind; eassumption|]. intros M o' H. apply bind_runs in H. destruct H as [(b & X & Y)|[(X & _)|[(X & _)|(X & _)]]]; apply (P2 M) in X; try discriminate. injection X as ->. apply (F2 M). exact Y.
Qed.
Lemma ans_trig t n v : ans (t (bs n)) (Ok v) -> ans (runs t (trig n)) (Ok v).
Proof.
  intros [P1 P2]. split; [eapply rn_ok; [exact P1|constructor]|]. intros M o H. inversion H as [|? ? u ? Ht Hr|? ? Ht|? ? Ht]; subst; apply (P2 M) in Ht; try discriminate. injection Ht as ->. inversion Hr. reflexivity.
Qed.
Lemma ans_get {X} t n (f : obj -> option X) y l x : ans (t (bs n)) (Ok (VResult (VObj y :: l))) -> f y = Some x -> ans (runs t (get n f)) (Ok x).
Proof. intros H E. eapply ans_bind; [apply ans_trig; exact H|]. cbn. rewrite E. apply ans_ret. Qed.
Lemma ans_text t n w l : ans (t (bs n)) (Ok (VResult (VText w :: l))) -> ans (runs t (get_text n)) (Ok w).
Proof. intros H. eapply ans_bind; [apply ans_trig; exact H|]. cbn. apply ans_ret. Qed.
Lemma ans_opt_some {X} t r n (p : prog X) x : has r n = true -> ans (runs t p) (Ok x) -> ans (runs t (opt r n p)) (Ok (Some x)).
Proof. intros E H. unfold opt. rewrite E. eapply ans_bind; [exact H|]. apply ans_ret. Qed.
Lemma ans_opt_none {X} t r n (p : prog X) : has r n = false -> ans (runs t (opt r n p)) (Ok None).
Proof. intros E. unfold opt. rewrite E. apply ans_ret. Qed.
Lemma ans_name_some t r w l : has r "variableName" = true -> ans (t (bs "variableName")) (Ok (VResult (VText w :: l))) -> ans (runs t (name_opt r)) (Ok w).
Proof. intros E H. eapply ans_bind; [eapply ans_opt_some; [exact E|eapply ans_text; exact H]|]. apply ans_ret. Qed.
Lemma ans_name_none t r : has r "variableName" = false -> ans (runs t (name_opt r)) (Ok []).
Proof. intros E. eapply ans_bind; [apply ans_opt_none; exact E|]. apply ans_ret. Qed.

Section Base.
Variable bitsize : N.
Variable parse_float : bytes -> N -> option N.
Notation base_events := (base_events bitsize parse_float).
Notation body_of := (body_of bitsize parse_float).
Notation tr r := (fun name => trigger base_events name r).

(* the event of that name on q gives x *)
Definition gives (n : string) (q : root) (x : val) : Prop := ans (execute_events base_events (bs n) q) (Ok (None, x)).
Lemma base_ans n b r v x : body_of (bs n) = Some b -> ans (runs (tr r) (b r)) (Ok v) -> unwrap v = (None, x) -> gives n r x.
Proof.
  intros E [H1 H2] U. split.
  - apply base_fix. rewrite E. exists (Ok v). split; [exact H1|]. split; [discriminate|]. cbn. rewrite U. reflexivity.
  - intros M o H. apply base_fix in H. rewrite E in H. destruct H as (u & Hr & N & ->). apply (H2 M) in Hr. subst u. cbn. rewrite U. reflexivity.
Qed.
Definition part_gives (n : string) (p : part) (x : val) : Prop := match p with T w => x = VText w | K q => gives n q x end.
Lemma fetch_gives n p x : part_gives n p x -> ans (fetch_or_execute base_events (bs n) (part_container n p)) (Ok (None, x)).
Proof.
  destruct p as [w|q]; cbn.
  - intros ->. split; [apply (fe_text base_events (bs n) (Container w (bs n) None)); reflexivity|]. intros _ o H. inversion H as [E|q o' E]; subst; [reflexivity|discriminate].
  - intros [H1 H2]. split; [eapply fe_root; [reflexivity|exact H1]|]. intros M o H. inversion H as [E|q' o' E He]; subst; [discriminate|]. cbn in E. injection E as <-. apply (H2 M). exact He.
Qed.
Lemma list_gives n ps xs : Forall2 (part_gives n) ps xs -> ans (event_list base_events (bs n) (map (part_container n) ps)) (Ok xs).
Proof.
  induction 1 as [|p x ps xs H Hs IH]; cbn [map].
  - split; [constructor|]. intros _ o H. inversion H. reflexivity.
  - apply fetch_gives in H. destruct H as [H1 H2], IH as [I1 I2]. split; [exact (el_value base_events (bs n) _ _ None x (Ok xs) H1 I1)|].
    intros M o H. inversion H as [|c cs l ins o' F L|c cs F|c cs F]; subst; apply (H2 M) in F; try discriminate. injection F as -> ->. apply (I2 M) in L. subst o'. reflexivity.
Qed.
Definition asked (n : string) (ps : list part) : Prop := (exists q, In (K q) ps) \/ n = "KEYNAME_PATTERN".
Lemma trigger_parts r l n ps xs : parts r l -> NoDup (map fst l) -> In (n, ps) l -> Forall2 (part_gives n) ps xs -> ps <> [] ->
  (m -> (forall x qs, In (x, qs) l -> x <> n -> absent (bs n) (part_node (x, qs)))) -> blank_name n = false ->
  ans (trigger base_events (bs n) r) (Ok (VResult xs)).
Proof.
  intros P D I F Ne C Bn. apply list_gives in F as G. assert (Nx : xs <> []) by (destruct F; [congruence|discriminate]).
  assert (B : build_result (Some xs) VNil = Ok (VResult xs)) by (destruct xs; [congruence|reflexivity]).
  destruct G as [G1 G2]. assert (Iy := parts_in _ _ _ P I). split.
  - rewrite <- B. exact (tr_node base_events (bs n) r (part_node (n, ps)) (Ok xs) (scan_first _ _ _ Iy eq_refl) G1).
  - intros M o H. assert (U : forall s, scan_nodes (bs n) (ro_nodes r) s -> s = SFound (FNode (part_node (n, ps)))).
    { intros s Hs. inversion Hs as [? l' ? Pm Hl]; subst. eapply list_exact; [exact Hl|eapply Permutation_in; eassumption|reflexivity|]. intros x Hx. apply (Permutation_in _ (Permutation_sym Pm)) in Hx. destruct (parts_names _ _ _ P Hx) as (k & qs & [Ik|Ik] & ->); [|right; apply blank_absent; assumption].
      destruct (String.eqb_spec k n) as [->|Nk]; [left|right; apply (C M); assumption].
      assert (E : qs = ps); [|subst; reflexivity]. clear - D I Ik. induction l as [|[a b] l IH]; [destruct I|]. inversion D as [|? ? Na Dl]; subst. cbn in *.
      destruct I as [I|I], Ik as [Ik|Ik]; [congruence| | |apply IH; assumption]; exfalso; apply Na; [injection I as <- <-; apply (in_map fst _ _ Ik)|injection Ik as <- <-; apply (in_map fst _ _ I)]. }
    inversion H as [Hs|Hs E|q o' Hs|x o' Hs L|c o' Hs]; subst; apply U in Hs; try discriminate. injection Hs as ->. apply (G2 M) in L. subst o'. cbn [bind]. exact B.
Qed.
Lemma clear_parts r l n ps : parts r l -> In (n, ps) l -> asked n ps -> clear r -> forall x qs, In (x, qs) l -> x <> n -> absent (bs n) (part_node (x, qs)).
Proof.
  intros P I A C x qs Ix Ne. apply (C r (part_node (x, qs)) (part_node (n, ps))); [left; reflexivity|eapply parts_in; eassumption|eapply parts_in; eassumption| |].
  - cbn. intros E. apply Ne. apply bs_inj. exact E.
  - destruct A as [[q Hq]|E]; [left|right; subst n; reflexivity]. exists (part_container n (K q)). split; [exact (in_map (part_container n) ps (K q) Hq)|discriminate].
Qed.
End Base.
End Mode.
