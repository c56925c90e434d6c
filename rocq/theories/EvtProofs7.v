(* EvtProofs7.v - the events never fail on a syntax tree; the readings of operations and lists. *)
From Coq Require Import Strings.String Strings.Byte Sorting.Permutation Lia.
From Verif Require Import Go GoLemmas RuleModel RootModel RootSpec RootProofs RootProofs2 ParseModel ParseSpec ParseProofs BaseModel BaseSpec EvtModel EvtSpec EvtProofs EvtProofs2 EvtProofs3 EvtProofs4 EvtProofs5 EvtProofs6.
Open Scope string_scope.
Open Scope list_scope.

(* ---- a name found in two places ---- *)
Lemma scan_one name y l : In y l -> no_name y = name -> (forall x, In x l -> x = y \/ absent name x) -> forall o, scan_nodes name l o <-> o = SFound (FNode y).
Proof.
  intros I E U o. split; [|intros ->; apply scan_first; assumption]. intros H. inversion H as [? l' ? P Hl]; subst. eapply list_exact; [exact Hl|eapply Permutation_in; eassumption|reflexivity|]. intros x Hx. apply U. eapply Permutation_in; [apply Permutation_sym; exact P|exact Hx].
Qed.
Lemma container_two name y' c s : co_name c <> name -> co_root c = Some s -> (forall o, scan_nodes name (ro_nodes s) o <-> o = SFound (FNode y')) -> forall o, scan_container name c o <-> o = SFound (FNode y').
Proof.
  intros Nc Ec S o. destruct c as [t n r]. cbn in Nc, Ec. subst r. split.
  - intros H. inversion H as [? ? E| |? ? ? ? E Hs]; subst; [destruct (Nc eq_refl)|]. apply S. exact Hs.
  - intros ->. apply sk_root; [exact Nc|]. apply S. reflexivity.
Qed.
Lemma node_two name x y' c cs s : no_name x <> name -> no_list x = c :: cs -> co_name c <> name -> co_root c = Some s -> (forall o, scan_nodes name (ro_nodes s) o <-> o = SFound (FNode y')) ->
  forall o, scan_node name x o <-> o = SFound (FNode y').
Proof.
  intros Nx Ex Nc Ec S o. assert (C := container_two name y' c s Nc Ec S). destruct x as [n l]. cbn in Nx, Ex. subst l. split.
  - intros H. inversion H as [|? ? ? E Hc]; subst; [destruct (Nx eq_refl)|]. inversion Hc as [|? ? z Hz|? ? z ? Hz Nz]; subst; [apply C; exact Hz|]. apply C in Hz. subst z. destruct (Nz _ eq_refl).
  - intros ->. apply sd_in; [exact Nx|]. apply sc_found. apply C. reflexivity.
Qed.
Lemma list_two name y x y' c cs s l o : no_name y = name -> no_name x <> name -> no_list x = c :: cs -> co_name c <> name -> co_root c = Some s -> (forall o, scan_nodes name (ro_nodes s) o <-> o = SFound (FNode y')) ->
  scan_node_list name l o -> (In y l \/ In x l) -> (forall z, In z l -> z = y \/ z = x \/ absent name z) -> o = SFound (FNode y) \/ o = SFound (FNode y').
Proof.
  intros Ny Nx Ex Nc Ec S H. assert (C := node_two name x y' c cs s Nx Ex Nc Ec S). induction H as [|n l z H|n l o o' H No H' IH]; intros I U; [destruct I as [[]|[]]| |].
  - destruct (U n (or_introl eq_refl)) as [->|[->|[A B]]].
    + inversion H; subst; [left; reflexivity|]. exfalso. cbn in *. congruence.
    + right. apply C. exact H.
    + exfalso. apply (proj1 (proj2 (proj2 (scan_sound_all name)))) with (x := z) in H; [|reflexivity]. destruct z as [r0|m|d]; cbn in H; [destruct H|destruct H as [Hm Em]; destruct (A m Hm Em)|destruct H as [Hm Em]; destruct (B d Hm Em)].
  - destruct (U n (or_introl eq_refl)) as [->|[->|[A B]]].
    + exfalso. inversion H; subst; [eapply No; reflexivity|]. cbn in *. congruence.
    + exfalso. apply C in H. eapply No. exact H.
    + apply IH; [|intros z Hz; apply U; right; exact Hz]. destruct I as [[->|I]|[->|I]]; [exfalso; apply (A y); [apply ni_here; left; reflexivity|exact Ny]|left; exact I| |right; exact I].
      exfalso. assert (K := scan_sound name (ro_nodes s) _ (proj2 (S _) eq_refl)). destruct K as [K1 K2]. apply (A y'); [|exact K2]. eapply ni_deep; [left; reflexivity|rewrite Ex; left; reflexivity|exact Ec|exact K1].
Qed.
Lemma scan_two name y x y' c cs s l : no_name y = name -> no_name x <> name -> no_list x = c :: cs -> co_name c <> name -> co_root c = Some s -> (forall o, scan_nodes name (ro_nodes s) o <-> o = SFound (FNode y')) ->
  In y l -> In x l -> (forall z, In z l -> z = y \/ z = x \/ absent name z) -> forall o, scan_nodes name l o <-> o = SFound (FNode y) \/ o = SFound (FNode y').
Proof.
  intros Ny Nx Ex Nc Ec S Iy Ix U o. split.
  - intros H. inversion H as [? l' ? P Hl]; subst. eapply list_two; [reflexivity|exact Nx|exact Ex|exact Nc|exact Ec|exact S|exact Hl|left; eapply Permutation_in; eassumption|]. intros z Hz. apply U. eapply Permutation_in; [apply Permutation_sym; exact P|exact Hz].
  - intros [->| ->]; [apply scan_first; assumption|]. apply in_split in Ix. destruct Ix as (a & b & ->). eapply sn_order; [apply Permutation_sym; apply Permutation_middle|]. apply snl_found. eapply node_two; eauto.
Qed.

Section Main.
Variable bitsize : N.
Variable parse_float : bytes -> N -> option N.
Notation base := (base_events bitsize parse_float).
Notation means := (means bitsize parse_float).
Notation each := (each bitsize parse_float).
Notation tr r := (fun name => trigger base name r).
Notation gives := (gives True bitsize parse_float).
Notation part_gives := (part_gives True bitsize parse_float).

(* ---- the events never fail ---- *)
Lemma tree_never h : forall n r, r_height r <= h -> tree bitsize parse_float n r -> never_fails bitsize parse_float n r.
Proof.
  induction h as [|h IH]; intros n r Hh Ht; [destruct r; cbn in Hh; lia|]. destruct Ht as [[x H]|[-> [w H]]].
  - eapply means_never; [exact H|eapply tree_goods; left; exists x; exact H|]. intros m q I. apply IH. assert (K := height_inside q r I). lia.
  - intros o Ho. apply (proj2 (spells_gives True bitsize parse_float r w H) I) in Ho. subst o. exists (VText w). split; [reflexivity|]. split; [left; reflexivity|]. inversion H; subst; assumption.
Qed.
Lemma never_lemma n r x : means n r x -> ro_name r = bs n -> forall o, app_execute base r o -> exists y, o = Ok (VObj y) /\ kind n y.
Proof.
  intros H E o Ho. apply execute_outcomes in Ho. destruct Ho as (z & Hz & ->). rewrite E in Hz.
  destruct (tree_never (r_height r) n r (le_n _) (or_introl (ex_intro _ x H)) z Hz) as (v & -> & R). assert (N : n <> "variableName" /\ n <> "KEYNAME_PATTERN").
  { split; intros ->; inversion H; subst; match goal with H : In (_, _) _ |- _ => cbn in H; repeat (destruct H as [H|H]; [discriminate|]); destruct H end. }
  destruct v as [|w|l|l|y]; cbn in R; try destruct R as []; [destruct N; tauto|]. exists y. auto.
Qed.

(* ---- two outcomes ---- *)
Definition both {A} (P : res A -> Prop) (a b : A) : Prop := forall o, P o <-> o = Ok a \/ o = Ok b.
Lemma both_bind {A B} t (p : prog A) (f : A -> prog B) a b a' b' : both (runs t p) a b -> ans True (runs t (f a)) (Ok a') -> ans True (runs t (f b)) (Ok b') -> both (runs t (pbind p f)) a' b'.
Proof.
  intros H [A1 A2] [B1 B2] o. split.
  - intros R. apply bind_runs in R. destruct R as [(z & X & Y)|[(X & _)|[(X & _)|(X & _)]]]; apply H in X; destruct X as [X|X]; try discriminate; injection X as ->; [left; apply (A2 I); exact Y|right; apply (B2 I); exact Y].
  - intros [->| ->]; (eapply runs_bind; [|eassumption]); apply H; auto.
Qed.
Lemma both_trig t n v w : both (t (bs n)) v w -> both (runs t (trig n)) v w.
Proof.
  intros H o. split.
  - intros R. inversion R as [|? ? u ? Ht Hr|? ? Ht|? ? Ht]; subst; apply H in Ht; destruct Ht as [E|E]; try discriminate; injection E as ->; inversion Hr; subst; auto.
  - intros [->| ->]; [eapply rn_ok; [apply H; left; reflexivity|constructor]|eapply rn_ok; [apply H; right; reflexivity|constructor]].
Qed.
Lemma both_get {X} t n (f : obj -> option X) y y' x x' : both (t (bs n)) (VResult [VObj y]) (VResult [VObj y']) -> f y = Some x -> f y' = Some x' -> both (runs t (get n f)) x x'.
Proof. intros H E E'. eapply both_bind; [apply both_trig; exact H|cbn; rewrite E; apply ans_ret|cbn; rewrite E'; apply ans_ret]. Qed.
(* two nodes can be found: the direct one, and that of the first token of a sibling *)
Lemma trigger_two r l n ps m cs s l' ps' xs xs' : parts r l -> NoDup (map fst l) -> In (n, ps) l -> In (m, K s :: cs) l -> n <> m ->
  parts s l' -> NoDup (map fst l') -> In (n, ps') l' ->
  (forall a qs, In (a, qs) l -> a <> n -> a <> m -> absent (bs n) (part_node (a, qs))) ->
  (forall a qs, In (a, qs) l' -> a <> n -> absent (bs n) (part_node (a, qs))) ->
  Forall2 (part_gives n) ps xs -> Forall2 (part_gives n) ps' xs' -> ps <> [] -> ps' <> [] -> blank_name n = false ->
  both (trigger base (bs n) r) (VResult xs) (VResult xs').
Proof.
  intros P D I J Nm P' D' I' A A' F F' Ne Ne' Bn.
  assert (Uq : forall (L : list (string * list part)) a p q, NoDup (map fst L) -> In (a, p) L -> In (a, q) L -> p = q).
  { intros L a p q. induction L as [|[b t] L IH]; intros DL X Y; [destruct X|]. inversion DL as [|? ? Na Dl]; subst. cbn in *. destruct X as [X|X], Y as [Y|Y]; [congruence| | |apply IH; assumption]; exfalso; apply Na; [injection X as <- <-; apply (in_map fst _ _ Y)|injection Y as <- <-; apply (in_map fst _ _ X)]. }
  assert (S' : forall o, scan_nodes (bs n) (ro_nodes s) o <-> o = SFound (FNode (part_node (n, ps')))).
  { apply scan_one; [eapply parts_in; eassumption|reflexivity|]. intros z Hz. destruct (parts_names _ _ _ P' Hz) as (a & qs & [Ia|Ia] & ->); [|right; apply blank_absent; assumption]. destruct (String.eqb_spec a n) as [->|Na]; [left|right; apply A'; assumption]. rewrite (Uq l' n qs ps' D' Ia I'). reflexivity. }
  assert (Bx : bs m <> bs n) by (intros E; apply bs_inj in E; congruence).
  assert (S2 := scan_two (bs n) (part_node (n, ps)) (part_node (m, K s :: cs)) (part_node (n, ps')) (part_container m (K s)) (map (part_container m) cs) s (ro_nodes r) eq_refl Bx eq_refl Bx eq_refl S' (parts_in _ _ _ P I) (parts_in _ _ _ P J)).
  assert (U : forall z, In z (ro_nodes r) -> z = part_node (n, ps) \/ z = part_node (m, K s :: cs) \/ absent (bs n) z).
  { intros z Hz. destruct (parts_names _ _ _ P Hz) as (a & qs & [Ia|Ia] & ->); [|right; right; apply blank_absent; assumption]. destruct (String.eqb_spec a n) as [->|Na]; [left; rewrite (Uq l n qs ps D Ia I); reflexivity|]. destruct (String.eqb_spec a m) as [->|Nb]; [right; left; rewrite (Uq l m qs _ D Ia J); reflexivity|]. right; right. apply A; assumption. }
  specialize (S2 U). apply list_gives in F as L1. apply list_gives in F' as L2. destruct L1 as [L1 L1'], L2 as [L2 L2'].
  assert (B1 : build_result (Some xs) VNil = Ok (VResult xs)) by (destruct F; [destruct (Ne eq_refl)|reflexivity]).
  assert (B2 : build_result (Some xs') VNil = Ok (VResult xs')) by (destruct F'; [destruct (Ne' eq_refl)|reflexivity]).
  intros o. split.
  - intros H. inversion H as [Hs|Hs E|q o' Hs|k o' Hs L|d o' Hs]; subst; apply S2 in Hs; destruct Hs as [Hs|Hs]; try discriminate; injection Hs as ->.
    + apply (L1' Logic.I) in L. subst o'. left. cbn [bind]. exact B1.
    + apply (L2' Logic.I) in L. subst o'. right. cbn [bind]. exact B2.
  - intros [->| ->].
    + rewrite <- B1. exact (tr_node base (bs n) r (part_node (n, ps)) (Ok xs) (proj2 (S2 _) (or_introl eq_refl)) L1).
    + rewrite <- B2. exact (tr_node base (bs n) r (part_node (n, ps')) (Ok xs') (proj2 (S2 _) (or_intror eq_refl)) L2).
Qed.
Lemma events_two n b r y y' : body_of bitsize parse_float (bs n) = Some b -> both (runs (tr r) (b r)) (VObj y) (VObj y') -> both (execute_events base (bs n) r) (None, VObj y) (None, VObj y').
Proof.
  intros E H z. rewrite base_fix, E. split.
  - intros (u & Hu & _ & ->). apply H in Hu. destruct Hu as [->| ->]; [left|right]; reflexivity.
  - intros [->| ->]; [exists (Ok (VObj y))|exists (Ok (VObj y'))]; (split; [apply H; auto|split; [discriminate|reflexivity]]).
Qed.
Lemma outcomes_two n r y y' : ro_name r = bs n -> both (execute_events base (bs n) r) (None, VObj y) (None, VObj y') -> forall o, app_execute base r o <-> o = Ok (VObj y) \/ o = Ok (VObj y').
Proof.
  intros Er X o. rewrite execute_outcomes, Er. split.
  - intros (z & Hz & ->). apply X in Hz. destruct Hz as [->| ->]; auto.
  - intros [->| ->]; [exists (Ok (None, VObj y))|exists (Ok (None, VObj y'))]; (split; [apply X; auto|reflexivity]).
Qed.
Lemma execute_two n b r y y' : body_of bitsize parse_float (bs n) = Some b -> ro_name r = bs n -> both (runs (tr r) (b r)) (VObj y) (VObj y') -> forall o, app_execute base r o <-> o = Ok (VObj y) \/ o = Ok (VObj y').
Proof. intros E Er H. eapply outcomes_two; [exact Er|]. eapply events_two; eassumption. Qed.
Lemma free_absent n a qs : a <> n -> (forall q, In (K q) qs -> free n q /\ goods bitsize parse_float q) -> absent (bs n) (part_node (a, qs)).
Proof.
  intros Na H. assert (Ba : bs a <> bs n) by (intros E; apply Na, bs_inj, E).
  assert (A : forall k, node_in k [part_node (a, qs)] -> no_name k <> bs n /\ forall c, In c (no_list k) -> co_name c = no_name k).
  { intros k Hk. inversion Hk as [? ? J|? x c q ? J Hc Eq Hn]; subst; destruct J as [<-|[]].
    - split; [exact Ba|]. intros c Hc. cbn [no_list part_node fst snd] in Hc. apply in_map_iff in Hc. destruct Hc as ([w|q] & <- & _); reflexivity.
    - cbn [no_list part_node fst snd] in Hc. apply in_map_iff in Hc. destruct Hc as ([w|q'] & <- & Hq); [discriminate|]. cbn in Eq. injection Eq as ->. destruct (H q Hq) as [F G]. split; [apply F; exact Hn|]. eapply goods_named; [exact G|exact Hn]. }
  split.
  - intros k Hk. apply A. exact Hk.
  - intros c (k & Hk & Hc). destruct (A k Hk) as [X Y]. rewrite (Y c Hc). exact X.
Qed.
Lemma means_goods_of n r x : means n r x -> goods bitsize parse_float r.
Proof. apply means_goods. Qed.
Ltac nodups := repeat constructor; cbn; intuition discriminate.
(* ---- an operation between two elements ---- *)
Lemma operands_two r p s o q ep op eq :
  parts r [("operationElement", [K p]); ("operationSuffix", [K s])] -> parts s [("operator", [K o]); ("operationElement", [K q])] ->
  means "operationElement" p (OElement ep) -> means "operator" o (OUint16 op) -> means "operationElement" q (OElement eq) -> clear p -> clear s -> free "operationSuffix" p -> ro_name r = bs "operationWithSuffix" ->
  forall out, app_execute base r out <-> out = Ok (VObj (OOperation (Operation ep (Some (OpSuffix op eq))))) \/ out = Ok (VObj (OOperation (Operation eq (Some (OpSuffix op eq))))).
Proof.
  intros P Ps Hp Ho Hq Cp Cs Fp Er. assert (Hs : means "operationSuffix" s (OSuffix (OpSuffix op eq))) by (eapply me_suffix; eassumption).
  assert (Cq : clear q) by (eapply clear_inside; [|exact Cs]; eapply parts_inside; [exact Ps|right; left; reflexivity|left; reflexivity]).
  assert (Gp := proj1 (means_gives True bitsize parse_float) _ _ _ Hp (fun _ => Cp)). assert (Gq := proj1 (means_gives True bitsize parse_float) _ _ _ Hq (fun _ => Cq)). assert (Gs := proj1 (means_gives True bitsize parse_float) _ _ _ Hs (fun _ => Cs)).
  eapply (execute_two "operationWithSuffix"); [reflexivity|exact Er|]. cbn [snd]. unfold ev_operationWithSuffix.
  assert (Es : ans True (trigger base (bs "operationSuffix") r) (Ok (VResult [VObj (OSuffix (OpSuffix op eq))]))).
  { eapply (trigger_parts True _ _ _ _ "operationSuffix" [K s] [_] P); [nodups|right; left; reflexivity|constructor; [exact Gs|constructor]|discriminate| |reflexivity]. intros _ a qs I Na. cbn in I. destruct I as [I|[I|[]]]; injection I as <- <-; [|destruct (Na eq_refl)].
    apply free_absent; [discriminate|]. intros z [E|[]]. injection E as <-. split; [exact Fp|eapply means_goods_of; exact Hp]. }
  assert (Sx : forall e, ans True (runs (tr r) (s <-- get_opt r "operationSuffix" (fun x => match x with OSuffix y => Some y | _ => None end) ;; now OOperation (operation_now (Some e, s)))) (Ok (VObj (OOperation (Operation e (Some (OpSuffix op eq))))))).
  { intros e. eapply ans_bind; [unfold get_opt; eapply ans_opt_some; [rewrite (has_parts _ _ _ P) by reflexivity; reflexivity|]; eapply ans_get; [exact Es|reflexivity]|]. apply (ans_ret True). }
  eapply both_bind; [|exact (Sx ep)|exact (Sx eq)]. unfold get_opt, opt. rewrite (has_parts _ _ _ P) by reflexivity. cbn [map fst existsb String.eqb Ascii.eqb Bool.eqb orb].
  eapply both_bind; [|apply ans_ret|apply ans_ret]. eapply (both_get _ _ _ (OElement ep) (OElement eq)); [|reflexivity|reflexivity].
  eapply (trigger_two r _ "operationElement" [K p] "operationSuffix" [] s _ [K q] [_] [_] P); [nodups|left; reflexivity|right; left; reflexivity|discriminate|exact Ps|nodups|right; left; reflexivity| | |constructor; [exact Gp|constructor]|constructor; [exact Gq|constructor]|discriminate|discriminate|reflexivity].
  - intros a qs I Na Nb. cbn in I. destruct I as [I|[I|[]]]; injection I as <- <-; [destruct (Na eq_refl)|destruct (Nb eq_refl)].
  - intros a qs I Na. eapply (clear_parts s); [exact Ps|right; left; reflexivity|left; eexists; left; reflexivity|exact Cs|exact I|exact Na].
Qed.
(* ---- a list of several elements ---- *)
Lemma commas_two {X} (f : X -> obj) (g : obj -> option X) r n m c q x c1 cs a q1 x1 l :
  (forall x, g (f x) = Some x) -> n <> m -> n <> c -> c <> m -> blank_name n = false -> blank_name m = false ->
  parts r [(n, [K q]); (m, map K (c1 :: cs))] -> parts c1 [(c, [T a]); (n, [K q1])] ->
  gives n q (VObj (f x)) -> gives n q1 (VObj (f x1)) -> Forall2 (fun q x => gives m q (VObj x)) (c1 :: cs) (map f (x1 :: l)) ->
  free m q -> goods bitsize parse_float q ->
  both (runs (tr r) (with_commas r n m g)) (x :: x1 :: l) (x1 :: x1 :: l).
Proof.
  intros G Nm Nc Nd Bn Bm P Pc Gq G1 Gs Fq Gd. assert (Dr : NoDup (map fst [(n, [K q]); (m, map K (c1 :: cs))])) by (repeat constructor; cbn; intuition). assert (Dc : NoDup (map fst [(c, [T a]); (n, [K q1])])) by (repeat constructor; cbn; intuition).
  unfold with_commas.
  assert (Em : ans True (trigger base (bs m) r) (Ok (VResult (map (fun x => VObj x) (map f (x1 :: l)))))).
  { eapply (trigger_parts True _ _ _ _ m (map K (c1 :: cs)) _ P Dr); [right; left; reflexivity|apply each_parts; exact Gs|discriminate| |exact Bm]. intros _ b qs I Nb. cbn in I. destruct I as [I|[I|[]]]; injection I as <- <-; [|destruct (Nb eq_refl)].
    apply free_absent; [exact Nm|]. intros z [E|[]]. injection E as <-. auto. }
  assert (Hm : has r m = true) by (rewrite (has_parts _ _ _ P) by exact Bm; cbn; rewrite String.eqb_refl; destruct (m =? n)%string; reflexivity).
  assert (Sx : forall e, ans True (runs (tr r) (l0 <-- opt r m (v <-- trig m ;; Ret (EvtModel.all_of g v)) ;; Ret (Ok (e :: match l0 with Some l => l | None => [] end)))) (Ok (e :: x1 :: l))).
  { intros e. eapply ans_bind; [eapply ans_opt_some; [exact Hm|]; eapply ans_bind; [apply ans_trig; exact Em|]; rewrite (each_all f g _ G); apply ans_ret|]. apply ans_ret. }
  eapply both_bind; [|exact (Sx x)|exact (Sx x1)]. eapply (both_get _ _ _ (f x) (f x1)); [|apply G|apply G].
  eapply (trigger_two r _ n [K q] m (map K cs) c1 _ [K q1] [_] [_] P Dr); [left; reflexivity|right; left; reflexivity|exact Nm|exact Pc|exact Dc|right; left; reflexivity| | |constructor; [exact Gq|constructor]|constructor; [exact G1|constructor]|discriminate|discriminate|exact Bn].
  - intros b qs I Na Nb. cbn in I. destruct I as [I|[I|[]]]; injection I as <- <-; [destruct (Na eq_refl)|destruct (Nb eq_refl)].
  - intros b qs I Na. cbn in I. destruct I as [I|[I|[]]]; injection I as <- <-; [|destruct (Na eq_refl)]. apply (texts_absent n c [a]). exact Na.
Qed.
Lemma comma_clear n a q1 c1 : parts c1 [("COMMA", [T a]); (n, [K q1])] -> n <> "COMMA" -> blank_name n = false -> clear q1 -> clear c1.
Proof.
  intros P N B C. eapply (clear_lone _ _ n [K q1] P); [|exact B|intros z [E|[]]; injection E as <-; exact C]. intros m qs I. cbn in I. destruct I as [I|[I|[]]]; injection I as <- <-; [right|left; auto]. split; [congruence|]. split; [discriminate|]. exists [a]. reflexivity.
Qed.
Lemma each_gives n l xs : each n l xs -> (forall q, In q l -> clear q) -> Forall2 (fun q x => gives n q (VObj x)) l xs.
Proof. intros H C. apply (proj2 (means_gives True bitsize parse_float)); auto. Qed.
Lemma list_two_outcomes {X} (f : X -> obj) (g : obj -> option X) (h : list X -> obj) (nw : option (list X) -> res (list X)) name n m r q x c1 a q1 x1 cs l :
  (forall x, g (f x) = Some x) -> n <> m -> n <> "COMMA" -> "COMMA" <> m -> blank_name n = false -> blank_name m = false -> (forall y l, nw (Some (y :: l)) = Ok (y :: l)) ->
  body_of bitsize parse_float (bs name) = Some (fun r => l <-- with_commas r n m g ;; now h (nw (Some l))) ->
  parts r [(n, [K q]); (m, map K (c1 :: cs))] -> parts c1 [("COMMA", [T a]); (n, [K q1])] ->
  means n q (f x) -> means n q1 (f x1) -> means m c1 (f x1) -> each m cs (map f l) -> clear q -> clear q1 -> (forall c, In c cs -> clear c) -> free m q ->
  both (execute_events base (bs name) r) (None, VObj (h (x :: x1 :: l))) (None, VObj (h (x1 :: x1 :: l))).
Proof.
  intros G Nm Nc Nd Bn Bm Hn Eb P Pc Hq H1 Hc Hs Cq C1 Cs Fq. eapply (events_two name); [exact Eb|]. assert (Cc := comma_clear _ _ _ _ Pc Nc Bn C1).
  assert (Gv := fun n r x (H : means n r x) C => proj1 (means_gives True bitsize parse_float) n r x H (fun _ => C)).
  eapply both_bind; [eapply (commas_two f g r n m "COMMA" q x c1 cs a q1 x1 l); try eassumption|..].
  - apply Gv; assumption.
  - apply Gv; assumption.
  - constructor; [apply Gv; assumption|]. apply each_gives; assumption.
  - eapply means_goods_of; eassumption.
  - unfold now. rewrite Hn. apply (ans_ret True).
  - unfold now. rewrite Hn. apply (ans_ret True).
Qed.
Lemma assignables_two r q x c1 a q1 x1 cs l :
  parts r [("assignable", [K q]); ("commaAssignable", map K (c1 :: cs))] -> parts c1 [("COMMA", [T a]); ("assignable", [K q1])] ->
  means "assignable" q (OAssignable x) -> means "assignable" q1 (OAssignable x1) -> each "commaAssignable" cs (map OAssignable l) -> clear q -> clear q1 -> (forall c, In c cs -> clear c) -> free "commaAssignable" q -> ro_name r = bs "assignables" ->
  forall out, app_execute base r out <-> out = Ok (VObj (OAssignables (x :: x1 :: l))) \/ out = Ok (VObj (OAssignables (x1 :: x1 :: l))).
Proof.
  intros P Pc Hq H1 Hs Cq C1 Cs Fq Er. apply (outcomes_two _ _ _ _ Er). eapply (list_two_outcomes OAssignable is_assignable OAssignables assignables_now "assignables" "assignable" "commaAssignable"); try eassumption; try discriminate; try reflexivity. eapply me_comma_assignable; eassumption.
Qed.
Lemma firsts_two r q x c1 a q1 x1 cs l :
  parts r [("assigneeNameFirst", [K q]); ("commaAssigneeFirst", map K (c1 :: cs))] -> parts c1 [("COMMA", [T a]); ("assigneeNameFirst", [K q1])] ->
  means "assigneeNameFirst" q (OFirst x) -> means "assigneeNameFirst" q1 (OFirst x1) -> each "commaAssigneeFirst" cs (map OFirst l) -> clear q -> clear q1 -> (forall c, In c cs -> clear c) -> free "commaAssigneeFirst" q -> ro_name r = bs "assigneeNameFirsts" ->
  forall out, app_execute base r out <-> out = Ok (VObj (OFirsts (x :: x1 :: l))) \/ out = Ok (VObj (OFirsts (x1 :: x1 :: l))).
Proof.
  intros P Pc Hq H1 Hs Cq C1 Cs Fq Er. apply (outcomes_two _ _ _ _ Er). eapply (list_two_outcomes OFirst is_first OFirsts nonempty_now "assigneeNameFirsts" "assigneeNameFirst" "commaAssigneeFirst"); try eassumption; try discriminate; try reflexivity. eapply me_comma_first; eassumption.
Qed.
Lemma declarations_two r q x c1 a q1 x1 cs l :
  parts r [("variableDeclaration", [K q]); ("commaVariableDeclaration", map K (c1 :: cs))] -> parts c1 [("COMMA", [T a]); ("variableDeclaration", [K q1])] ->
  means "variableDeclaration" q (OVarDecl x) -> means "variableDeclaration" q1 (OVarDecl x1) -> each "commaVariableDeclaration" cs (map OVarDecl l) -> clear q -> clear q1 -> (forall c, In c cs -> clear c) -> free "commaVariableDeclaration" q -> ro_name r = bs "variableDeclarations" ->
  forall out, app_execute base r out <-> out = Ok (VObj (OVarDecls (x :: x1 :: l))) \/ out = Ok (VObj (OVarDecls (x1 :: x1 :: l))).
Proof.
  intros P Pc Hq H1 Hs Cq C1 Cs Fq Er. apply (outcomes_two _ _ _ _ Er). eapply (list_two_outcomes OVarDecl is_vardecl OVarDecls vardecls_now "variableDeclarations" "variableDeclaration" "commaVariableDeclaration"); try eassumption; try discriminate; try reflexivity. eapply me_comma_declaration; eassumption.
Qed.

(* ---- names ---- *)
Definition among (names : list string) (r : root) : Prop := forall k, node_in k (ro_nodes r) -> exists m, no_name k = bs m /\ In m (names ++ channel_names).
Lemma among_parts names r l : parts r l -> (forall n ps, In (n, ps) l -> In n names /\ forall q, In (K q) ps -> among names q) -> among names r.
Proof.
  intros P H k Hk. inversion Hk as [? ? I|? y c q ? I Hc Eq Hn]; subst; destruct (parts_names _ _ _ P I) as (n & ps & J & ->).
  - exists n. split; [reflexivity|]. apply in_or_app. destruct J as [J|(B & _)]; [left; apply (H n ps J)|right; exact B].
  - cbn [no_list part_node fst snd] in Hc. apply in_map_iff in Hc. destruct Hc as ([w|q'] & <- & Hp); [discriminate|]. cbn in Eq. injection Eq as ->. destruct J as [J|J]; [|destruct (blank_no_root _ _ _ J Hp)]. apply (proj2 (H n ps J) q Hp). exact Hn.
Qed.
Lemma among_free names n r : among names r -> existsb (String.eqb n) (names ++ channel_names) = false -> free n r.
Proof.
  intros A H k Hk E. destruct (A k Hk) as (m & Em & I). rewrite E in Em. apply bs_inj in Em. subst m. assert (X : existsb (String.eqb n) (names ++ channel_names) = true) by (apply existsb_exists; exists n; split; [exact I|apply String.eqb_refl]). congruence.
Qed.
Lemma among_more names names' r : among names r -> (forall n, In n names -> In n names') -> among names' r.
Proof. intros A S k Hk. destruct (A k Hk) as (m & E & I). exists m. split; [exact E|]. apply in_or_app. apply in_app_or in I. destruct I; auto. Qed.
Definition in_name := ["variableName"; "UNDERSCORE"; "FIRST_LETTER"; "MIN_MAJ_LETTERS"].
Ltac no_declarable := try (exfalso; match goal with H : In (_, _) _ |- _ => cbn in H; repeat (destruct H as [H|H]; [discriminate|]); destruct H end).
Lemma name_among q x : means "assigneeName" q (OName x) -> among in_name q /\ clear q.
Proof.
  intros H. inversion H; subst; no_declarable.
  - match goal with H : spells _ _ |- _ => rename H into Hw; assert (Cw := spells_clear _ _ Hw); inversion Hw as [s u v w' Pw Ew Nw]; subst end. split.
    + match goal with P : parts q _ |- _ => apply (among_parts _ _ _ P) end. intros n ps [I|[]]. injection I as <- <-. split; [left; reflexivity|]. intros z [E|[]]. injection E as <-. apply (among_parts _ _ _ Pw).
      intros n ps [I|[I|[]]]; injection I as <- <-; (split; [cbn; tauto|]); intros z Hz; apply in_map_iff in Hz; destruct Hz as (? & ? & _); discriminate.
    + match goal with P : parts q _ |- _ => apply (clear_one _ _ _ P); [reflexivity|] end. intros z [E|[]]. injection E as <-. exact Cw.
  - split.
    + match goal with P : parts q _ |- _ => apply (among_parts _ _ _ P) end. intros n ps [I|[]]. injection I as <- <-. split; [cbn; tauto|]. intros z [E|[]]. discriminate.
    + match goal with P : parts q _ |- _ => apply (clear_one _ _ _ P); [reflexivity|] end. intros z [E|[]]. discriminate.
Qed.
Lemma comma_name_inv c x : means "commaAssigneeName" c (OName x) -> exists a q, parts c [("COMMA", [T a]); ("assigneeName", [K q])] /\ means "assigneeName" q (OName x).
Proof. intros H. inversion H; subst; no_declarable. do 2 eexists. eauto. Qed.
Lemma comma_name_clear c x : means "commaAssigneeName" c (OName x) -> among ("COMMA" :: "assigneeName" :: in_name) c /\ clear c.
Proof.
  intros H. destruct (comma_name_inv _ _ H) as (a & q & P & Hq). destruct (name_among _ _ Hq) as [A C]. split.
  - apply (among_parts _ _ _ P). intros n ps I. cbn in I. destruct I as [I|[I|[]]]; injection I as <- <-; (split; [cbn; tauto|]); intros z [E|[]]; [discriminate|]. injection E as <-. eapply among_more; [exact A|]. cbn. tauto.
  - eapply comma_clear; [exact P|discriminate|reflexivity|exact C].
Qed.
Lemma each_in n l (f : aname -> obj) xs : each n l (map f xs) -> forall c, In c l -> exists x, means n c (f x).
Proof.
  revert xs. induction l as [|q l IH]; intros xs H c I; [destruct I|]. destruct xs as [|x xs]; [inversion H|]. cbn [map] in H. assert (HH : means n q (f x) /\ each n l (map f xs)) by (inversion H; subst; auto).
  destruct I as [<-|I]; [exists x; apply HH|eapply IH; [apply HH|exact I]].
Qed.
Lemma names_two_events r x x1 l : means "assigneeNames" r (ONames (x :: x1 :: l)) -> both (execute_events base (bs "assigneeNames") r) (None, VObj (ONames (x :: x1 :: l))) (None, VObj (ONames (x1 :: x1 :: l))).
Proof.
  intros H. destruct (names_inv _ _ _ _ H) as (q & y & cs & l' & P & Hq & Hs & E). injection E as <- <-. destruct cs as [|c1 cs]; [inversion Hs|]. cbn [some] in P. change (K c1 :: map K cs) with (map K (c1 :: cs)) in P.
  inversion Hs as [|? ? ? o0 os Hc Hl]; subst. destruct (comma_name_inv _ _ Hc) as (a & q1 & Pc & H1). destruct (name_among _ _ Hq) as [A C]. destruct (name_among _ _ H1) as [A1 C1].
  eapply (list_two_outcomes OName is_name ONames nonempty_now "assigneeNames" "assigneeName" "commaAssigneeName"); try eassumption; try discriminate; try reflexivity.
  - intros c Ic. destruct (each_in _ _ _ _ Hl c Ic) as (z & Hz). eapply comma_name_clear. exact Hz.
  - eapply among_free; [exact A|reflexivity].
Qed.
(* ---- for ---- *)
Lemma trigger_both r l n p y y' : parts r l -> NoDup (map fst l) -> In (n, [K p]) l -> (forall a qs, In (a, qs) l -> a <> n -> absent (bs n) (part_node (a, qs))) -> blank_name n = false ->
  both (execute_events base (bs n) p) (None, VObj y) (None, VObj y') -> both (trigger base (bs n) r) (VResult [VObj y]) (VResult [VObj y']).
Proof.
  intros P D I A Bn H. assert (S : forall o, scan_nodes (bs n) (ro_nodes r) o <-> o = SFound (FNode (part_node (n, [K p])))).
  { apply scan_one; [eapply parts_in; eassumption|reflexivity|]. intros z Hz. destruct (parts_names _ _ _ P Hz) as (a & qs & [Ia|Ia] & ->); [|right; apply blank_absent; assumption]. destruct (String.eqb_spec a n) as [->|Na]; [left|right; apply A; assumption].
    assert (E : qs = [K p]); [|subst; reflexivity]. clear - D I Ia. induction l as [|[b t] L IH]; [destruct I|]. inversion D as [|? ? Na Dl]; subst. cbn in *. destruct I as [X|X], Ia as [Y|Y]; [congruence| | |apply IH; assumption]; exfalso; apply Na; [injection X as -> ->; apply (in_map fst _ _ Y)|injection Y as -> ->; apply (in_map fst _ _ X)]. }
  intros o. split.
  - intros T. inversion T as [Hs|Hs E|q o' Hs|k o' Hs L|d o' Hs]; subst; apply S in Hs; try discriminate. injection Hs as ->. cbn [no_list part_node fst snd map part_container] in L.
    inversion L as [|c cs l' ins o'' Fo Lo|c cs Fo|c cs Fo]; subst; inversion Fo as [E|z o3 E He]; subst; try discriminate; injection E as <-; apply H in He; destruct He as [E2|E2]; try discriminate; injection E2 as -> ->; inversion Lo; subst; [left|right]; reflexivity.
  - assert (X : forall w, execute_events base (bs n) p (Ok (None, VObj w)) -> trigger base (bs n) r (Ok (VResult [VObj w]))).
    { intros w Hw. exact (tr_node base (bs n) r (part_node (n, [K p])) (Ok [VObj w]) (proj2 (S _) eq_refl) (el_value base (bs n) _ _ None (VObj w) (Ok []) (fe_root base (bs n) (part_container n (K p)) p _ eq_refl Hw) (el_nil base (bs n)))). }
    intros [->| ->]; apply X; apply H; auto.
Qed.
Lemma names_among p L : means "assigneeNames" p (ONames L) -> among ("assigneeName" :: "commaAssigneeName" :: "COMMA" :: in_name) p.
Proof.
  intros H. destruct (names_inv _ _ _ _ H) as (q & x & cs & l & P & Hq & Hs & _). apply (among_parts _ _ _ P). intros n ps I. destruct cs as [|c cs]; cbn [some] in I.
  - destruct I as [I|[]]. injection I as <- <-. split; [cbn; tauto|]. intros z [E|[]]. injection E as <-. eapply among_more; [apply (name_among _ _ Hq)|]. cbn. tauto.
  - destruct I as [I|[I|[]]]; injection I as <- <-; (split; [cbn; tauto|]); intros z Hz.
    + destruct Hz as [E|[]]. injection E as <-. eapply among_more; [apply (name_among _ _ Hq)|]. cbn. tauto.
    + change (In (K z) (map K (c :: cs))) in Hz. apply in_map_iff in Hz. destruct Hz as (y & E & Hz). injection E as <-. destruct (each_in _ _ _ _ Hs y Hz) as (w & Hw). eapply among_more; [apply (comma_name_clear _ _ Hw)|]. cbn. tauto.
Qed.
Lemma for_two r p i v a b q l : parts r [("assigneeNames", [K p]); ("COLON", [T a]); ("EQUAL", [T b]); ("totalListValue", [K q])] -> means "assigneeNames" p (ONames [i; v]) -> means "totalListValue" q (OTotalValue l) -> clear q -> ro_name r = bs "forStatement" ->
  forall out, app_execute base r out <-> out = Ok (VObj (OForStatement (ForStatement i v l))) \/ out = Ok (VObj (OForStatement (ForStatement v v l))).
Proof.
  intros P Hp Hq Cq Er. assert (D : NoDup (map fst [("assigneeNames", [K p]); ("COLON", [T a]); ("EQUAL", [T b]); ("totalListValue", [K q])])) by nodups.
  assert (Gq := proj1 (means_gives True bitsize parse_float) _ _ _ Hq (fun _ => Cq)).
  eapply (execute_two "forStatement"); [reflexivity|exact Er|]. cbn [snd]. unfold ev_forStatement. replace (has r "forStatement") with false by (rewrite (has_parts _ _ _ P) by reflexivity; reflexivity). cbv iota.
  assert (Et : ans True (trigger base (bs "totalListValue") r) (Ok (VResult [VObj (OTotalValue l)]))).
  { eapply (trigger_parts True _ _ _ _ "totalListValue" [K q] [_] P D); [do 3 right; left; reflexivity|constructor; [exact Gq|constructor]|discriminate| |reflexivity]. intros _ x qs I Nx. cbn in I. destruct I as [I|[I|[I|[I|[]]]]]; injection I as <- <-; [|apply (texts_absent _ _ [a]); exact Nx|apply (texts_absent _ _ [b]); exact Nx|destruct (Nx eq_refl)].
    apply free_absent; [discriminate|]. intros z [E|[]]. injection E as <-. split; [eapply among_free; [eapply names_among; exact Hp|reflexivity]|eapply means_goods_of; exact Hp]. }
  assert (Sx : forall x y, ans True (runs (tr r) (t <-- get_opt r "totalListValue" is_totalvalue ;; now OForStatement (forstatement_now (option_map fst (Some (x, y)), option_map snd (Some (x, y)), t)))) (Ok (VObj (OForStatement (ForStatement x y l))))).
  { intros x y. eapply ans_bind; [unfold get_opt; eapply ans_opt_some; [rewrite (has_parts _ _ _ P) by reflexivity; reflexivity|]; eapply ans_get; [exact Et|reflexivity]|]. apply (ans_ret True). }
  eapply both_bind; [|exact (Sx i v)|exact (Sx v v)]. unfold opt. replace (has r "assigneeNames") with true by (rewrite (has_parts _ _ _ P) by reflexivity; reflexivity).
  eapply both_bind; [|apply ans_ret|apply ans_ret]. eapply both_bind; [eapply (both_get _ _ _ (ONames [i; v]) (ONames [v; v])); [|reflexivity|reflexivity]|apply ans_ret|apply ans_ret].
  eapply (trigger_both _ _ _ _ _ _ P D); [left; reflexivity| |reflexivity|apply names_two_events; exact Hp]. intros x qs I Nx. cbn in I. destruct I as [I|[I|[I|[I|[]]]]]; injection I as <- <-; [destruct (Nx eq_refl)|apply (texts_absent _ _ [a]); exact Nx|apply (texts_absent _ _ [b]); exact Nx|].
  apply free_absent; [discriminate|]. intros z [E|[]]. injection E as <-. split; [|eapply means_goods_of; exact Hq]. intros k Hk Ek. destruct (proj1 (means_expressions bitsize parse_float) _ _ _ Hq eq_refl k Hk) as (m & Em & X). rewrite Ek in Em. apply bs_inj in Em. subst m. vm_compute in X. discriminate.
Qed.
End Main.
