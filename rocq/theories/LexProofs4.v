From Coq Require Import Strings.String Strings.Byte Sorting.Permutation Lia.
From Verif Require Import Go GoLemmas DomainModel DomainSpec CardModel CardSpec CardProofs PatModel PatSpec PatProofs RuleModel RuleSpec RuleProofs PathModel PathSpec LexModel LexSpec LexProofs LexProofs2 LexProofs3.

(* ---- negative blocks ---- *)
Lemma chosen_valid outs m : chosen outs (Some m) -> (lm_valid m = true <-> exists j bl, candidate outs j bl).
Proof.
  destruct m as [i bl]. cbn [chosen lm_valid]. intros [[C _]|[N [[_ F] _]]]; split; intros H.
  - exists i, bl. exact C.
  - apply C.
  - congruence.
  - destruct H as (j & bl' & H). exfalso. exact (N j bl' H).
Qed.
Lemma chosen_none outs : chosen outs None -> forall j bl, ~ candidate outs j bl /\ ~ failed outs j bl.
Proof. intros [H1 H2] j bl. auto. Qed.
Lemma to_token_not channels root fuel script st t ls : fst (to_token channels fuel root script st) = Ok t -> el_not (pa_element root) = Some ls ->
  let run := lines_run (fun l => line_to_matches (cbm channels fuel) l (pa_deps root) script true) in
  exists must_outs st1, run (el_must (pa_element root)) {| ls_rec := []; ls_pre := ls_pre st; ls_tick := ls_tick st |} must_outs st1 /\
    ((tok_valid t = false /\ tok_content t = None /\ forall j bl, ~ candidate must_outs j bl /\ ~ failed must_outs j bl) \/
     (exists not_outs st2, run ls st1 not_outs st2 /\
       (exists j bl, candidate must_outs j bl \/ failed must_outs j bl) /\
       (tok_valid t = true <->
         ~ (exists j bl, candidate not_outs j bl) /\
         ((exists j bl, failed not_outs j bl) \/ (exists j bl, candidate must_outs j bl))))).
Proof.
  cbv zeta. unfold to_token, element_to_token, element_to_content. intros H Hn. destruct (mbind _ _ _) as [r st'] eqn:E in H. cbn [fst] in H. subst r.
  apply mbind_ok in E. destruct E as (c & s1 & E & H). apply mbind_ok in E. destruct E as (m & s2 & Em & E). mstep. subst s1.
  assert (Et : t = Tok (pa_element root) (pa_deps root) c) by (destruct (el_name _); congruence). subst t.
  apply best_line_chosen in Em. destruct Em as (outs & R & C). exists outs, s2. split; [exact R|].
  destruct m as [m|].
  - right. rewrite Hn in E. apply mbind_ok in E. destruct E as (n & s3 & En & E). mstep; subst. apply best_line_chosen in En. destruct En as (outs2 & R2 & C2).
    exists outs2, st'. split; [exact R2|]. split.
    { destruct m as [i bl]. exists i, bl. destruct C as [[C _]|[_ [C _]]]; [left|right]; exact C. }
    destruct n as [n|]; cbn [tok_valid].
    + rewrite negb_true_iff. assert (V := chosen_valid _ _ C2). destruct n as [i bl]. split.
      * intros Hv. split; [intros Hc; apply V in Hc; congruence|]. left. destruct C2 as [[C2 _]|[_ [C2 _]]]; [exfalso; apply not_true_iff_false in Hv; apply Hv; apply V; eauto|]. eauto.
      * intros [Hc _]. apply not_true_iff_false. intros Hv. apply Hc. apply V. exact Hv.
    + assert (V := chosen_valid _ _ C). assert (N := chosen_none _ C2). split.
      * intros Hv. split; [intros (j & bl & Hc); apply (proj1 (N j bl)); exact Hc|]. right. apply V. exact Hv.
      * intros [_ [(j & bl & F)|Hc]]; [exfalso; apply (proj2 (N j bl)); exact F|apply V; exact Hc].
  - left. mstep; subst. split; [reflexivity|]. split; [reflexivity|]. apply chosen_none. exact C.
Qed.

(* ---- endless lexing ---- *)
Lemma is_nofuel {A} (r : res A) : r = NoFuel \/ r <> NoFuel.
Proof. destruct r; (left; reflexivity) || (right; discriminate). Qed.
Lemma cbm_or channels N n c d s ch nx st : fst (cbm channels N c d s ch nx st) <> NoFuel ->
  fst (cbm channels n c d s ch nx st) = NoFuel \/ cbm channels n c d s ch nx st = cbm channels N c d s ch nx st.
Proof.
  intros H. destruct (is_nofuel (fst (cbm channels n c d s ch nx st))) as [E|E]; [left; exact E|]. right.
  destruct (Nat.le_ge_cases n N) as [L|L]; [symmetry|]; apply cbm_mono; assumption.
Qed.
Lemma element_or channels N n e d s ch st : fst (element_to_token (cbm channels N) e d s ch st) <> NoFuel ->
  fst (element_to_token (cbm channels n) e d s ch st) = NoFuel \/ element_to_token (cbm channels n) e d s ch st = element_to_token (cbm channels N) e d s ch st.
Proof.
  intros H. destruct (is_nofuel (fst (element_to_token (cbm channels n) e d s ch st))) as [E|E]; [left; exact E|]. right.
  destruct (Nat.le_ge_cases n N) as [L|L]; [symmetry|]; apply element_mono; try apply cbm_mono; assumption.
Qed.
Definition x_rule (c : string) : rule := {| rl_name := bs c; rl_code := bs c; rl_content := RConstant (bs c) |}.
Definition x_one (c : string) : instr := ICont (PRule (x_rule c) CMandatory).
Definition x_rec (c : string) : instr := ICont (PRec (bs c) [] CMandatory).
Definition x_el (n : string) (m : list line) : element := Element (bs n) m None.
Definition x_path (e : element) (d : list element) : path := {| pa_element := e; pa_deps := map (fun x => (el_name x, x)) d |}.

(* a repeated token with a not-block: r: .n*   n: .X --- .Y *)
Definition d1_n : element := Element (bs "n") [[x_one "x"]] (Some [[x_one "y"]]).
Definition d1_root : path := x_path (x_el "r" [[ICont (PToken d1_n [] CZero)]]) [].
Lemma d1_step n s : exists t s', element_to_token (cbm (always []) (S n)) d1_n [] (bs "z") true s = (Ok t, s') /\ tok_valid t = true /\ exists m x, tok_content t = Some (m, x) /\ lm_disc m = [].
Proof. destruct s as [r p k]. eexists _, _. split; [vm_compute; reflexivity|]. split; [vm_compute; reflexivity|]. eexists _, _. split; [reflexivity|vm_compute; reflexivity]. Qed.
Lemma d1_loop n : forall fuel acc s, fst (token_loop (cbm (always []) (S n)) fuel d1_n [] None true acc (bs "z") s) = NoFuel.
Proof.
  induction fuel as [|f IH]; intros acc s; [reflexivity|]. cbn [token_loop]. destruct (d1_step n s) as (t & s' & E & V & m & x & C & D).
  unfold mbind at 1. rewrite E, V, C. cbn [negb]. rewrite D. exact (IH (acc ++ [t]) s').
Qed.
Lemma nofuel_bind {A B} (m : M A) (f : A -> M B) s : fst (m s) = NoFuel -> fst (mbind m f s) = NoFuel.
Proof. unfold mbind. destruct (m s) as [[a| | |] s1]; cbn; congruence. Qed.

Lemma cbm_plain n c d b s ch nx st : (forall k, fst (container_to_match (cbm (always []) n) n c d (b :: s) nx (at_tick k st)) = NoFuel) -> fst (cbm (always []) (S n) c d (b :: s) ch nx st) = NoFuel.
Proof.
  intros H. cbn [cbm]. unfold cbm_step.
  assert (E : (if ch then find_channel_block (always []) (cbm (always []) n) c d (b :: s) nx else ret None) st = (Ok None, at_tick (if ch then S (ls_tick st) else ls_tick st) st)) by (destruct st; destruct ch; reflexivity).
  unfold mbind at 1. rewrite E. apply nofuel_bind. apply H.
Qed.
(* a line whose first container does not end *)
Lemma best_nofuel f l ls d s ch st c r : l = ICont c :: r -> fst (f c d s ch ch st) = NoFuel -> fst (best_line f (l :: ls) d s ch st) = NoFuel.
Proof. intros -> H. unfold best_line. apply nofuel_bind. cbn [best_loop]. apply nofuel_bind. apply nofuel_bind. cbn [line_loop]. apply nofuel_bind. exact H. Qed.
Lemma element_nofuel f e d s ch st l ls c r : el_must e = l :: ls -> l = ICont c :: r -> fst (f c d s ch ch st) = NoFuel -> fst (element_to_token f e d s ch st) = NoFuel.
Proof. intros E El H. unfold element_to_token, element_to_content. do 2 apply nofuel_bind. rewrite E. eapply best_nofuel; eassumption. Qed.
Lemma d1_endless fuel st : fst (to_token (always []) fuel d1_root (bs "z") st) = NoFuel.
Proof.
  destruct fuel as [|[|n]]; [reflexivity|reflexivity|]. unfold to_token. eapply element_nofuel; [reflexivity|reflexivity|].
  apply (cbm_plain (S n)). intros k. cbn [container_to_match]. apply nofuel_bind. unfold token_to_match. cbn [delimiter]. apply nofuel_bind. apply d1_loop.
Qed.

(* alternating recursion: a: .X .a | .a .X *)
Definition d2_a : element := x_el "a" [[x_one "x"; x_rec "a"]; [x_rec "a"; x_one "x"]].
Definition d2_root : path := x_path d2_a [d2_a].
Definition d2_deps : gmap element := [(bs "a", d2_a)].
Definition d2_st (p : bool) (r : gmap bytes) (k : nat) : lst := {| ls_rec := r; ls_pre := p; ls_tick := k |}.
Lemma d2_inner p k : forall r, r = [] \/ r = [(bs "a", bs "xy")] ->
  exists b k', line_to_matches (cbm (always []) 8) [x_one "x"; x_rec "a"] d2_deps (bs "xy") true (d2_st p r k) = (Ok (Some [b]), d2_st p [] k') /\ b_valid b = false.
Proof. destruct p; intros r [-> | ->]; eexists _, _; (split; [vm_compute; reflexivity|vm_compute; reflexivity]). Qed.
Lemma d2_loop p : forall n r k, r = [] \/ r = [(bs "a", bs "xy")] -> fst (element_to_token (cbm (always []) n) d2_a d2_deps (bs "xy") true (d2_st p r k)) = NoFuel.
Proof.
  induction n as [|n IH]; intros r k Hr; [reflexivity|]. unfold element_to_token, element_to_content. do 2 apply nofuel_bind. unfold best_line. apply nofuel_bind.
  change (el_must d2_a) with [[x_one "x"; x_rec "a"]; [x_rec "a"; x_one "x"]]. cbn [best_loop].
  destruct (d2_inner p k r Hr) as (b & k' & E & V).
  assert (Or : fst (line_to_matches (cbm (always []) (S n)) [x_one "x"; x_rec "a"] d2_deps (bs "xy") true (d2_st p r k)) = NoFuel \/
    line_to_matches (cbm (always []) (S n)) [x_one "x"; x_rec "a"] d2_deps (bs "xy") true (d2_st p r k) = (Ok (Some [b]), d2_st p [] k')).
  { match goal with |- fst ?t = _ \/ _ => destruct (is_nofuel (fst t)) as [N|N] end; [left; exact N|right]. rewrite <- E.
    destruct (Nat.le_ge_cases (S n) 8) as [L|L]; [symmetry|]; apply line_mono; try (apply cbm_mono; exact L); [exact N|rewrite E; discriminate]. }
  destruct Or as [Or|Or]; [apply nofuel_bind; exact Or|]. unfold mbind at 1. rewrite Or. cbn [lm_valid forallb]. rewrite V. cbn [negb andb length Nat.ltb Nat.leb best_loop].
  apply nofuel_bind. unfold line_to_matches. apply nofuel_bind. unfold x_rec at 1. cbn [line_loop]. apply nofuel_bind. apply (cbm_plain n). intros k2.
  cbn [container_to_match d2_st at_tick ls_rec mlookup]. unfold mbind at 1. change (lift (dep_fetch d2_deps (bs "a")) _) with (@Ok element d2_a, d2_st p [(bs "a", bs "xy")] k2). cbv beta iota. apply nofuel_bind. unfold token_to_match. cbn [delimiter]. apply nofuel_bind.
  destruct n as [|m]; [reflexivity|]. cbn [token_loop]. apply nofuel_bind. apply IH. right. reflexivity.
Qed.
Lemma d2_endless fuel st : fst (to_token (always []) fuel d2_root (bs "xy") st) = NoFuel.
Proof. unfold to_token. apply (d2_loop (ls_pre st) fuel [] (ls_tick st)). left. reflexivity. Qed.

(* looking for the expected next element: r: .X .a   a: .a .X *)
Definition d5_a : element := x_el "a" [[x_rec "a"; x_one "x"]].
Definition d5_root : path := x_path (x_el "r" [[x_one "x"; x_rec "a"]]) [d5_a].
Lemma d5_first n : first_rule n [(bs "a", d5_a)] (bs "a") = NoFuel.
Proof. induction n as [|n IH]; [reflexivity|]. cbn [first_rule]. change (dep_fetch [(bs "a", d5_a)] (bs "a")) with (Ok d5_a). cbn -[first_rule bs]. exact IH. Qed.
Lemma d5_endless fuel st : fst (to_token (always []) fuel d5_root (bs "x") st) = NoFuel.
Proof.
  destruct fuel as [|n]; [reflexivity|]. unfold to_token, element_to_token, element_to_content, best_line. do 3 apply nofuel_bind.
  change (el_must (pa_element d5_root)) with [[x_one "x"; x_rec "a"]]. cbn [best_loop]. apply nofuel_bind. apply nofuel_bind. unfold x_one. cbn [line_loop].
  unfold mbind at 1.
  match goal with |- context [cbm (always []) (S n) ?c ?d ?s ?x ?y ?st0] => set (o := cbm (always []) (S n) c d s x y st0); assert (Eo : exists b s1, o = (Ok (Some b), s1) /\ b_valid b = true /\ b_disc b = bs "x") end.
  { destruct st as [r p k]. unfold o. destruct p; eexists _, _; (split; [vm_compute; reflexivity|]; split; vm_compute; reflexivity). }
  destruct Eo as (b & s1 & -> & V & D). rewrite V, D. cbn [negb]. change (has_prefix (bs "x") (bs "x")) with true. cbv beta iota. change (cut (bs "x") (bs "x")) with (@nil byte). unfold x_rec. cbn [line_loop]. apply nofuel_bind.
  cbn [cbm]. unfold cbm_step. cbn [cont_card bind is_valid delimiter]. unfold lift. cbn [fst]. cbn -[first_rule bs pa_deps d5_root]. 
  unfold build_next. change (pa_deps d5_root) with [(bs "a", d5_a)]. rewrite d5_first. reflexivity.
Qed.

(* a channel with a not-block reads nothing, again and again: channel n: .X --- .Y *)
Definition d4_root : path := x_path (x_el "r" [[x_one "z"]]) [].
Lemma d4_loop : forall n c s, fst (cbm (always [x_path d1_n []]) n c [] (bs "z") true true s) = NoFuel.
Proof.
  induction n as [|n IH]; intros c s; [reflexivity|]. cbn [cbm]. unfold cbm_step. change (bs "z") with ("z"%byte :: []). cbv iota. apply nofuel_bind. unfold find_channel_block. unfold mbind at 1.
  destruct n as [|n].
  { reflexivity. }
  assert (E : exists m, find_in_channels (cbm (always [x_path d1_n []]) (S n)) [x_path d1_n []] ["z"%byte] {| ls_rec := ls_rec s; ls_pre := ls_pre s; ls_tick := S (ls_tick s) |} = (Ok (Some m), {| ls_rec := ls_rec s; ls_pre := ls_pre s; ls_tick := S (ls_tick s) |}) /\ lm_disc m = []).
  { destruct s as [r p k]. eexists. split; vm_compute; reflexivity. }
  destruct E as (m & E & D). unfold range_channels. change (always [x_path d1_n []] (ls_tick s)) with [x_path d1_n []]. rewrite E. rewrite D. apply nofuel_bind. apply IH.
Qed.
Lemma d4_endless fuel st : fst (to_token (always [x_path d1_n []]) fuel d4_root (bs "z") st) = NoFuel.
Proof. unfold to_token. eapply element_nofuel; [reflexivity|reflexivity|]. apply d4_loop. Qed.

(* a channel with a channel switch uses the channels inside of itself: channel s: ~ .w   w: .SPACE *)
Definition d3_w : element := x_el "w" [[x_one " "]].
Definition d3_chan : path := x_path (x_el "s" [[ISwitch; ICont (PToken d3_w [] CMandatory)]]) [].
Lemma d3_loop : forall n c s, fst (cbm (always [d3_chan]) n c [] (bs "z") true true s) = NoFuel.
Proof.
  intros n. induction n as [n IH] using (well_founded_induction Wf_nat.lt_wf). intros c s. destruct n as [|n]; [reflexivity|]. cbn [cbm]. unfold cbm_step. change (bs "z") with ("z"%byte :: []). cbv iota. apply nofuel_bind. unfold find_channel_block.
  apply nofuel_bind. unfold range_channels. change (always [d3_chan] (ls_tick s)) with [d3_chan]. cbn [find_in_channels]. apply nofuel_bind. unfold element_to_token, element_to_content, best_line. do 3 apply nofuel_bind.
  change (el_must (pa_element d3_chan)) with [[ISwitch; ICont (PToken d3_w [] CMandatory)]]. cbn [best_loop]. apply nofuel_bind. apply nofuel_bind. cbn [line_loop negb]. apply nofuel_bind.
  destruct n as [|n]; [reflexivity|]. cbn [cbm]. unfold cbm_step. unfold mbind at 1. cbn [ret]. apply nofuel_bind. cbn [container_to_match]. apply nofuel_bind. unfold token_to_match. cbn [delimiter]. apply nofuel_bind.
  destruct n as [|n]; [reflexivity|]. cbn [token_loop]. apply nofuel_bind. eapply element_nofuel; [reflexivity|reflexivity|]. apply IH. lia.
Qed.
Lemma d3_endless fuel st : fst (to_token (always [d3_chan]) fuel d4_root (bs "z") st) = NoFuel.
Proof. unfold to_token. eapply element_nofuel; [reflexivity|reflexivity|]. apply d3_loop. Qed.

(* ---- repeated constants ---- *)
Lemma const_at r c s : rl_content r = RConstant c -> c <> [] -> exists x, to_result r (c ++ s) = Ok x /\ rr_content x = c /\ first_index x = Some 0 /\ rr_matches x <> None.
Proof.
  intros Ec Nc. eexists {| rr_input := r; rr_matches := _ |}. split.
  - apply (constant_rule_exact r (c ++ s) c _ Ec Nc). cbn. split; [reflexivity|]. left. exists 0. split; [|reflexivity]. split; [|split; [exists s; reflexivity|intros j L; lia]]. rewrite app_length. destruct c; [congruence|cbn; lia].
  - split; [cbn; rewrite ?app_nil_r; reflexivity|]. split; [reflexivity|discriminate].
Qed.
Lemma const_absent r c s : rl_content r = RConstant c -> c <> [] -> absent_from c s -> exists x, to_result r s = Ok x /\ rr_matches x = None.
Proof.
  intros Ec Nc H. eexists {| rr_input := r; rr_matches := None |}. split; [|reflexivity]. apply (constant_rule_exact r s c _ Ec Nc). cbn. split; [reflexivity|]. right. split; [|reflexivity].
  intros k L [b P]. apply (H (firstn k s) b). rewrite <- P. symmetry. apply firstn_skipn.
Qed.
Lemma const_gap r c s a b : rl_content r = RConstant c -> c <> [] -> s = a ++ c ++ b -> ~ is_prefix c s -> exists x i, to_result r s = Ok x /\ rr_content x = c /\ first_index x = Some (S i) /\ rr_matches x <> None.
Proof.
  intros Ec Nc Es Np. assert (D : forall t, is_prefix c t \/ ~ is_prefix c t).
  { intros t. destruct (has_prefix c t) eqn:E; [left; apply has_prefix_is_prefix; exact E|right; intros P; apply has_prefix_is_prefix in P; congruence]. }
  destruct (first_offset_dec _ s D) as [[k Fk]|No].
  - destruct k as [|k]; [destruct Fk as (_ & P & _); contradiction|]. eexists {| rr_input := r; rr_matches := _ |}, k. split; [|split; [|split]].
    + apply (constant_rule_exact r s c _ Ec Nc). cbn. split; [reflexivity|]. left. exists (S k). split; [exact Fk|reflexivity].
    + cbn. rewrite ?app_nil_r. reflexivity.
    + reflexivity.
    + discriminate.
  - exfalso. apply (No (length a)).
    + rewrite Es, !app_length. destruct c; [congruence|cbn; lia].
    + exists b. rewrite Es, skipn_app, Nat.sub_diag, skipn_all. reflexivity.
Qed.
Lemma copies_S n c : copies (S n) c = c ++ copies n c. Proof. reflexivity. Qed.
Lemma copies_length n c : c <> [] -> n <= length (copies n c).
Proof. intros Nc. induction n as [|n IH]; [cbn; lia|]. rewrite copies_S, app_length. destruct c; [congruence|cbn [length]; lia]. Qed.
Lemma contents_copies c l : Forall (fun x => rr_content x = c) l -> join [] (map rr_content l) = copies (length l) c.
Proof. intros H. rewrite join_concat. induction H as [|x l E H IH]; [reflexivity|]. cbn [map concat length]. rewrite copies_S, IH, E. reflexivity. Qed.
Lemma const_loop r c local sl rest st l0 st0 : rl_content r = RConstant c -> c <> [] -> length c < sl ->
  (forall fuel acc, 0 < fuel -> rule_loop fuel r None local sl acc rest st = (Ok (acc ++ l0), st0)) ->
  forall n fuel acc, n < fuel -> exists l, rule_loop fuel r None local sl acc (copies n c ++ rest) st = (Ok (acc ++ l ++ l0), st0) /\
    length l = n /\ Forall (fun x => rr_content x = c) l /\ (n <> 0 -> exists x l', l = x :: l' /\ first_index x = Some 0).
Proof.
  intros Ec Nc Ls H0. induction n as [|n IH]; intros fuel acc L.
  - exists []. cbn [app copies repeat concat]. rewrite H0 by lia. split; [reflexivity|]. split; [reflexivity|]. split; [constructor|congruence].
  - destruct fuel as [|fuel]; [lia|]. rewrite copies_S, <- app_assoc. destruct (const_at r c (copies n c ++ rest) Ec Nc) as (x & E & Cx & Fx & Mx). cbn [rule_loop]. rewrite E. destruct (rr_matches x); [|congruence]. rewrite Fx, Cx. change (0 <? 0) with false. cbn [andb].
    assert (E1 : sl <=? length c = false) by (apply Nat.leb_gt; exact Ls). rewrite E1.
    assert (E2 : length (c ++ copies n c ++ rest) <? length c = false) by (apply Nat.ltb_ge; rewrite app_length; lia). rewrite E2.
    rewrite skipn_app, skipn_all, Nat.sub_diag. cbn [app skipn]. destruct (IH fuel (acc ++ [x]) ltac:(lia)) as (l' & E3 & Ll & Fl & _). rewrite E3. exists (x :: l'). split; [rewrite <- app_assoc; reflexivity|]. split; [cbn; lia|]. split; [constructor; [exact Cx|exact Fl]|]. intros _. exists x, l'. auto.
Qed.
Lemma repeated_constant_alone r c k n rest ch st : rl_content r = RConstant c -> c <> [] -> snd (delimiter k) = None -> n <> 0 -> is_valid k (N.of_nat n) = true -> absent_from c rest ->
  exists x, rule_to_match r k (copies n c ++ rest) ch st = (Ok x, st) /\ rm_valid x = true /\ rm_disc x = copies n c.
Proof.
  intros Ec Nc Ek Nn V Ab.
  assert (G : exists l, rule_loop (S (length (copies n c ++ rest))) r None (ls_pre st && ch) (length (copies n c ++ rest)) [] (copies n c ++ rest) st = (Ok l, st) /\ length l = n /\ Forall (fun x => rr_content x = c) l /\ exists x l', l = x :: l' /\ first_index x = Some 0).
  { destruct (Nat.leb_spec (length (copies n c ++ rest)) (length c)) as [L|L].
    - assert (n = 1 /\ rest = []) as [-> ->].
      { destruct n as [|n]; [congruence|]. rewrite copies_S, !app_length in L. assert (length (copies n c) = 0) by lia. assert (length rest = 0) by lia. split; [|apply length_zero_iff_nil; lia]. assert (Hc := copies_length n c Nc). lia. }
      assert (Es : copies 1 c ++ [] = c ++ []) by (unfold copies; cbn; rewrite ?app_nil_r; reflexivity). rewrite Es. destruct (const_at r c [] Ec Nc) as (x & E & Cx & Fx & Mx). exists [x]. cbn [rule_loop]. rewrite E. destruct (rr_matches x); [|congruence]. rewrite Fx, Cx. change (0 <? 0) with false. cbn [andb]. rewrite app_nil_r, Nat.leb_refl. split; [reflexivity|]. split; [reflexivity|]. split; [constructor; [exact Cx|constructor]|]. exists x, []. auto.
    - destruct (const_absent r c rest Ec Nc Ab) as (x & E & Mx).
      destruct (const_loop r c (ls_pre st && ch) (length (copies n c ++ rest)) rest st [] st Ec Nc L) with (n := n) (fuel := S (length (copies n c ++ rest))) (acc := @nil rresult) as (l & E1 & Ll & Fl & Hl).
      + intros fuel acc Lf. destruct fuel; [lia|]. cbn [rule_loop]. rewrite E, Mx, app_nil_r. reflexivity.
      + assert (Hc := copies_length n c Nc). rewrite app_length. lia.
      + exists l. rewrite app_nil_r in E1. split; [exact E1|]. split; [exact Ll|]. split; [exact Fl|]. apply Hl. exact Nn. }
  destruct G as (l & E & Ll & Fl & x & l' & El & Fx). unfold rule_to_match. destruct (delimiter k) as [mn mx] eqn:Ed. cbn in Ek. subst mx. unfold mbind. rewrite E. eexists. split; [reflexivity|]. split.
  - unfold rm_valid, rm_card_valid, rm_amount, rm_exact. cbn [rm_results rm_card rm_prefix]. rewrite Ll, V, El. destruct (_ && _); [reflexivity|]. rewrite Fx. reflexivity.
  - unfold rm_disc. cbn [rm_results]. rewrite (contents_copies c l Fl), Ll. reflexivity.
Qed.
Lemma repeated_constant_again r c k n a b ch st : rl_content r = RConstant c -> c <> [] -> snd (delimiter k) = None -> n <> 0 -> ls_pre st && ch = false ->
  ~ is_prefix c (a ++ c ++ b) ->
  exists x st', rule_to_match r k (copies n c ++ a ++ c ++ b) ch st = (Ok x, st') /\ rm_disc x = copies (S n) c /\ ~ is_prefix (rm_disc x) (copies n c ++ a ++ c ++ b) /\ rm_card x = k /\ rm_amount x = N.of_nat (S n).
Proof.
  intros Ec Nc Ek Nn P Np. destruct (const_gap r c (a ++ c ++ b) a b Ec Nc eq_refl Np) as (x & i & E & Cx & Fx & Mx).
  destruct (const_loop r c false (length (copies n c ++ a ++ c ++ b)) (a ++ c ++ b) st [x] {| ls_rec := ls_rec st; ls_pre := false; ls_tick := ls_tick st |} Ec Nc) with (n := n) (fuel := S (length (copies n c ++ a ++ c ++ b))) (acc := @nil rresult) as (l & E1 & Ll & Fl & Hl).
  - rewrite !app_length. assert (Hc := copies_length n c Nc). destruct n; [congruence|]. rewrite copies_S, app_length. destruct c; [congruence|cbn [length]; lia].
  - intros fuel acc Lf. destruct fuel; [lia|]. cbn [rule_loop]. rewrite E. destruct (rr_matches x); [|congruence]. rewrite Fx. reflexivity.
  - assert (Hc := copies_length n c Nc). rewrite app_length. lia.
  - unfold rule_to_match. destruct (delimiter k) as [mn mx] eqn:Ed. cbn in Ek. subst mx. rewrite P. unfold mbind. rewrite E1. eexists _, _. split; [reflexivity|].
    assert (Fd : rm_disc {| rm_rule := r; rm_card := k; rm_results := [] ++ l ++ [x]; rm_prefix := false && ch |} = copies (S n) c).
    { unfold rm_disc. cbn [rm_results app]. rewrite (contents_copies c (l ++ [x])); [rewrite app_length, Ll; f_equal; cbn; lia|]. apply Forall_app. split; [exact Fl|constructor; [exact Cx|constructor]]. }
    cbn [ls_pre]. rewrite Fd. split; [reflexivity|]. split.
    + intros Pp. assert (Es : copies (S n) c = copies n c ++ c).
      { clear. induction n as [|n IH]; [unfold copies; cbn; rewrite app_nil_r; reflexivity|]. rewrite copies_S, IH at 1. rewrite copies_S, app_assoc. reflexivity. }
      rewrite Es in Pp. apply prefix_cut_app in Pp. destruct Pp as [_ Pp]. rewrite cut_app in Pp. contradiction.
    + split; [reflexivity|]. unfold rm_amount. cbn [rm_results app]. rewrite app_length, Ll. f_equal. cbn. lia.
Qed.
Lemma copies_cons n c s : n <> 0 -> c <> [] -> exists b t, copies n c ++ s = b :: t.
Proof. intros Nn Nc. destruct n; [congruence|]. rewrite copies_S. destruct c as [|b c]; [congruence|]. eexists _, _. reflexivity. Qed.
Lemma rule_only_run name r k b s fuel st x st' : name <> [] -> rule_to_match r k (b :: s) true {| ls_rec := []; ls_pre := ls_pre st; ls_tick := S (ls_tick st) |} = (Ok x, st') ->
  is_valid k 0 = false ->
  fst (to_token (always []) (S fuel) (rule_only name r k) (b :: s) st) =
  Ok (Tok (pa_element (rule_only name r k)) []
    (if rm_valid x then (if has_prefix (rm_disc x) (b :: s) then (if 0 <? length (rm_disc x) then Some (LM 0 [BCont (MRule x) None], None) else None) else None) else Some (LM 0 [BCont (MRule x) None], None))).
Proof.
  intros Nn E V0. unfold to_token, element_to_token, element_to_content, best_line, rule_only. cbn [pa_element pa_deps el_must el_not el_name best_loop line_to_matches line_loop].
  unfold line_to_matches. cbn [line_loop]. unfold mbind. cbn [cbm cbm_step find_channel_block find_in_channels ret container_to_match]. unfold mbind. cbn [find_channel_block find_in_channels ret]. unfold find_channel_block, mbind, range_channels, always. cbn [find_in_channels ret ls_rec ls_pre ls_tick]. rewrite E.
  assert (Rs : rule_or_skip x = MRule x).
  { unfold rule_or_skip. unfold rule_to_match in E. destruct (delimiter k). apply mbind_ok in E. destruct E as (l & s1 & _ & E). inversion E; subst. cbn [rm_card]. rewrite V0. reflexivity. }
  cbn [ret]. rewrite Rs. cbn [b_valid m_valid b_disc m_disc app].
  destruct (rm_valid x) eqn:V; cbn [negb].
  - destruct (has_prefix (rm_disc x) (b :: s)); cbn [ret].
    + cbn [lm_valid forallb b_valid m_valid]. rewrite V. cbn [andb negb]. cbn [lm_disc forallb b_valid m_valid map b_disc m_disc join app]. rewrite V. cbn [andb].
      destruct (0 <? length (rm_disc x)); cbn [lift fst ret]; destruct name; try congruence; reflexivity.
    + cbn [lift fst ret]. destruct name; [congruence|reflexivity].
  - cbn [ret lm_valid forallb b_valid m_valid]. rewrite V. cbn [andb negb length Nat.ltb Nat.leb]. cbn [lift fst ret]. destruct name; [congruence|reflexivity].
Qed.
Lemma repeated_alone_token name r c k n rest fuel st : name <> [] -> rl_content r = RConstant c -> c <> [] -> snd (delimiter k) = None -> is_valid k 0 = false -> n <> 0 -> is_valid k (N.of_nat n) = true -> absent_from c rest ->
  exists t, fst (to_token (always []) (S fuel) (rule_only name r k) (copies n c ++ rest) st) = Ok t /\ tok_valid t = true /\ tok_disc t = copies n c.
Proof.
  intros Nm Ec Nc Ek V0 Nn V Ab. destruct (repeated_constant_alone r c k n rest true {| ls_rec := []; ls_pre := ls_pre st; ls_tick := S (ls_tick st) |} Ec Nc Ek Nn V Ab) as (x & E & Vx & Dx).
  assert (P : has_prefix (rm_disc x) (copies n c ++ rest) = true) by (apply has_prefix_is_prefix; rewrite Dx; exists rest; reflexivity).
  assert (L : 0 <? length (rm_disc x) = true) by (apply Nat.ltb_lt; rewrite Dx; assert (Hc := copies_length n c Nc); lia).
  destruct (copies_cons n c rest Nn Nc) as (b & s & Es). rewrite Es in *. rewrite (rule_only_run name r k b s fuel st x _ Nm E V0). rewrite Vx, P, L. eexists. split; [reflexivity|].
  cbn [tok_valid lm_valid forallb b_valid m_valid tok_disc lm_disc map join b_disc m_disc app]. rewrite Vx. cbn [andb]. split; [reflexivity|exact Dx].
Qed.
Lemma repeated_again_token name r c k n a b fuel st : name <> [] -> rl_content r = RConstant c -> c <> [] -> snd (delimiter k) = None -> is_valid k 0 = false -> n <> 0 -> ls_pre st = false -> ~ is_prefix c (a ++ c ++ b) ->
  exists t, fst (to_token (always []) (S fuel) (rule_only name r k) (copies n c ++ a ++ c ++ b) st) = Ok t /\ tok_valid t = false.
Proof.
  intros Nm Ec Nc Ek V0 Nn P Np. destruct (repeated_constant_again r c k n a b true {| ls_rec := []; ls_pre := ls_pre st; ls_tick := S (ls_tick st) |} Ec Nc Ek Nn) as (x & st' & E & Dx & Npx & _ & _); [cbn [ls_pre]; rewrite P; reflexivity|exact Np|].
  assert (Px : has_prefix (rm_disc x) (copies n c ++ a ++ c ++ b) = false) by (apply not_true_iff_false; intros H; apply Npx; apply has_prefix_is_prefix; exact H).
  destruct (copies_cons n c (a ++ c ++ b) Nn Nc) as (y & s & Es). rewrite Es in *. rewrite (rule_only_run name r k y s fuel st x _ Nm E V0). rewrite Px. eexists. split; [reflexivity|].
  destruct (rm_valid x) eqn:V; [reflexivity|]. cbn [tok_valid lm_valid forallb b_valid m_valid]. rewrite V. reflexivity.
Qed.

(* ---- one channel: one order ---- *)
Lemma one_order (channels : nat -> list path) : same_map channels -> length (channels 0) <= 1 -> forall k, channels k = channels 0.
Proof.
  intros H L k. assert (P := H 0 k). destruct (channels 0) as [|p [|q l]]; [apply Permutation_nil in P; exact P|apply Permutation_length_1_inv in P; exact P|cbn in L; lia].
Qed.
Section Same.
Variables channels channels' : nat -> list path.
Hypothesis Hs : forall j k, channels j = channels' k.
Definition msame {A} (m m' : M A) : Prop := forall s, m s = m' s.
Lemma ms_bind {A B} (m m' : M A) (f f' : A -> M B) : msame m m' -> (forall a, msame (f a) (f' a)) -> msame (mbind m f) (mbind m' f').
Proof. intros Hm Hf s. unfold mbind. rewrite Hm. destruct (m' s) as [[a| | |] s1]; try reflexivity. apply Hf. Qed.
Lemma cbm_same n : (forall c d s ch nx, msame (cbm channels n c d s ch nx) (cbm channels' n c d s ch nx)).
Proof.
  assert (Ext : forall n f g, (forall c d s ch nx, msame (f c d s ch nx) (g c d s ch nx)) -> forall c d s ch nx, msame (cbm_step channels f n c d s ch nx) (cbm_step channels' g n c d s ch nx)).
  { clear n. intros n f g E.
    assert (El : forall l d s ch nx acc, msame (line_loop f l d s ch nx acc) (line_loop g l d s ch nx acc)).
    { induction l as [|[|c] l IH]; intros d s ch nx acc; cbn [line_loop]; [intros st; reflexivity|apply IH|]. apply ms_bind; [apply E|]. intros [b|]; [|intros st; reflexivity]. destruct (negb _); [intros st; reflexivity|]. destruct (has_prefix _ _); [apply IH|intros st; reflexivity]. }
    assert (Eb : forall ls d s ch, msame (best_line f ls d s ch) (best_line g ls d s ch)).
    { intros ls d s ch. apply ms_bind; [|intros a st; reflexivity]. generalize 0 at 1 3 as i. generalize 0 as big. generalize (@None (nat * list block)) at 1 3 as v. generalize (@None (nat * list block)) as iv.
      induction ls as [|l ls IH]; intros iv v big i; cbn [best_loop]; [intros st; reflexivity|]. apply ms_bind; [apply ms_bind; [apply El|intros a st; reflexivity]|]. intros [bl|]; [|apply IH]. destruct (negb _); [apply IH|]. destruct (_ <? _); apply IH. }
    assert (Ee : forall e d s ch, msame (element_to_token f e d s ch) (element_to_token g e d s ch)).
    { intros e d s ch. apply ms_bind; [|intros a st; reflexivity]. apply ms_bind; [apply Eb|]. intros [m|]; [|intros st; reflexivity]. destruct (el_not e); [|intros st; reflexivity]. apply ms_bind; [apply Eb|intros a st; reflexivity]. }
    assert (Et : forall e d pmax ch fuel acc s, msame (token_loop f fuel e d pmax ch acc s) (token_loop g fuel e d pmax ch acc s)).
    { intros e d pmax ch. induction fuel as [|m IH]; intros acc s; cbn [token_loop]; [intros st; reflexivity|]. apply ms_bind; [apply Ee|]. intros t. destruct (negb _); [intros st; reflexivity|]. destruct (tok_content t) as [[x y]|]; [|intros st; reflexivity].
      destruct (has_prefix _ _); [|intros st; reflexivity]. match goal with |- context [if ?b then _ else _] => destruct b end; [intros st; reflexivity|apply IH]. }
    assert (Em : forall fuel e sp k d s ch, msame (token_to_match f fuel e sp k d s ch) (token_to_match g fuel e sp k d s ch)).
    { intros. unfold token_to_match. destruct (delimiter k). apply ms_bind; [apply Et|intros a st; reflexivity]. }
    assert (Ef : forall chs s, msame (find_in_channels f chs s) (find_in_channels g chs s)).
    { induction chs as [|p chs IH]; intros s; cbn [find_in_channels]; [intros st; reflexivity|]. apply ms_bind; [apply Ee|]. intros t. destruct (tok_valid t); [intros st; reflexivity|apply IH]. }
    intros c d s ch nx. unfold cbm_step. destruct s as [|b s]; [intros st; reflexivity|]. apply ms_bind.
    - destruct ch; [|intros st; reflexivity]. apply ms_bind.
      + intros st. unfold range_channels. rewrite (Hs _ (ls_tick st)). apply Ef.
      + intros [m|]; [|intros st; reflexivity]. destruct (has_prefix _ _); [|intros st; reflexivity]. apply ms_bind; [apply E|intros a st; reflexivity].
    - intros [x|]; [intros st; reflexivity|]. apply ms_bind; [|intros a st; reflexivity]. destruct c as [e sp k|r k|nm sp k|ls]; cbn [container_to_match].
      + apply ms_bind; [apply Em|intros a st; reflexivity].
      + intros st. reflexivity.
      + intros st. match goal with |- (if ?b then _ else _) = _ => destruct b end; [reflexivity|]. match goal with |- mbind _ _ ?st0 = _ => generalize st0 end. apply ms_bind; [intros st2; reflexivity|]. intros e. apply ms_bind; [apply Em|intros a st2; reflexivity].
      + apply ms_bind; [apply Eb|intros a st; reflexivity]. }
  induction n as [|n IH]; intros c d s ch nx; [intros st; reflexivity|]. cbn [cbm]. apply Ext. exact IH.
Qed.
End Same.
Lemma to_token_same channels channels' root fuel script st : (forall j k, channels j = channels' k) -> to_token channels fuel root script st = to_token channels' fuel root script st.
Proof.
  intros Hs. unfold to_token. assert (E := cbm_same channels channels' Hs fuel). generalize dependent (cbm channels' fuel). generalize (cbm channels fuel). intros f g E.
  assert (El : forall l d s ch nx acc, msame (line_loop f l d s ch nx acc) (line_loop g l d s ch nx acc)).
  { induction l as [|[|c] l IH]; intros d s ch nx acc; cbn [line_loop]; [intros st0; reflexivity|apply IH|]. apply ms_bind; [apply E|]. intros [b|]; [|intros st0; reflexivity]. destruct (negb _); [intros st0; reflexivity|]. destruct (has_prefix _ _); [apply IH|intros st0; reflexivity]. }
  assert (Eb : forall ls d s ch, msame (best_line f ls d s ch) (best_line g ls d s ch)).
  { intros ls d s ch. apply ms_bind; [|intros a st0; reflexivity]. generalize 0 at 1 3 as i. generalize 0 as big. generalize (@None (nat * list block)) at 1 3 as v. generalize (@None (nat * list block)) as iv.
    induction ls as [|l ls IH]; intros iv v big i; cbn [best_loop]; [intros st0; reflexivity|]. apply ms_bind; [apply ms_bind; [apply El|intros a st0; reflexivity]|]. intros [bl|]; [|apply IH]. destruct (negb _); [apply IH|]. destruct (_ <? _); apply IH. }
  generalize {| ls_rec := []; ls_pre := ls_pre st; ls_tick := ls_tick st |}. apply ms_bind; [|intros a st0; reflexivity]. apply ms_bind; [apply Eb|]. intros [m|]; [|intros st0; reflexivity]. destruct (el_not _); [|intros st0; reflexivity]. apply ms_bind; [apply Eb|intros a st0; reflexivity].
Qed.
Lemma one_channel channels channels' root fuel script : same_map channels -> length (channels 0) <= 1 -> same_map channels' -> Permutation (channels 0) (channels' 0) ->
  fst (to_token channels fuel root script (lst_init false)) = fst (to_token channels' fuel root script (lst_init false)).
Proof.
  intros H L H' P. f_equal. apply to_token_same. intros j k. rewrite (one_order channels H L j). assert (L' : length (channels' 0) <= 1) by (rewrite <- (Permutation_length P); exact L).
  rewrite (one_order channels' H' L' k). destruct (channels 0) as [|p [|q l]]; [apply Permutation_nil in P; symmetry; exact P|apply Permutation_length_1_inv in P; symmetry; exact P|cbn in L; lia].
Qed.
