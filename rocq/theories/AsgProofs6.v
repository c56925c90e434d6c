(* AsgProofs6.v - proofs for AsgProps.v: what the roots of assignments mean. *)
From Coq Require Import Strings.String Strings.Byte Sorting.Permutation Lia.
From Verif Require Import Go GoLemmas DomainModel CardModel PatModel RuleModel PathModel PathSpec LexModel AstModel RootModel TextModel ParseModel ParseSpec BaseModel BaseSpec EvtModel EvtSpec EvtProofs EvtProofs2 EvtProofs3 EvtProofs4 EvtProofs5 PickSpec PickProofs2 AdeqSpec AdeqProofs2 LetterProofs ProgSpec ProgProofs ProgProofs2 ProgProofs3 ProgProofs5 ProgProofs6 ProgProofs7 ProgProofs8 ProgProofs9 ProgProofs10 ListSpec RecProofs4 RecProofs6 LitSpec LitProofs2 LitProofs3 AsgSpec AsgProofs5 RootSpec RootProofs RootProofs2.
Open Scope list_scope.

Lemma tree_not_blank t m : tree_name t = bs m -> ~ In m channel_names -> blank_tree t = false.
Proof.
  intros Tn N. unfold blank_tree. destruct (existsb _ channel_names) eqn:E; [|reflexivity]. exfalso. apply existsb_exists in E. destruct E as (k & Ik & E). apply bytes_eqb_eq in E. rewrite Tn in E. apply bs_inj in E. congruence.
Qed.
Ltac unlisted := cbn [channel_names In]; intuition discriminate.

Section Means.
Variable bitsize : N.
Variable parse_float : bytes -> N -> option N.
Hypothesis B1 : bitsize <> 1%N.
Notation means := (EvtSpec.means bitsize parse_float).
Notation each := (EvtSpec.each bitsize parse_float).
Notation base := (base_events bitsize parse_float).
Notation ans := (ans True).
Notation refused := (refused bitsize parse_float).

(* a token and blanks *)
Lemma token_gap r n i t g m : own (Branch n i (t :: gap_tree g)) -> pictures (Branch n i (t :: gap_tree g)) r -> token_tree t = true -> tree_name t = bs m -> ~ In m channel_names -> exists q, parts r [(m, [K q])] /\ pictures t q.
Proof.
  intros O P Tt Tn N. assert (B := tree_not_blank t m Tn N). rewrite gap_lead, <- (app_nil_r (lead g)) in O, P.
  destruct (picture_parts _ _ _ _ [(m, [t])] P O) as (L & PL & FL); [|constructor; [intros []|constructor]| | |].
  - cbn [filter]. rewrite B. cbn [negb]. rewrite lead_filter. reflexivity.
  - constructor; [split; [discriminate|constructor; [exact Tn|constructor]]|constructor].
  - constructor; [congruence|]. apply lead_blanks. constructor.
  - groups FL. apply part_token in F; [|exact Tt]. destruct F as (q & -> & Q). eauto.
Qed.
Lemma word_means t r : good_target t -> match t with TTyped _ _ _ => False | _ => True end -> pictures (word_shape t) r -> means "assigneeName" r (OName (word_value t)).
Proof.
  intros G W P. assert (O := word_own t G). destruct t as [t g w|w|]; [destruct W| |].
  - cbn [word_shape word_value good_target] in *. rewrite under_is, (name_shape_is w (proj1 G)) in P, O. destruct (one_token _ _ _ _ "variableName" O P) as (q & Pq & Q); [apply (name_token w), G|apply (name_token w), G|unlisted|].
    eapply me_name; [exact Pq|]. eapply name_means; [exact bitsize|exact parse_float|apply G|apply name_own, G|exact Q].
  - cbn [word_shape word_value] in *. eapply me_skip. eapply one_text; [exact O|exact P|unlisted].
Qed.
Lemma word_token t : token_tree (word_shape t) = true /\ tree_name (word_shape t) = bs "assigneeName".
Proof. destruct t; auto. Qed.
Lemma first_token t : token_tree (first_shape t) = true /\ tree_name (first_shape t) = bs "assigneeNameFirst".
Proof. destruct t; auto. Qed.
Lemma first_means t r : good_target t -> pictures (first_shape t) r -> means "assigneeNameFirst" r (OFirst match t with TTyped t _ w => AFDeclaration (VarDecl (BType 0 (type_value t)) w) | t => AFName (word_value t) end).
Proof.
  intros G P. assert (O := first_own t G). destruct t as [t g w|w|].
  - cbn [first_shape good_target] in *. rewrite under_is, decl_is in P, O by apply G. destruct (one_token _ _ _ _ "variableDeclaration" O P eq_refl eq_refl ltac:(unlisted)) as (q & Pq & Q). eapply me_first_declaration; [exact Pq|]. eapply decl_means; [apply G|apply decl_own; apply G|exact Q].
  - cbn [first_shape] in *. rewrite under_is in P, O. destruct (word_token (TNamed w)) as [T1 T2]. destruct (one_token _ _ _ _ "assigneeName" O P T1 T2 ltac:(unlisted)) as (q & Pq & Q). eapply me_first_name; [exact Pq|]. apply (word_means (TNamed w)); [exact G|exact I|exact Q].
  - cbn [first_shape] in *. rewrite under_is in P, O. destruct (word_token TSkipped) as [T1 T2]. destruct (one_token _ _ _ _ "assigneeName" O P T1 T2 ltac:(unlisted)) as (q & Pq & Q). eapply me_first_name; [exact Pq|]. apply (word_means TSkipped); [exact G|exact I|exact Q].
Qed.
Lemma assignee_means a r : good_target (st_target a) -> (st_colon a = None -> forall t g w, st_target a <> TTyped t g w) -> pictures (assignee_shape a) r -> means "assignee" r (OAssignee (target_value a)).
Proof.
  intros G N P. assert (O := assignee_own a G). unfold assignee_shape, target_value in *. destruct (st_colon a) as [g|].
  - set (f := Branch (bs "assigneeNameFirsts") 0 (first_shape (st_target a) :: gap_tree (st_before a))) in *. assert (Of : own f) by (eapply own_list; [exact O|left; reflexivity]). rewrite gap_lead in P, O.
    assert (Bf : blank_tree f = false) by (apply (tree_not_blank f "assigneeNameFirsts"); [reflexivity|unlisted]). assert (Bc : blank_tree (Text (bs "COLON") (bs ":")) = false) by (vm_compute; reflexivity). assert (Be : blank_tree (Text (bs "EQUAL") (bs "=")) = false) by (vm_compute; reflexivity).
    destruct (picture_parts _ _ _ _ [("assigneeNameFirsts", [f]); ("COLON", [Text (bs "COLON") (bs ":")]); ("EQUAL", [Text (bs "EQUAL") (bs "=")])]%string P O) as (L & PL & FL); [|nodup|somes| |].
    + cbn [filter]. rewrite Bf, Bc. cbn [negb]. rewrite lead_filter. cbn [filter]. rewrite Be. reflexivity.
    + constructor; [congruence|]. constructor; [congruence|]. apply lead_blanks. constructor; [congruence|constructor].
    + groups FL. apply part_token in F; [|reflexivity]. apply part_text in F0. apply part_text in F1. subst. destruct F as (q & -> & Q). eapply me_assignee_first; [exact PL|].
      destruct (first_token (st_target a)) as [T1 T2]. destruct (token_gap _ _ _ _ _ "assigneeNameFirst" Of Q T1 T2 ltac:(unlisted)) as (q' & Pq & Q'). eapply me_firsts with (cs := []) (l := []); [exact Pq|assert (M := first_means _ q' G Q'); destruct (st_target a); exact M|constructor].
  - specialize (N eq_refl). set (f := Branch (bs "assigneeNames") 0 (word_shape (st_target a) :: gap_tree (st_before a))) in *. assert (Of : own f) by (eapply own_list; [exact O|left; reflexivity]).
    assert (Bf : blank_tree f = false) by (apply (tree_not_blank f "assigneeNames"); [reflexivity|unlisted]). assert (Be : blank_tree (Text (bs "EQUAL") (bs "=")) = false) by (vm_compute; reflexivity).
    destruct (picture_parts _ _ _ _ [("assigneeNames", [f]); ("EQUAL", [Text (bs "EQUAL") (bs "=")])]%string P O) as (L & PL & FL); [|nodup|somes| |].
    + cbn [filter]. rewrite Bf, Be. reflexivity.
    + constructor; [congruence|]. constructor; [congruence|constructor].
    + groups FL. apply part_token in F; [|reflexivity]. apply part_text in F0. subst. destruct F as (q & -> & Q). eapply me_assignee; [exact PL|].
      destruct (word_token (st_target a)) as [T1 T2]. destruct (token_gap _ _ _ _ _ "assigneeName" Of Q T1 T2 ltac:(unlisted)) as (q' & Pq & Q'). eapply me_names with (cs := []) (l := []); [exact Pq| |constructor]. apply word_means; [exact G| |exact Q']. destruct (st_target a) as [t g w|w|]; [exact (N t g w eq_refl)|exact I|exact I].
Qed.

(* ---- refusals ---- *)
Lemma trigger_refused_in r l n q : parts r l -> NoDup (map fst l) -> In (n, [K q]) l -> refused n q -> clear r -> blank_name n = false -> ans (trigger base (bs n) r) Err.
Proof.
  intros P D I [G1 G2] C Bn. assert (Iy := parts_in _ _ _ P I). assert (A := clear_parts r l n [K q] P I (or_introl (ex_intro _ q (or_introl eq_refl))) C).
  assert (F : ans (event_list base (bs n) (no_list (part_node (n, [K q])))) Err).
  { cbn. split; [apply el_err; eapply fe_root; [reflexivity|exact G1]|]. intros M o H. inversion H as [|c cs k ins o' F L|c cs F|c cs F]; subst; [|reflexivity|]; inversion F as [E|q1 o1 E He]; subst; try discriminate; cbn in E; injection E as <-; apply (G2 M) in He; discriminate. }
  destruct F as [F1 F2]. split.
  - exact (tr_node base (bs n) r (part_node (n, [K q])) Err (scan_first _ _ _ Iy eq_refl) F1).
  - intros M o H. assert (U : forall s, scan_nodes (bs n) (ro_nodes r) s -> s = SFound (FNode (part_node (n, [K q])))).
    { intros s Hs. inversion Hs as [? l' ? Pm Hl]; subst. eapply list_exact; [exact Hl|eapply Permutation_in; eassumption|reflexivity|]. intros x Hx. apply (Permutation_in _ (Permutation_sym Pm)) in Hx. destruct (parts_names _ _ _ P Hx) as (k & qs & [Ik|Ik] & ->); [|right; apply blank_absent; assumption].
      destruct (String.eqb_spec k n) as [->|Nk]; [left|right; exact (A k qs Ik Nk)].
      assert (E : qs = [K q]); [|subst; reflexivity]. clear - D I Ik. induction l as [|[a b] l IH]; [destruct I|]. inversion D as [|? ? Na Dl]; subst. cbn in *.
      destruct I as [I|I], Ik as [Ik|Ik]; [congruence| | |apply IH; assumption]; exfalso; apply Na; [injection I as -> _; apply (in_map fst _ _ Ik)|injection Ik as -> _; apply (in_map fst _ _ I)]. }
    inversion H as [Hs|Hs E|q' o' Hs|x o' Hs L|c o' Hs]; subst; apply U in Hs; try discriminate. injection Hs as ->. apply (F2 M) in L. subst o'. reflexivity.
Qed.
Lemma ans_bind_err {A B} t (p : prog A) (f : A -> prog B) : ans (runs t p) Err -> ans (runs t (pbind p f)) Err.
Proof.
  intros [P1 P2]. split.
  - clear P2. remember Err as o eqn:E in P1. induction P1 as [r|n k v o' Ht H IH|n k Ht|n k Ht]; cbn.
    + subst r. constructor.
    + eapply rn_ok; [exact Ht|apply IH, E].
    + apply rn_err. exact Ht.
    + discriminate.
  - intros M o' H. apply bind_runs in H. destruct H as [(b & X & Y)|[(X & E)|[(X & E)|(X & E)]]]; apply (P2 M) in X; try discriminate. exact E.
Qed.
Lemma ans_get_err {X} t n (f : obj -> option X) : ans (t (bs n)) Err -> ans (runs t (get n f)) Err.
Proof. intros H. apply ans_bind_err, ans_trig_err, H. Qed.
Lemma ans_opt_err {X} t r n (p : prog X) : has r n = true -> ans (runs t p) Err -> ans (runs t (opt r n p)) Err.
Proof. intros E H. unfold opt. rewrite E. apply ans_bind_err, H. Qed.
(* one part, and it is refused *)
Definition one_deep : list (string * string) := [("singleAssignable", "declarableValue"); ("assignable", "singleAssignable"); ("assignables", "assignable"); ("instruction", "assignment"); ("instructions", "instruction"); ("program", "instructions")]%string.
Lemma deep_refused n m r q : In (n, m) one_deep -> parts r [(m, [K q])] -> clear r -> refused m q -> refused n r.
Proof.
  intros I P C R. assert (T := fun B => trigger_refused bitsize parse_float r m q P R C B).
  repeat (destruct I as [I|I]; [injection I as <- <-; specialize (T eq_refl); (eapply refused_body; [reflexivity|])|]); [| | | | | |destruct I]; cbn [snd].
  - unfold ev_singleAssignable, get_opt. apply ans_bind_err, ans_opt_err; [rewrite (has_parts _ _ _ P) by reflexivity; reflexivity|apply ans_get_err, T].
  - unfold ev_assignable, get_opt. eapply ans_bind; [apply ans_opt_none; rewrite (has_parts _ _ _ P) by reflexivity; reflexivity|]. cbv beta. apply ans_bind_err, ans_opt_err; [rewrite (has_parts _ _ _ P) by reflexivity; reflexivity|apply ans_get_err, T].
  - unfold ev_assignables, with_commas. apply ans_bind_err, ans_bind_err, ans_get_err, T.
  - unfold ev_instruction, get_opt. apply ans_bind_err, ans_opt_err; [rewrite (has_parts _ _ _ P) by reflexivity; reflexivity|apply ans_get_err, T].
  - unfold ev_instructions. apply ans_bind_err, ans_trig_err, T.
  - unfold ev_program. apply ans_bind_err, ans_get_err, T.
Qed.
(* an object, or a refusal *)
Definition tells (n : string) (r : root) (o : option obj) : Prop := match o with Some x => means n r x | None => refused n r end.
Lemma given_tells v r : good_given v -> pictures (given_shape v) r -> tells "assignable" r (option_map OAssignable (given_value bitsize parse_float v)).
Proof.
  intros G P. assert (O := given_own v G). assert (C := given_clear v G). destruct v as [l|w]; cbn [given_shape good_given given_value] in *; rewrite !under_is in *.
  - assert (Cr := picture_clear _ _ P O C). destruct (one_token _ _ _ _ "singleAssignable" O P eq_refl eq_refl ltac:(unlisted)) as (q & Pq & Q). assert (Oq : own (Branch (bs "singleAssignable") 0 [value_tree l])) by (apply own_one, value_own). assert (Cq : clear_b (Branch (bs "singleAssignable") 0 [value_tree l]) = true) by (apply one_clear, value_clear).
    assert (Crq := picture_clear _ _ Q Oq Cq). destruct (value_tree_is l) as (i & E). destruct (one_token _ _ _ _ "declarableValue" Oq Q) as (p & Pp & Qp); [rewrite E; reflexivity|rewrite E; reflexivity|unlisted|].
    assert (S := value_says bitsize parse_float B1 l p (proj1 G) Qp). destruct (literal_value bitsize parse_float l) as [x|]; cbn [option_map tells says] in *.
    + eapply me_a_single; [exact Pq|]. eapply me_s_value; [exact Pp|exact S].
    + apply (deep_refused "assignable" "singleAssignable" r q); [cbn; tauto|exact Pq|exact Cr|]. apply (deep_refused "singleAssignable" "declarableValue" q p); [cbn; tauto|exact Pp|exact Crq|exact S].
  - cbn [option_map tells]. rewrite (name_shape_is w G) in O, P. destruct (one_token _ _ _ _ "totalListAssignable" O P eq_refl eq_refl ltac:(unlisted)) as (q & Pq & Q). assert (Oq : own (Branch (bs "totalListAssignable") 0 [Branch (bs "listValue") 1 [name_tree w]])) by (do 2 apply own_one; apply name_own, G).
    destruct (one_token _ _ _ _ "listValue" Oq Q eq_refl eq_refl ltac:(unlisted)) as (p & Pp & Qp). assert (Op : own (Branch (bs "listValue") 1 [name_tree w])) by (apply own_one; apply name_own, G). destruct (one_token _ _ _ _ "variableName" Op Qp) as (p' & Pp' & Qp'); [apply (name_token w), G|apply (name_token w), G|unlisted|].
    eapply me_a_list; [exact Pq|]. eapply me_l_value; [exact Pp|]. eapply me_list_name; [exact Pp'|]. eapply name_means; [exact bitsize|exact parse_float|exact G|apply name_own, G|exact Qp'].
Qed.
Lemma setting_tells a r : good_setting a -> pictures (setting_shape a) r -> tells "assignment" r (option_map OAssignment (setting_value bitsize parse_float a)).
Proof.
  intros G P. assert (O := setting_own a G). assert (Cr := picture_clear _ _ P O (setting_clear a G)). destruct G as (Gt & _ & Gc & _ & Gg). unfold setting_shape in P, O. rewrite under_is, gap_lead in P, O.
  set (f := assignee_shape a) in *. set (v := Branch (bs "assignables") 0 [given_shape (st_given a)]) in *. assert (Tf : token_tree f = true /\ tree_name f = bs "assignee") by (unfold f, assignee_shape; destruct (st_colon a); auto). destruct Tf as [T1 T2].
  assert (Bf : blank_tree f = false) by (apply (tree_not_blank f "assignee"); [exact T2|unlisted]). assert (Bv : blank_tree v = false) by (apply (tree_not_blank v "assignables"); [reflexivity|unlisted]). assert (Ov : own v) by (apply own_one, given_own, Gg). assert (Cv : clear_b v = true) by (apply one_clear, given_clear, Gg).
  destruct (picture_parts _ _ _ _ [("assignee", [f]); ("assignables", [v])]%string P O) as (L & PL & FL); [|nodup| | |].
  - cbn [filter]. rewrite Bf. cbn [negb]. rewrite lead_filter. cbn [filter]. rewrite Bv. reflexivity.
  - constructor; [split; [discriminate|constructor; [exact T2|constructor]]|]. constructor; [split; [discriminate|constructor; [reflexivity|constructor]]|constructor].
  - constructor; [congruence|]. apply lead_blanks. constructor; [congruence|constructor].
  - groups FL. apply part_token in F; [|exact T1]. apply part_token in F0; [|reflexivity]. destruct F as (q & -> & Q). destruct F0 as (p & -> & Qp).
    assert (M := assignee_means a q Gt ltac:(intros Z; rewrite Z in Gc; exact Gc) Q). assert (Cp := picture_clear _ _ Qp Ov Cv).
    assert (Tg : exists i l, given_shape (st_given a) = Branch (bs "assignable") i l) by (destruct (st_given a); cbn [given_shape]; rewrite under_is; eauto). destruct Tg as (i & l & Eg).
    destruct (one_token _ _ _ _ "assignable" Ov Qp) as (k & Pk & Qk); [rewrite Eg; reflexivity|rewrite Eg; reflexivity|unlisted|]. assert (T := given_tells _ k Gg Qk). unfold setting_value. destruct (given_value bitsize parse_float (st_given a)) as [x|]; cbn [option_map tells] in *.
    + eapply me_assignment; [exact PL|exact M|]. eapply me_assignables with (cs := []) (l := []); [exact Pk|exact T|constructor].
    + assert (Rp : refused "assignables" p) by (apply (deep_refused "assignables" "assignable" p k); [cbn; tauto|exact Pk|exact Cp|exact T]).
      assert (D : NoDup (map fst [("assignee", [K q]); ("assignables", [K p])]%string)) by nodup.
      eapply refused_body; [reflexivity|]. cbn [snd]. unfold ev_assignment, get_opt. eapply ans_bind.
      * eapply ans_opt_some; [rewrite (has_parts _ _ _ PL) by reflexivity; reflexivity|]. apply ans_get with (y := OAssignee (target_value a)) (l := []) (x := target_value a); [|reflexivity]. eapply (trigger_tokens True bitsize parse_float _ _ "assignee" [K q] _ PL (fun _ => Cr) D); [left; reflexivity| |discriminate|left; exists q; left; reflexivity|reflexivity].
        constructor; [|constructor]. apply (proj1 (means_gives True bitsize parse_float) "assignee"%string q _ M). intros X. eapply (sub_clear True _ _ _ PL (fun _ => Cr)); [left; reflexivity|exact X].
      * cbv beta. apply ans_bind_err, ans_opt_err; [rewrite (has_parts _ _ _ PL) by reflexivity; reflexivity|]. apply ans_get_err. exact (trigger_refused_in r _ "assignables" p PL D ltac:(right; left; reflexivity) Rp Cr eq_refl).
Qed.
Lemma alone_tells a r : good_setting a -> pictures (alone_shape a) r -> tells "program" r (option_map (fun x => OProgram (Program [IAssignment x] None)) (setting_value bitsize parse_float a)).
Proof.
  intros G P. assert (O := alone_own a G). assert (Cr := picture_clear _ _ P O (alone_clear a G)). unfold alone_shape in P, O. rewrite !under_is in P, O. assert (Os := setting_own a G). assert (Cs := setting_clear a G).
  assert (Ts : token_tree (setting_shape a) = true /\ tree_name (setting_shape a) = bs "assignment") by (split; reflexivity). revert P O Os Cs Ts. assert (S := fun r P => setting_tells a r G P). revert S. generalize (setting_shape a). intros s S P O Os Cs [T1 T2].
  set (s1 := Branch (bs "instruction") 0 [s]) in *. assert (O1 : own s1) by (apply own_one, Os). assert (C1 : clear_b s1 = true) by (apply one_clear, Cs). set (s2 := Branch (bs "instructions") 0 [s1]) in *. assert (O2 : own s2) by (apply own_one, O1). assert (C2 : clear_b s2 = true) by (apply one_clear, C1).
  destruct (one_token _ _ _ _ "instructions" O P eq_refl eq_refl ltac:(unlisted)) as (q2 & P2 & Q2). assert (R2 := picture_clear _ _ Q2 O2 C2).
  destruct (one_token _ _ _ _ "instruction" O2 Q2 eq_refl eq_refl ltac:(unlisted)) as (q1 & P1 & Q1). assert (R1 := picture_clear _ _ Q1 O1 C1).
  destruct (one_token _ _ _ _ "assignment" O1 Q1 T1 T2 ltac:(unlisted)) as (q & Pq & Q). specialize (S q Q). destruct (setting_value bitsize parse_float a) as [x|]; cbn [option_map tells] in *.
  - eapply me_program; [exact P2|]. eapply me_instructions with (l := [q1]) (v := [IAssignment x]); [exact P1|discriminate|]. apply each_of. constructor; [|constructor]. eapply me_i_assignment; [exact Pq|exact S].
  - apply (deep_refused "program" "instructions" r q2); [cbn; tauto|exact P2|exact Cr|]. apply (deep_refused "instructions" "instruction" q2 q1); [cbn; tauto|exact P1|exact R2|]. apply (deep_refused "instruction" "assignment" q1 q); [cbn; tauto|exact Pq|exact R1|exact S].
Qed.
End Means.
