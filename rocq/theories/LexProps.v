(* LexProps.v - property theorems C37-C41, C55-C61, C69 and C70: the lexer.
   A call of ToToken on an adapter is [to_token channels fuel root script st]: the
   orders in which Go visits the channel map ([channels k] the k-th time it ranges over
   it), a bound on the recursion, the root path and
   the adapter's state.  NoFuel is "not finished within the bound"; C57 says that a
   finished answer does not depend on the bound.
   LexSpec.v defines good_path (what the builders let exist), el_reads (what a grammar
   reads), sturdy, ends, chosen (which line wins), inside (parts of a tree), lexer_after. *)
From Coq Require Import Strings.String Strings.Byte Sorting.Permutation.
From Verif Require Import Go GoLemmas DomainModel DomainSpec CardModel CardSpec PatModel PatSpec RuleModel RuleSpec PathModel PathSpec LexModel LexSpec LexProofs LexProofs2 LexProofs3 LexProofs4 LexProofs5.
Open Scope list_scope.

(* ---- C37, C55, C56: what a valid answer means ---- *)
Theorem C37_valid_spells_a_prefix :
  forall channels root fuel script st t, (forall p, among channels p -> good_path p) -> good_path root ->
  fst (to_token channels fuel root script st) = Ok t -> tok_valid t = true ->
  exists rest, script = tok_disc t ++ rest.
Proof. intros channels root fuel script st t Hc Hr H V. destruct (to_token_sound channels Hc root fuel script st t Hr H V) as (rest & E & _). exists rest. exact E. Qed.
Print Assumptions C37_valid_spells_a_prefix.

(* every text discovered is read by the grammar, where the lexer takes two liberties
   (LexSpec lr_stop, er_nothing) *)
Theorem C55_valid_is_a_reading :
  forall channels root fuel script st t, (forall p, among channels p -> good_path p) -> good_path root ->
  fst (to_token channels fuel root script st) = Ok t -> tok_valid t = true ->
  exists rest, script = tok_disc t ++ rest /\
    el_reads channels True (pa_deps root) true (pa_element root) script rest /\
    (el_not (pa_element root) = None -> tok_disc t <> []).
Proof. intros channels root fuel script st t Hc Hr H V. exact (to_token_sound channels Hc root fuel script st t Hr H V). Qed.
Print Assumptions C55_valid_is_a_reading.

(* without not-blocks, recursion and nested lines, and with the optional parts of a line last: no liberties *)
Theorem C56_complete_lines :
  forall channels root fuel script st t,
  (forall p, among channels p -> good_path p) -> good_path root -> (forall p, among channels p -> sturdy p) -> sturdy root ->
  fst (to_token channels fuel root script st) = Ok t -> tok_valid t = true ->
  exists rest, script = tok_disc t ++ rest /\ el_reads channels False (pa_deps root) true (pa_element root) script rest /\ tok_disc t <> [].
Proof. exact @to_token_complete. Qed.
Print Assumptions C56_complete_lines.

(* the grammars of the examples.  r: .X .A? .B;  one channel: spaces *)
Definition ex_rule (c : string) : rule := {| rl_name := bs c; rl_code := bs c; rl_content := RConstant (bs c) |}.
Definition ex_one (c : string) : instr := ICont (PRule (ex_rule c) CMandatory).
Definition ex_opt (c : string) : instr := ICont (PRule (ex_rule c) COptional).
Definition ex_many (c : string) : instr := ICont (PRule (ex_rule c) CNonZero).
Definition ex_rec (c : string) : instr := ICont (PRec (bs c) [] CMandatory).
Definition ex_el (n : string) (m : list line) : element := Element (bs n) m None.
Definition ex_path (e : element) (d : list element) : path := {| pa_element := e; pa_deps := map (fun x => (el_name x, x)) d |}.
Definition ex_space : path := ex_path (ex_el "space" [[ex_one " "]]) [].
Definition ex_word : path := ex_path (ex_el "word" [[ex_one "x"; ICont (PToken (ex_el "b" [[ex_many "b"]; [ex_one "c"]]) [] CNonZero); ex_opt "a"]]) [].
Definition ex_ends : path := ex_path (ex_el "r" [[ex_one "x"; ex_opt "a"; ex_one "b"]]) [].
Ltac rules := repeat (match goal with
  | H : directly _ _ |- _ => destruct H as [H|H]
  | H : in_lines _ _ |- _ => destruct H as (? & ? & ?)
  | H : In _ _ |- _ => progress cbn in H
  | H : _ \/ _ |- _ => destruct H
  | H : False |- _ => destruct H
  | H : exists _, _ |- _ => destruct H
  | H : _ /\ _ |- _ => destruct H
  | H : _ = ICont _ |- _ => inversion H; subst; clear H
  | H : ISwitch = ICont _ |- _ => discriminate H
  | H : None = Some _ |- _ => discriminate H
  | H : el_not _ = Some _ |- _ => discriminate H
  | H : rule_in (?f _) _ |- _ => inversion H; subst; clear H
  | H : rule_in (?f _ _) _ |- _ => inversion H; subst; clear H
  | H : rule_in (?f _ _ _) _ |- _ => inversion H; subst; clear H
  end; subst).
Lemma ex_good_rule c : c <> EmptyString -> good_rule (ex_rule c).
Proof. intros H. destruct c; [congruence|]. split; [reflexivity|exact I]. Qed.
Example C37_example :
  (forall p, among (always [ex_space]) p -> good_path p) /\ good_path ex_word /\
  exists t, fst (to_token (always [ex_space]) 20 ex_word (bs "x  bb c rest") (lst_init false)) = Ok t /\ tok_valid t = true /\ tok_disc t = bs "x  bb c ".
Proof.
  split; [|split].
  - intros p (i & [<-|[]]). split; [|intros n e H; discriminate]. intros c Hc r Hr. rules; apply ex_good_rule; discriminate.
  - split; [|intros n e H; discriminate]. intros c Hc r Hr. rules; apply ex_good_rule; discriminate.
  - eexists. split; [vm_compute; reflexivity|]. split; vm_compute; reflexivity.
Qed.
(* valid does not mean that the whole script was read *)
Theorem C37_whole_script_refuted :
  exists root fuel script t, good_path root /\ fst (to_token (always []) fuel root script (lst_init false)) = Ok t /\ tok_valid t = true /\ tok_disc t <> script.
Proof.
  exists (ex_path (ex_el "r" [[ex_one "x"]]) []), 9, (bs "xyz"). eexists. split; [|split; [vm_compute; reflexivity|split; [reflexivity|discriminate]]].
  split; [|intros n e H; discriminate]. intros c Hc r Hr. rules; apply ex_good_rule; discriminate.
Qed.
Print Assumptions C37_whole_script_refuted.
Lemma ex_space_occurs c : occurs_in ex_space c -> c = PRule (ex_rule " ") CMandatory.
Proof. induction 1; rules; try discriminate; try reflexivity. Qed.
Lemma ex_word_occurs c : occurs_in ex_word c -> c = PRule (ex_rule "x") CMandatory \/ c = PRule (ex_rule "a") COptional \/ c = PToken (ex_el "b" [[ex_many "b"]; [ex_one "c"]]) [] CNonZero
  \/ c = PRule (ex_rule "b") CNonZero \/ c = PRule (ex_rule "c") CMandatory.
Proof. induction 1 as [c H|n e c H|e sp k c H IH Hd]; [rules; auto|discriminate|]. destruct IH as [E|[E|[E|[E|E]]]]; inversion E; subst. rules; auto. Qed.
Lemma ex_tail {A} (x y : A) a b l : a ++ x :: b = y :: l -> (a = [] /\ x = y /\ b = l) \/ exists a', a = y :: a' /\ a' ++ x :: b = l.
Proof. destruct a as [|z a]; cbn; intros H; inversion H; subst; [left; auto|right; exists a; auto]. Qed.
Ltac opt_last := let a := fresh in let c := fresh in let b := fresh in let c' := fresh in let H := fresh in let M := fresh in let k := fresh in let Hi := fresh in
  intros a c b c' H M Hi; symmetry in H; destruct M as (k & M & ?);
  repeat (apply ex_tail in H; destruct H as [(-> & H & ->)|(? & -> & H)]; [inversion H; subst; cbn in M; inversion M; subst; try discriminate; cbn in Hi; rules|]);
  try (match type of H with ?l ++ _ :: _ = [] => destruct l; discriminate H end).
Example C56_example :
  (forall p, among (always [ex_space]) p -> sturdy p) /\ sturdy ex_word /\
  exists t, fst (to_token (always [ex_space]) 20 ex_word (bs "x  bb c rest") (lst_init false)) = Ok t /\ tok_valid t = true.
Proof.
  split; [|split].
  - intros p (i & [<-|[]]) e He. assert (Ee : e = ex_el "space" [[ex_one " "]]) by (destruct He as [->|[[n He]|(sp & k & He)]]; [reflexivity|discriminate|apply ex_space_occurs in He; discriminate]). subst e.
    split; [reflexivity|]. intros l [<-|[]]. split; [opt_last|]. intros c Hc. rules. left. eauto.
  - intros e He. assert (Ee : e = pa_element ex_word \/ e = ex_el "b" [[ex_many "b"]; [ex_one "c"]]).
    { destruct He as [->|[[n He]|(sp & k & He)]]; [left; reflexivity|discriminate|]. apply ex_word_occurs in He. destruct He as [E|[E|[E|[E|E]]]]; inversion E; subst. right. reflexivity. }
    destruct Ee as [-> | ->]; (split; [reflexivity|]); intros l Hl; cbn in Hl; rules; (split; [opt_last|]; intros c Hc; rules; eauto).
  - eexists. split; [vm_compute; reflexivity|reflexivity].
Qed.
(* an optional part in the middle: r: .X .A? .B answers valid on "x" *)
Theorem C56_optional_in_the_middle_refuted :
  exists root fuel script t, good_path root /\ fst (to_token (always []) fuel root script (lst_init false)) = Ok t /\ tok_valid t = true /\
    ~ exists rest, el_reads (always []) False (pa_deps root) true (pa_element root) script rest.
Proof.
  exists ex_ends, 9, (bs "x"). eexists. split; [|split; [vm_compute; reflexivity|split; [reflexivity|]]].
  - split; [|intros n e H; discriminate]. intros c Hc r Hr. rules; apply ex_good_rule; discriminate.
  - assert (NC : forall d ch nx c s s', spaced_reads (always []) False d ch nx c s s' -> cont_reads (always []) False d nx c s s') by (intros d ch nx c s s' H; inversion H; subst; [assumption|match goal with A : among _ _ |- _ => destruct A as (? & []) end]).
    assert (Rn : forall d nx c s s', cont_reads (always []) False d nx (PRule (ex_rule c) CMandatory) s s' -> c <> EmptyString -> s = bs c ++ s').
    { intros d nx c s s' H Hc. inversion H; subst; [|match goal with M : may_be_absent _ |- _ => destruct M as (k & E & M); inversion E; subst; discriminate M end].
      match goal with V : is_valid CMandatory (N.of_nat ?k) = true, R : rule_times _ ?k _ _ |- _ => rename V into HV; rename R into HR; destruct k as [|[|k]] end; try discriminate HV.
      - inversion HR; subst. match goal with R : rule_times _ 0 _ _ |- _ => inversion R; subst end. match goal with R : rule_takes _ _ _ |- _ => inversion R; subst end; cbn in *; [|discriminate]. match goal with E : RConstant _ = RConstant _ |- _ => inversion E; subst end. reflexivity.
      - exfalso. clear -HV. cbn [is_valid delimiter] in HV. apply Bool.andb_true_iff in HV. destruct HV as [_ HV]. apply N.leb_le in HV. rewrite !Nat2N.inj_succ in HV. Lia.lia. }
    intros [rest R]. inversion R; subst; [|contradiction]. cbn in H. destruct H as [<-|[]].
    match goal with L : line_reads _ _ _ _ _ _ _ _ |- _ => inversion L; subst; [|contradiction] end.
    match goal with L : spaced_reads _ _ _ _ _ _ _ _ |- _ => apply NC in L; apply Rn in L; [|discriminate]; cbn in L; inversion L; subst end.
    match goal with L : line_reads _ _ _ _ _ _ [] _ |- _ => inversion L; subst; [|contradiction] end.
    match goal with L : spaced_reads _ _ _ _ _ (PRule _ COptional) [] ?s1 |- _ => apply NC in L; assert (s1 = []) end.
    { match goal with L : cont_reads _ _ _ _ _ [] ?s1 |- _ => inversion L; subst; [|reflexivity] end.
      match goal with R : rule_times _ _ [] _ |- _ => inversion R; subst; [reflexivity|] end. match goal with R : rule_takes _ [] _ |- _ => inversion R; subst; cbn in * end; [|discriminate].
      match goal with E : RConstant _ = RConstant _ |- _ => inversion E; subst end. discriminate. }
    subst. match goal with L : line_reads _ _ _ _ _ [ex_one "b"] [] _ |- _ => inversion L; subst; [|contradiction] end.
    match goal with L : spaced_reads _ _ _ _ _ _ _ _, M : line_reads _ _ _ _ _ [] _ _ |- _ => apply NC in L; apply Rn in L; [|discriminate]; discriminate L end.
Qed.
Print Assumptions C56_optional_in_the_middle_refuted.
(* the recursion guard remembers texts of abandoned lines: a: .X .a .Y | .X .a .Z | .W
   reads all of "xwz", but "x" is answered as valid *)
Definition ex_guard : element := ex_el "a" [[ex_one "x"; ex_rec "a"; ex_one "y"]; [ex_one "x"; ex_rec "a"; ex_one "z"]; [ex_one "w"]].
Theorem C56_recursion_reads_less_refuted :
  exists root fuel script t, good_path root /\ fst (to_token (always []) fuel root script (lst_init false)) = Ok t /\ tok_valid t = true /\
    el_reads (always []) False (pa_deps root) true (pa_element root) script [] /\ tok_disc t = bs "x".
Proof.
  exists (ex_path ex_guard [ex_guard]), 12, (bs "xwz"). eexists. split; [|split; [vm_compute; reflexivity|split; [reflexivity|split; [|reflexivity]]]].
  - assert (G : good_el ex_guard) by (intros c Hc r Hr; rules; apply ex_good_rule; discriminate). split; [exact G|]. intros n e H. cbn [pa_deps ex_path map mlookup] in H. match type of H with (if ?b then _ else _) = _ => destruct b end; [|discriminate]. inversion H; subst. exact G.
  - assert (K : forall c s d nx, c <> EmptyString -> cont_reads (always []) False d nx (PRule (ex_rule c) CMandatory) (bs c ++ s) s).
    { intros c s d nx Hc. apply cr_rule with (n := 1); [|reflexivity]. apply rn_more with (s1 := s); [|constructor]. apply rt_const; [reflexivity|]. destruct c; [congruence|discriminate]. }
    apply er_line with (l := [ex_one "x"; ex_rec "a"; ex_one "z"]); [right; left; reflexivity|].
    apply lr_cont with (s1 := bs "wz"); [apply sr_here; apply (K "x"%string); discriminate|].
    apply lr_cont with (s1 := bs "z"); [apply sr_here; apply cr_rec with (e := ex_guard) (n := 1); [reflexivity| |reflexivity]|].
    + apply et_more with (s1 := bs "z"); [|constructor]. apply er_line with (l := [ex_one "w"]); [right; right; left; reflexivity|]. apply lr_cont with (s1 := bs "z"); [apply sr_here; apply (K "w"%string); discriminate|constructor].
    + apply lr_cont with (s1 := []); [apply sr_here; apply (K "z"%string); discriminate|constructor].
Qed.
Print Assumptions C56_recursion_reads_less_refuted.

(* ---- C38: which line wins ---- *)
(* the lines are tried one after the other (the adapter state is threaded); chosen: the longest valid non-empty text, the first such line; otherwise the last invalid one *)
Theorem C38_best_line :
  forall channels root fuel script st t,
  fst (to_token channels fuel root script st) = Ok t ->
  exists outs st', lines_run (fun l => line_to_matches (cbm channels fuel) l (pa_deps root) script true) (el_must (pa_element root)) {| ls_rec := []; ls_pre := ls_pre st; ls_tick := ls_tick st |} outs st' /\
    chosen outs (the_must t) /\ tok_el t = pa_element root.
Proof. exact @to_token_chosen. Qed.
Print Assumptions C38_best_line.

Example C38_example :
  exists t, fst (to_token (always []) 9 (ex_path (ex_el "r" [[ex_one "a"]; [ex_one "a"; ex_one "b"]; [ex_one "ab"]; [ex_one "x"]]) []) (bs "abc") (lst_init false)) = Ok t /\
    option_map lm_index (the_must t) = Some 1.
Proof. eexists. split; vm_compute; reflexivity. Qed.
(* not the invalid line that got furthest *)
Theorem C38_furthest_invalid_line_refuted :
  exists root fuel script t, good_path root /\ fst (to_token (always []) fuel root script (lst_init false)) = Ok t /\
    el_must (pa_element root) = [[ex_one "a"; ex_one "b"; ex_one "c"]; [ex_one "x"]] /\ script = bs "abd" /\ tok_valid t = false /\ option_map lm_index (the_must t) = Some 1.
Proof.
  exists (ex_path (ex_el "r" [[ex_one "a"; ex_one "b"; ex_one "c"]; [ex_one "x"]]) []), 9, (bs "abd"). eexists. split; [|split; [vm_compute; reflexivity|]]; [|repeat split].
  split; [|intros n e H; discriminate]. intros c Hc r Hr. rules; apply ex_good_rule; discriminate.
Qed.
Print Assumptions C38_furthest_invalid_line_refuted.

(* ---- C39, C59, C60: the parts of an answer ---- *)
(* at most max occurrences, and one occurrence even if max is 0 *)
Theorem C39_at_most_the_maximum :
  forall channels root fuel script st t, fst (to_token channels fuel root script st) = Ok t ->
  (forall x, inside (NTM x) (NTok t) -> forall m, snd (delimiter (tm_card x)) = Some m -> (N.of_nat (length (tm_toks x)) <= N.max 1 m)%N) /\
  (forall x, inside (NRM x) (NTok t) -> forall m, snd (delimiter (rm_card x)) = Some m -> (N.of_nat (length (rm_results x)) <= N.max 1 m)%N).
Proof. intros channels root fuel script st t H. split; intros x Hx; apply (answer_parts channels root fuel script st t H _ Hx). Qed.
Print Assumptions C39_at_most_the_maximum.
Theorem C39_occurrences_are_valid :
  forall channels root fuel script st t x, fst (to_token channels fuel root script st) = Ok t -> inside (NTM x) (NTok t) ->
  Forall (fun y => tok_valid y = true /\ tok_el y = tm_el x) (tm_toks x).
Proof. intros channels root fuel script st t x H Hx. apply (answer_parts channels root fuel script st t H _ Hx). Qed.
Print Assumptions C39_occurrences_are_valid.
Theorem C39_valid_within_cardinality :
  (forall x, tm_valid x = true -> exists min max, delimiter (tm_card x) = (min, max) /\ (min <= N.of_nat (length (tm_toks x)))%N /\
     match max with Some m => (N.of_nat (length (tm_toks x)) <= m)%N | None => True end) /\
  (forall x, rm_valid x = true -> exists min max, delimiter (rm_card x) = (min, max) /\ (min <= N.of_nat (length (rm_results x)))%N /\
     match max with Some m => (N.of_nat (length (rm_results x)) <= m)%N | None => True end).
Proof.
  assert (K : forall c n, is_valid c n = true -> exists min max, delimiter c = (min, max) /\ (min <= n)%N /\ match max with Some m => (n <= m)%N | None => True end).
  { intros c n H. unfold is_valid in H. destruct (delimiter c) as [min max]. exists min, max. split; [reflexivity|]. destruct max as [m|]; [apply Bool.andb_true_iff in H; destruct H as [H1 H2]; split; apply N.leb_le; assumption|split; [apply N.leb_le; exact H|exact I]]. }
  split; intros x H; apply K; [apply valid_token_match in H; apply H|]. unfold rm_valid in H. apply Bool.andb_true_iff in H. apply H.
Qed.
Print Assumptions C39_valid_within_cardinality.
Definition ex_zero : cardinality := CSpecific (SRange 0 (Some 0%N)).
Definition ex_none : path := ex_path (ex_el "r" [[ex_one "x"; ICont (PToken (ex_el "b" [[ex_one "b"]]) [] (CSpecific (SRange 1 (Some 2%N))))]]) [].
Example C39_example :
  exists t x, fst (to_token (always []) 9 ex_none (bs "xbbbb") (lst_init false)) = Ok t /\ tok_valid t = true /\ tok_disc t = bs "xbb" /\ inside (NTM x) (NTok t) /\ length (tm_toks x) = 2.
Proof.
  eexists _, _. split; [vm_compute; reflexivity|]. split; [reflexivity|]. split; [reflexivity|]. split; [|shelve].
  eapply in_part; [|apply po_must]. eapply in_part; [|apply po_block; right; left; reflexivity]. eapply in_part; [|apply po_cont]. eapply in_part; [|apply po_token]. apply in_self.
  Unshelve. reflexivity.
Qed.
Theorem C39_never_more_than_the_maximum_refuted :
  exists root fuel script t x, fst (to_token (always []) fuel root script (lst_init false)) = Ok t /\ inside (NRM x) (NTok t) /\ snd (delimiter (rm_card x)) = Some 0%N /\ length (rm_results x) = 1.
Proof.
  exists (ex_path (ex_el "r" [[ex_one "x"; ICont (PRule (ex_rule "b") ex_zero)]]) []), 9, (bs "xb"). eexists _, _. split; [vm_compute; reflexivity|]. split; [|shelve].
  eapply in_part; [|apply po_must]. eapply in_part; [|apply po_block; right; left; reflexivity]. eapply in_part; [|apply po_cont]. eapply in_part; [|apply po_skip_r]. apply in_self.
  Unshelve. split; reflexivity.
Qed.
Print Assumptions C39_never_more_than_the_maximum_refuted.

(* occurrences counts, in the valid occurrences of the token, the tokens or rules of that name its chosen lines matched directly *)
Theorem C59_specifiers :
  forall x,
  tm_valid x = true <->
  is_valid (tm_card x) (N.of_nat (length (tm_toks x))) = true /\ Forall (fun t => tok_valid t = true) (tm_toks x) /\
  Forall (fun s => specific_is_valid (sp_card s) (N.of_nat (occurrences (sp_name s) (tm_toks x))) = true) (tm_specs x).
Proof. exact @valid_token_match. Qed.
Print Assumptions C59_specifiers.

Definition ex_spec (m : N) : path := ex_path (ex_el "r" [[ICont (PToken (ex_el "w" [[ex_one "a"]; [ex_one "b"]]) [{| sp_name := bs "b"; sp_card := SAmount m |}] CNonZero)]]) [].
Example C59_example :
  exists t t', fst (to_token (always []) 9 (ex_spec 2) (bs "abab") (lst_init false)) = Ok t /\ fst (to_token (always []) 9 (ex_spec 1) (bs "abab") (lst_init false)) = Ok t' /\
    tok_valid t = true /\ tok_valid t' = false.
Proof. do 2 eexists. split; [vm_compute; reflexivity|]. split; [vm_compute; reflexivity|]. split; vm_compute; reflexivity. Qed.

(* the permission to contain a prefix never lets a rule match with a prefix be valid *)
Theorem C60_no_prefix_in_valid_rules :
  forall channels root fuel script st t x y l, fst (to_token channels fuel root script st) = Ok t -> inside (NRM x) (NTok t) ->
  rm_valid x = true -> rm_results x = y :: l -> first_index y = Some 0.
Proof. intros channels root fuel script st t x y l H Hx V E. destruct (answer_parts channels root fuel script st t H _ Hx) as [_ F]. exact (F V y l E). Qed.
Print Assumptions C60_no_prefix_in_valid_rules.
Example C60_example :
  exists t x, fst (to_token (always []) 9 (ex_path (ex_el "r" [[ex_one "x"]]) []) (bs "yx") (lst_init true)) = Ok t /\ inside (NRM x) (NTok t) /\ rm_valid x = false /\ length (rm_results x) = 1.
Proof.
  eexists _, _. split; [vm_compute; reflexivity|]. split; [|shelve].
  eapply in_part; [|apply po_must]. eapply in_part; [|apply po_block; left; reflexivity]. eapply in_part; [|apply po_cont]. eapply in_part; [|apply po_rule]. apply in_self.
  Unshelve. split; reflexivity.
Qed.

(* ---- C40: not-blocks ---- *)
(* the outcome in terms of the outcomes of the lines: valid exactly when no not-line is satisfied and some not-line failed or a positive line is satisfied *)
Theorem C40_not_blocks :
  forall channels root fuel script st t ls,
  fst (to_token channels fuel root script st) = Ok t -> el_not (pa_element root) = Some ls ->
  let run := lines_run (fun l => line_to_matches (cbm channels fuel) l (pa_deps root) script true) in
  exists must_outs st1, run (el_must (pa_element root)) {| ls_rec := []; ls_pre := ls_pre st; ls_tick := ls_tick st |} must_outs st1 /\
    ((tok_valid t = false /\ tok_content t = None /\ forall j bl, ~ candidate must_outs j bl /\ ~ failed must_outs j bl) \/
     (exists not_outs st2, run ls st1 not_outs st2 /\
       (exists j bl, candidate must_outs j bl \/ failed must_outs j bl) /\
       (tok_valid t = true <->
         ~ (exists j bl, candidate not_outs j bl) /\
         ((exists j bl, failed not_outs j bl) \/ (exists j bl, candidate must_outs j bl))))).
Proof. exact @to_token_not. Qed.
Print Assumptions C40_not_blocks.

Definition ex_not : element := Element (bs "n") [[ex_one "x"]] (Some [[ex_one "y"]]).
Example C40_example :
  match fst (to_token (always []) 9 (ex_path (Element (bs "n") [[ex_one "x"]] (Some [[ex_one "xy"]])) []) (bs "xy") (lst_init false)),
        fst (to_token (always []) 9 (ex_path (Element (bs "n") [[ex_one "x"]] (Some [[ex_one "xy"]])) []) (bs "xz") (lst_init false)) with
  | Ok t, Ok t' => tok_valid t = false /\ tok_valid t' = true
  | _, _ => False
  end.
Proof. split; reflexivity. Qed.
(* the positive lines are not required *)
Theorem C40_positive_line_required_refuted :
  exists root fuel script t m, good_path root /\ fst (to_token (always []) fuel root script (lst_init false)) = Ok t /\ tok_valid t = true /\ the_must t = Some m /\ lm_valid m = false.
Proof.
  exists (ex_path ex_not []), 9, (bs "z"). eexists _, _. split; [|split; [vm_compute; reflexivity|split; [reflexivity|split; [reflexivity|reflexivity]]]].
  split; [|intros n e H; discriminate]. intros c Hc r Hr. destruct Hc as [Hc|(ls & E & Hc)]; [rules; apply ex_good_rule; discriminate|]. inversion E; subst. rules; apply ex_good_rule; discriminate.
Qed.
Print Assumptions C40_positive_line_required_refuted.

(* ---- C41: earlier calls ---- *)
(* an adapter that may not contain a prefix answers the same whatever was asked before, if the channel map is visited in one order; C58 shows that the order matters *)
Theorem C41_without_permission :
  forall channels root fuel scripts script,
  (forall k, channels k = channels 0) ->
  fst (to_token channels fuel root script (lexer_after channels root fuel scripts (lst_init false))) = fst (to_token channels fuel root script (lst_init false)).
Proof. exact @no_permission_history. Qed.
Print Assumptions C41_without_permission.

(* an adapter that may contain a prefix answers as a fresh one up to some call, and afterwards as a fresh one without the permission *)
Theorem C41_two_phases :
  forall channels root fuel scripts,
  (forall k, channels k = channels 0) -> exists before after, scripts = before ++ after /\
  (forall a x b, before = a ++ x :: b -> fst (to_token channels fuel root x (lexer_after channels root fuel a (lst_init true))) = fst (to_token channels fuel root x (lst_init true))) /\
  (forall a x b, after = a ++ x :: b -> fst (to_token channels fuel root x (lexer_after channels root fuel (before ++ a) (lst_init true))) = fst (to_token channels fuel root x (lst_init false))).
Proof. exact @history_two_phases. Qed.
Print Assumptions C41_two_phases.

Definition ex_pre : path := ex_path (ex_el "r" [[ICont (PRule (ex_rule "x") CZero)]]) [].
Theorem C41_history_independent_refuted :
  exists root fuel before script, good_path root /\
    fst (to_token (always []) fuel root script (lexer_after (always []) root fuel [before] (lst_init true))) <> fst (to_token (always []) fuel root script (lst_init true)).
Proof.
  exists (ex_path (ex_el "r" [[ex_one "x"]]) []), 9, (bs "yx"), (bs "x"). split; [|vm_compute; discriminate].
  split; [|intros n e H; discriminate]. intros c Hc r Hr. rules; apply ex_good_rule; discriminate.
Qed.
Print Assumptions C41_history_independent_refuted.

(* ---- C57: the bound, and lexing that never ends ---- *)
Theorem C57_answer_independent_of_bound :
  forall channels root n m script st,
  n <= m -> fst (to_token channels n root script st) <> NoFuel ->
  to_token channels m root script st = to_token channels n root script st.
Proof. exact @to_token_mono. Qed.
Print Assumptions C57_answer_independent_of_bound.

Theorem C57_ends_without_left_recursion :
  forall (depth : nat) (channels : nat -> list path) (root : path) (script : bytes) (st : lst) (fuel : nat),
  (forall p, among channels p -> ends depth p /\ switch_free p) -> ends depth root ->
  (length script + 1) * (2 * depth + 4) <= fuel -> fst (to_token channels fuel root script st) <> NoFuel.
Proof. intros depth channels root script st fuel Hc Hr L. exact (to_token_ends depth channels Hc root script st fuel Hr L). Qed.
Print Assumptions C57_ends_without_left_recursion.
Example C57_example : (forall p, among (always [ex_space]) p -> ends 2 p /\ switch_free p) /\ ends 2 ex_word.
Proof.
  assert (LR : forall d n r k, leads d n (PRule r k)) by (intros d [|n] r k; exact I).
  assert (Ld : forall l c, leading l c -> In (ICont c) l) by (induction 1; [left; reflexivity|right; assumption|right; assumption]).
  split.
  - intros p (i & [<-|[]]).
    assert (Ee : forall e, element_of ex_space e -> e = ex_el "space" [[ex_one " "]]) by (intros e [->|[[n He]|(sp & k & He)]]; [reflexivity|discriminate|apply ex_space_occurs in He; discriminate]).
    split; [split; [|split]|].
    + intros e He. apply Ee in He. subst. reflexivity.
    + intros c Hc. apply ex_space_occurs in Hc. subst. apply LR.
    + intros r k Hc. apply ex_space_occurs in Hc. inversion Hc; subst. apply ex_good_rule. discriminate.
    + intros e l He Hl Hi. apply Ee in He. subst. cbn in Hl. destruct Hl as [<-|[]]. destruct Hi as [Hi|[]]. discriminate.
  - split; [|split].
    + intros e [->|[[n He]|(sp & k & He)]]; [reflexivity|discriminate|]. apply ex_word_occurs in He. destruct He as [E|[E|[E|[E|E]]]]; inversion E; subst. reflexivity.
    + intros c Hc. apply ex_word_occurs in Hc. destruct Hc as [->|[->|[->|[->| ->]]]]; try apply LR. split; [|intros e' H; discriminate]. intros l c Hl Hc. apply Ld in Hc. cbn in Hl. rules; apply LR.
    + intros r k Hc. apply ex_word_occurs in Hc. destruct Hc as [E|[E|[E|[E|E]]]]; inversion E; subst; apply ex_good_rule; discriminate.
Qed.

(* r: .n*   n: .X --- .Y   on "z": the token reads nothing and is valid, so it is repeated for ever *)
Theorem C57_repeated_not_block_never_ends_refuted :
  forall fuel st,
  fst (to_token (always []) fuel d1_root (bs "z") st) = NoFuel.
Proof. exact @d1_endless. Qed.
Print Assumptions C57_repeated_not_block_never_ends_refuted.

(* a: .X .a | .a .X   on "xy": the recursion guard is cleared inside the first line *)
Theorem C57_alternating_recursion_never_ends_refuted :
  forall fuel st,
  fst (to_token (always []) fuel d2_root (bs "xy") st) = NoFuel.
Proof. exact @d2_endless. Qed.
Print Assumptions C57_alternating_recursion_never_ends_refuted.

(* r: .X .a   a: .a .X   on "x": at the end of the text the first rule of a is looked for *)
Theorem C57_expected_element_never_ends_refuted :
  forall fuel st,
  fst (to_token (always []) fuel d5_root (bs "x") st) = NoFuel.
Proof. exact @d5_endless. Qed.
Print Assumptions C57_expected_element_never_ends_refuted.

(* channel n: .X --- .Y, r: .Z   on "z": the channel reads nothing and is valid *)
Theorem C57_not_block_channel_never_ends_refuted :
  forall fuel st,
  fst (to_token (always [x_path d1_n []]) fuel d4_root (bs "z") st) = NoFuel.
Proof. exact @d4_endless. Qed.
Print Assumptions C57_not_block_channel_never_ends_refuted.

(* channel s: (switch) .w, w: " ", r: .Z   on "z": the channel turns the channels on inside itself *)
Theorem C57_switching_channel_never_ends_refuted :
  forall fuel st,
  fst (to_token (always [d3_chan]) fuel d4_root (bs "z") st) = NoFuel.
Proof. exact @d3_endless. Qed.
Print Assumptions C57_switching_channel_never_ends_refuted.

(* ---- C58: the order of the channels ---- *)
(* with at most one channel there is one order: the answer is that of any other schedule *)
Theorem C58_one_channel_one_answer :
  forall channels channels' root fuel script, same_map channels -> length (channels 0) <= 1 -> same_map channels' -> Permutation (channels 0) (channels' 0) ->
  fst (to_token channels fuel root script (lst_init false)) = fst (to_token channels' fuel root script (lst_init false)).
Proof. exact @one_channel. Qed.
Print Assumptions C58_one_channel_one_answer.
(* Go visits the channels in an unspecified order: the answer depends on it *)
Theorem C58_channel_order_irrelevant_refuted :
  exists c1 c2 root fuel script t t', good_path c1 /\ good_path c2 /\ good_path root /\
    fst (to_token (always [c1; c2]) fuel root script (lst_init false)) = Ok t /\ fst (to_token (always [c2; c1]) fuel root script (lst_init false)) = Ok t' /\
    tok_valid t = false /\ tok_valid t' = true.
Proof.
  exists (ex_path (ex_el "c" [[ex_one "-"]]) []), (ex_path (ex_el "d" [[ex_one "->"]]) []), (ex_path (ex_el "r" [[ex_one "x"; ex_one "y"]]) []), 9, (bs "x->y").
  do 2 eexists. split; [|split; [|split; [|split; [vm_compute; reflexivity|split; [vm_compute; reflexivity|split; reflexivity]]]]];
  (split; [|intros n e H; discriminate]; intros c Hc r Hr; rules; apply ex_good_rule; discriminate).
Qed.
Print Assumptions C58_channel_order_irrelevant_refuted.
(* one adapter, the same script twice: the map has the same two channels each time *)
Theorem C58_asking_twice_refuted :
  exists channels root fuel script t t', same_map channels /\ (forall p, among channels p -> good_path p) /\ good_path root /\
    fst (to_token channels fuel root script (lst_init false)) = Ok t /\
    fst (to_token channels fuel root script (lexer_after channels root fuel [script] (lst_init false))) = Ok t' /\ tok_valid t = false /\ tok_valid t' = true.
Proof.
  pose (c1 := ex_path (ex_el "c" [[ex_one "-"]]) []). pose (c2 := ex_path (ex_el "d" [[ex_one "->"]]) []).
  exists (fun k => if k <? 3 then [c1; c2] else [c2; c1]), (ex_path (ex_el "r" [[ex_one "x"; ex_one "y"]]) []), 9, (bs "x->y").
  assert (G : good_path c1 /\ good_path c2) by (split; (split; [|intros n e H; discriminate]; intros c Hc r Hr; rules; apply ex_good_rule; discriminate)).
  do 2 eexists. split; [intros j k; destruct (j <? 3), (k <? 3); try apply Permutation_refl; constructor|]. split; [|split; [|split; [vm_compute; reflexivity|split; [vm_compute; reflexivity|split; vm_compute; reflexivity]]]].
  - intros p (k & H). destruct (k <? 3); destruct H as [<-|[<-|[]]]; tauto.
  - split; [|intros n e H; discriminate]; intros c Hc r Hr; rules; apply ex_good_rule; discriminate.
Qed.
Print Assumptions C58_asking_twice_refuted.

(* ---- C61: repeated constants ---- *)
(* a run of copies followed by text in which the constant never occurs is read completely *)
Theorem C61_repeated_constant_read :
  forall name r c k n rest fuel st,
  name <> [] -> rl_content r = RConstant c -> c <> [] -> snd (delimiter k) = None -> is_valid k 0 = false -> n <> 0 -> is_valid k (N.of_nat n) = true -> absent_from c rest ->
  exists t, fst (to_token (always []) (S fuel) (rule_only name r k) (copies n c ++ rest) st) = Ok t /\ tok_valid t = true /\ tok_disc t = copies n c.
Proof. exact @repeated_alone_token. Qed.
Print Assumptions C61_repeated_constant_read.

(* a run of copies followed by text that does not continue the run but contains the constant later: no valid answer, although the run is there *)
Theorem C61_later_occurrence_spoils_the_line_refuted :
  forall name r c k n a b fuel st,
  name <> [] -> rl_content r = RConstant c -> c <> [] -> snd (delimiter k) = None -> is_valid k 0 = false -> n <> 0 -> ls_pre st = false -> ~ is_prefix c (a ++ c ++ b) ->
  exists t, fst (to_token (always []) (S fuel) (rule_only name r k) (copies n c ++ a ++ c ++ b) st) = Ok t /\ tok_valid t = false.
Proof. exact @repeated_again_token. Qed.
Print Assumptions C61_later_occurrence_spoils_the_line_refuted.

Example C61_example :
  (match fst (to_token (always []) 5 (rule_only (bs "r") (ex_rule "ab") CNonZero) (bs "ababcb") (lst_init false)) with Ok t => tok_disc t = bs "abab" | _ => False end) /\
  (match fst (to_token (always []) 5 (rule_only (bs "r") (ex_rule "ab") CNonZero) (bs "abab,ab") (lst_init false)) with Ok t => tok_valid t = false | _ => False end).
Proof. split; vm_compute; reflexivity. Qed.

(* ---- C69: what an incomplete text is told to go on with ---- *)
(* every announcement in an answer is what some container, which the root or a channel asks for and which may not be absent, starts with *)
Theorem C69_announced_element_is_expected :
  forall channels root fuel script st t n ch,
  fst (to_token channels fuel root script st) = Ok t -> inside (NBlock (BNext n ch)) (NTok t) ->
  ch = None /\ exists p c, (p = root \/ among channels p) /\ asks p c /\ needed c /\ starts_with (pa_deps p) c n.
Proof. intros channels root fuel script st t n ch H Hn. exact (to_token_next channels root fuel script st t H _ Hn). Qed.
Print Assumptions C69_announced_element_is_expected.

(* an answer with an announcement on its chosen line is not valid *)
Theorem C69_announcement_is_not_valid :
  forall e d i bl n ch, In (BNext n ch) bl -> tok_valid (Tok e d (Some (LM i bl, None))) = false.
Proof.
  intros e d i bl n ch H. cbn. destruct (forallb b_valid bl) eqn:E; [|reflexivity]. rewrite forallb_forall in E. specialize (E _ H). discriminate.
Qed.
Print Assumptions C69_announcement_is_not_valid.

Example C69_example :
  exists t, fst (to_token (always []) 9 (ex_path (ex_el "r" [[ex_one "x"; ICont (PToken (ex_el "u" [[ISwitch; ex_one "y"]; [ex_one "z"]]) [] CMandatory)]]) [ex_el "u" [[ISwitch; ex_one "y"]; [ex_one "z"]]]) (bs "x") (lst_init false)) = Ok t /\
    inside (NBlock (BNext (NConst (bs "y")) None)) (NTok t).
Proof.
  eexists. split; [vm_compute; reflexivity|]. eapply in_part; [|apply po_must]. eapply in_part; [|apply po_block; left; reflexivity]. apply in_self.
Qed.

(* ---- C70: exactness and amounts ---- *)
(* without not-blocks, a valid answer is exact unless it holds a token match without tokens *)
Theorem C70_valid_answers_exact :
  forall t, tok_valid t = true -> (forall e d m k, within (NTok (Tok e d (Some (m, k)))) (NTok t) -> k = None) ->
  (tok_exact t = true <-> forall x, within (NTM x) (NTok t) -> tm_toks x <> []).
Proof. exact exact_tok. Qed.
Print Assumptions C70_valid_answers_exact.

(* a valid answer over the whole text need not be exact: an optional token that is absent spoils it, an optional rule does not *)
Theorem C70_valid_is_exact_refuted :
  exists root script t, good_path root /\ fst (to_token (always []) 9 root script (lst_init false)) = Ok t /\
    tok_valid t = true /\ tok_disc t = script /\ tok_exact t = false.
Proof.
  exists (ex_path (ex_el "r" [[ICont (PToken (ex_el "u" [[ex_one "y"]]) [] COptional); ex_one "x"]]) []), (bs "x"). eexists. split; [|split; [vm_compute; reflexivity|]; split; [vm_compute; reflexivity|]; split; vm_compute; reflexivity].
  split; [|intros n e H; discriminate]; intros c Hc r Hr; rules; apply ex_good_rule; discriminate.
Qed.
Print Assumptions C70_valid_is_exact_refuted.
Example C70_example :
  exists t, fst (to_token (always []) 9 (ex_path (ex_el "r" [[ICont (PToken (ex_el "u" [[ex_one "y"]]) [] COptional); ex_one "x"]]) []) (bs "yx") (lst_init false)) = Ok t /\ tok_valid t = true /\ tok_exact t = true.
Proof. eexists. split; [vm_compute; reflexivity|]. split; vm_compute; reflexivity. Qed.

(* the amount tests of a token's matches: the upper bound of a range is excluded, unlike in a cardinality *)
Theorem C70_amounts :
  forall l min max, (toks_is_amount l min = true <-> length l = min) /\ (toks_is_at_least l min = true <-> min <= length l) /\
    (toks_is_in_range l min max = true <-> min <= length l < max).
Proof.
  intros l min max. unfold toks_is_in_range, toks_is_amount, toks_is_at_least. rewrite andb_true_iff, Nat.eqb_eq, !Nat.leb_le, Nat.ltb_lt. split; [split; auto|]. split; [split; auto|]. split; intros [A B]; split; auto.
Qed.
Print Assumptions C70_amounts.
Theorem C70_range_means_cardinality_refuted :
  exists l min max, is_valid (CSpecific (SRange (N.of_nat min) (Some (N.of_nat max)))) (N.of_nat (length l)) = true /\ toks_is_in_range l min max = false.
Proof. exists [Tok (ex_el "a" []) [] None], 1, 1. split; reflexivity. Qed.
Print Assumptions C70_range_means_cardinality_refuted.
