(* AdeqProps.v - property theorem C92: the grammar and the events of the base language fit
   together.  conforms, kinds_agree and numbers_fit are defined in AdeqSpec.v; shipped_tokens
   base_tokens are the tokens the shipped grammar (grammars/*.alex) declares. *)
From Coq Require Import Strings.String Strings.Byte Sorting.Permutation Lia.
From Verif Require Import Go GoLemmas RuleModel PathModel LexModel CardModel AstModel TextModel SuiteModel AppModel GramModel RootModel ParseModel BaseModel EvtModel EvtSpec EvtProofs EvtProofs2 EvtProofs3 EvtProofs5 EvtProps EvtReadProps OrdProofs2 RootProofs AdeqSpec AdeqProofs AdeqProofs2 AdeqProofs3 AdeqProofs4 AdeqProofs5 AdeqProofs6 RootSpec.
Open Scope string_scope.
Open Scope list_scope.

Lemma shipped_shapes u : shipped_tokens base_tokens = Ok u -> Forall2 (fun x t => token_is x t = true) shapes (table_all (fst u)).
Proof. intros H. assert (K := shapes_check). rewrite H in K. apply all2_ok. exact K. Qed.

(* ---- C92 ---- *)
(* a syntax tree of the shipped grammar has a root *)
Theorem C92_root_exists :
  forall u n a s, shipped_tokens base_tokens = Ok u -> conforms (table_all (fst u)) blank_names False n a ->
  exists r, fst (to_root a s) = Ok (Some r) /\ ro_name r = n.
Proof.
  intros u n a s Hu Hc. assert (So := conforms_solid _ a (shipped_shapes u Hu) n Hc). destruct (root_answers a s) as [R _]. destruct (R So) as (r & Er & M). exists r. split; [exact Er|]. rewrite (mirrors_name _ _ M). inversion Hc; subst. reflexivity.
Qed.
Print Assumptions C92_root_exists.

(* and that root can be read: it means something in the sense of EvtSpec.v *)
Theorem C92_conforming_trees_mean_something :
  forall bitsize parse_float u n a s r, shipped_tokens base_tokens = Ok u -> n <> "variableName" ->
  conforms (table_all (fst u)) blank_names False (bs n) a -> kinds_agree a -> numbers_fit bitsize parse_float a ->
  fst (to_root a s) = Ok (Some r) ->
  exists x, means bitsize parse_float n r x.
Proof.
  intros b f u n a s r Hu Hn Hc Hk Hf Hr. assert (M := root_mirrors _ _ _ Hr). assert (K := conforming_reads _ (shipped_shapes u Hu) b f n a r Hc M Hk Hf). unfold reads_as in K. destruct (String.eqb_spec n "variableName") as [->|_]; [congruence|]. destruct K as (x & K & _). exists x. exact K.
Qed.
Print Assumptions C92_conforming_trees_mean_something.

(* so Execute neither fails nor panics, whatever the order of the maps *)
Theorem C92_never_fails :
  forall bitsize parse_float u n a s r, shipped_tokens base_tokens = Ok u -> n <> "variableName" ->
  conforms (table_all (fst u)) blank_names False (bs n) a -> kinds_agree a -> numbers_fit bitsize parse_float a ->
  fst (to_root a s) = Ok (Some r) ->
  (exists x, app_execute (base_events bitsize parse_float) r (Ok (VObj x))) /\
  forall o, app_execute (base_events bitsize parse_float) r o -> exists x, o = Ok (VObj x) /\ kind n x.
Proof.
  intros b f u n a s r Hu Hn Hc Hk Hf Hr. destruct (C92_conforming_trees_mean_something b f u n a s r Hu Hn Hc Hk Hf Hr) as (x & Hx).
  destruct (C92_root_exists u _ a s Hu Hc) as (r' & Er & En). rewrite Hr in Er. injection Er as <-. split; [exists x; exact (C87_right_reading_is_possible b f n r x Hx En)|exact (C88_grammatical_never_fails b f n r x Hx En)].
Qed.
Print Assumptions C92_never_fails.

(* ---- cases ---- *)
(* Parser.AST on the shipped grammar, its channels in their order, from an empty cache *)
Definition in_order : list path -> nat -> list path := fun l _ => l.
Definition no_files : bytes -> option bytes := fun _ => None.
Definition shipped_ast (n c : string) : res ast :=
  fst (app_ast no_files no_files in_order 1000 1 nil {| rt_root := bs n; rt_rest := {| mu_container := base_texts; mu_channels := base_channels |} |}
    {| tx_content := bs c; tx_prefix := false; tx_suffix := false |}).
Definition some_program : string := "-> uint ab : key_x
 int cd
 log(ab) // the input
 if ef >= 12 { cd++ }".
Definition case_check (n c : string) (f : list token -> atoken -> bool) : bool :=
  match shipped_tokens base_tokens, shipped_ast n c with Ok u, Ok (ASuccess a) => bytes_eqb (at_discovery a) (bs c) && f (table_all (fst u)) a | _, _ => false end.
Lemma case_ok n c f : case_check n c f = true -> exists u a, shipped_tokens base_tokens = Ok u /\ shipped_ast n c = Ok (ASuccess a) /\ at_discovery a = bs c /\ f (table_all (fst u)) a = true.
Proof.
  unfold case_check. generalize (shipped_tokens base_tokens) as x. generalize (shipped_ast n c) as y. intros [[m|a]| | |] [u| | |] H; try discriminate H. apply andb_prop in H. destruct H as [H1 H2]. apply bytes_eqb_eq in H1. exists u, a. auto.
Qed.
Lemma some_program_check : case_check "program" some_program (fun ts a => conforms_b ts blank_names 100 (bs "program") a && kinds_b a && plain_numbers_b 32 a) = true.
Proof. vm_compute. reflexivity. Qed.
(* the tree Parser.AST makes of some_program is one of them, and Execute gives a program *)
Example C92_case : forall parse_float, exists u a r,
  shipped_tokens base_tokens = Ok u /\ shipped_ast "program" some_program = Ok (ASuccess a) /\ at_discovery a = bs some_program /\
  conforms (table_all (fst u)) blank_names False (bs "program") a /\ kinds_agree a /\ numbers_fit 32 parse_float a /\
  fst (to_root a []) = Ok (Some r) /\ exists p, app_execute (base_events 32 parse_float) r (Ok (VObj (OProgram p))).
Proof.
  intros f. destruct (case_ok _ _ _ some_program_check) as (u & a & Hu & Ha & Ed & H). apply andb_prop in H. destruct H as [H H3]. apply andb_prop in H. destruct H as [H1 H2]. apply conforms_ok in H1. apply kinds_ok in H2. apply (plain_numbers_ok 32 f) in H3.
  destruct (C92_root_exists u _ a [] Hu H1) as (r & Er & En). exists u, a, r. repeat (split; [assumption|]). destruct (C92_conforming_trees_mean_something 32 f u "program" a [] r Hu ltac:(discriminate) H1 H2 H3 Er) as (x & Hx). exact (proj1 (C88_program_gives_a_program 32 f r x Hx En)).
Qed.
Print Assumptions C92_case.

(* the kinds matter: in append xx, xx the list is taken for a name (its root is that of the
   last token of the text xx), and Execute fails *)
Definition some_name : root := wrap "singleAssignable" "operation" (operand (name_tok "x" "x") "variableName").
Definition append_parts : list (string * list part) := [("APPEND", [t "append"]); ("WHITESPACES", [t " "; t " "]); ("listValue", [K some_name]); ("COMMA", [t ","]); ("singleAssignable", [K some_name])].
Definition append_root : root := Root (bs "append xx, xx") (bs "listAppend") (map part_node append_parts).
Lemma append_check : case_check "listAppend" "append xx, xx" (fun ts a => conforms_b ts blank_names 100 (bs "listAppend") a && plain_numbers_b 32 a) = true.
Proof. vm_compute. reflexivity. Qed.
Lemma append_root_check : match shipped_ast "listAppend" "append xx, xx" with Ok (ASuccess a) => fst (to_root a []) | _ => Err end = Ok (Some append_root).
Proof. vm_compute. reflexivity. Qed.
Lemma kid_absent n x q : x <> n -> (forall y, In y (ro_nodes q) -> absent (bs n) y) -> absent (bs n) (part_node (x, [K q])).
Proof.
  intros Ne H. assert (E : bs x <> bs n) by (intros E; apply Ne, bs_inj, E).
  assert (U : forall k, node_in k [part_node (x, [K q])] -> k = part_node (x, [K q]) \/ exists y, In y (ro_nodes q) /\ node_in k [y]).
  { intros k Hk. inversion Hk as [? ? J|? y c p ? J Hc Eq D]; subst; destruct J as [<-|[]]; [left; reflexivity|right]. destruct Hc as [<-|[]]. injection Eq as <-. clear -D. inversion D as [? ? J|? y c p ? J Hc Eq D']; subst; [exists k; split; [exact J|apply ni_here; left; reflexivity]|exists y; split; [exact J|eapply ni_deep; [left; reflexivity|eassumption..]]]. }
  split.
  - intros k Hk. destruct (U k Hk) as [->|(y & Iy & Hy)]; [exact E|exact (proj1 (H y Iy) k Hy)].
  - intros c (k & Hk & Hc). destruct (U k Hk) as [->|(y & Iy & Hy)]; [destruct Hc as [<-|[]]; exact E|exact (proj2 (H y Iy) c (ex_intro _ k (conj Hy Hc)))].
Qed.
Lemma append_fails bitsize parse_float : forall o, app_execute (base_events bitsize parse_float) append_root o <-> o = Err.
Proof.
  intros o. set (base := base_events bitsize parse_float).
  assert (E : forall x, execute_events base (bs "listValue") some_name x <-> x = Err).
  { intros x. unfold base. rewrite base_fix. change (body_of bitsize parse_float (bs "listValue")) with (Some ev_listValue). unfold ev_listValue, get_opt, name_opt, opt. change (has some_name "listAssignable") with false. change (has some_name "variableName") with false. cbn. split; [intros (q & H & _ & ->); inversion H; subst; reflexivity|intros ->; exists Err; split; [apply rn_ret|split; [discriminate|reflexivity]]]. }
  assert (F : forall x, fetch_or_execute base (bs "listValue") (part_container "listValue" (K some_name)) x <-> x = Err).
  { intros x. split; [intros H; inversion H as [X|q p Hq He]; subst; [discriminate X|injection Hq as <-; apply E, He]|intros ->; eapply fe_root; [reflexivity|apply E; reflexivity]]. }
  assert (T : forall x, trigger base (bs "listValue") append_root x <-> x = Err).
  { assert (N : forall s, scan_nodes (bs "listValue") (ro_nodes append_root) s <-> s = SFound (FNode (part_node ("listValue", [K some_name])))).
    { intros s. split.
      - intros Hs. inversion Hs as [? l' ? Pm Hl]; subst. eapply list_exact; [exact Hl|eapply Permutation_in; [exact Pm|right; right; left; reflexivity]|reflexivity|]. intros y Hy. apply (Permutation_in _ (Permutation_sym Pm)) in Hy.
        destruct Hy as [<-|[<-|[<-|[<-|[<-|[]]]]]]; [right; apply (texts_absent "listValue" "APPEND" [bs "append"]); discriminate|right; apply (texts_absent "listValue" "WHITESPACES" [bs " "; bs " "]); discriminate|left; reflexivity|right; apply (texts_absent "listValue" "COMMA" [bs ","]); discriminate|right].
        do 4 (apply kid_absent; [discriminate|]; intros y [<-|[]]). apply kid_absent; [discriminate|]. intros y [<-|[<-|[]]]; [apply (texts_absent "listValue" "FIRST_LETTER" [bs "x"])|apply (texts_absent "listValue" "MIN_MAJ_LETTERS" [bs "x"])]; discriminate.
      - intros ->. apply scan_first; [right; right; left; reflexivity|reflexivity]. }
    assert (L : forall x, event_list base (bs "listValue") (no_list (part_node ("listValue", [K some_name]))) x <-> x = Err).
    { intros x. split; [|intros ->; apply el_err, F; reflexivity]. intros H. inversion H as [|? ? ? ? ? Hf He|? ? Hf|? ? Hf]; subst; [apply F in Hf; discriminate|reflexivity|apply F in Hf; discriminate]. }
    intros x. split.
    - intros H. inversion H as [Hs|Hs|? ? Hs He|? ? Hs He|? ? Hs He]; subst; apply N in Hs; try discriminate. injection Hs as ->. apply L in He. subst. reflexivity.
    - intros ->. exact (tr_node base (bs "listValue") append_root _ Err (proj2 (N _) eq_refl) (proj2 (L Err) eq_refl)). }
  unfold base in *. rewrite execute_outcomes. change (ro_name append_root) with (bs "listAppend"). split.
  - intros (x & Hx & ->). apply base_fix in Hx. change (body_of bitsize parse_float (bs "listAppend")) with (Some ev_listAppend) in Hx. destruct Hx as (q & Hq & _ & ->). unfold ev_listAppend, trig in Hq. cbn [pbind] in Hq. inversion Hq as [|? ? ? ? Ht|? ? Ht|? ? Ht]; subst; [apply T in Ht; discriminate|reflexivity|apply T in Ht; discriminate].
  - intros ->. exists Err. split; [|reflexivity]. apply base_fix. change (body_of bitsize parse_float (bs "listAppend")) with (Some ev_listAppend). exists Err. split; [|split; [discriminate|reflexivity]]. unfold ev_listAppend, trig. cbn [pbind]. apply rn_err. apply T. reflexivity.
Qed.
Theorem C92_without_kinds_refuted :
  forall parse_float, exists u a r, shipped_tokens base_tokens = Ok u /\ shipped_ast "listAppend" "append xx, xx" = Ok (ASuccess a) /\
  conforms (table_all (fst u)) blank_names False (bs "listAppend") a /\ numbers_fit 32 parse_float a /\ ~ kinds_agree a /\
  fst (to_root a []) = Ok (Some r) /\ forall o, app_execute (base_events 32 parse_float) r o <-> o = Err.
Proof.
  intros f. destruct (case_ok _ _ _ append_check) as (u & a & Hu & Ha & Ed & H). apply andb_prop in H. destruct H as [H1 H2]. apply conforms_ok in H1. apply (plain_numbers_ok 32 f) in H2. assert (R := append_root_check). rewrite Ha in R.
  exists u, a, append_root. repeat (split; [assumption|]). split; [|split; [exact R|apply append_fails]]. intros Hk. destruct (C92_never_fails 32 f u "listAppend" a [] _ Hu ltac:(discriminate) H1 Hk H2 R) as ((x & Hx) & _). apply append_fails in Hx. discriminate Hx.
Qed.
Print Assumptions C92_without_kinds_refuted.

(* the parser also accepts texts whose tree is cut short: here the bracket is never closed *)
Lemma cut_check : case_check "forDeclaration" "for ix, vy := cd {" (fun ts a => forallb (fun e => negb (bytes_eqb (en_name e) (bs "CLOSE_BRACKET"))) (entries (at_matches a))) = true.
Proof. vm_compute. reflexivity. Qed.
Lemma bracket_needed : forallb (fun x => negb (String.eqb (fst x) "forDeclaration") || forallb (existsb (fun s => match s with R n c => String.eqb n "CLOSE_BRACKET" && negb (is_valid c 0) | P _ _ _ => false end)) (snd x)) shapes = true.
Proof. vm_compute. reflexivity. Qed.
Theorem C92_parser_cuts_short :
  exists u a, shipped_tokens base_tokens = Ok u /\ shipped_ast "forDeclaration" "for ix, vy := cd {" = Ok (ASuccess a) /\
  at_discovery a = bs "for ix, vy := cd {" /\ ~ conforms (table_all (fst u)) blank_names False (bs "forDeclaration") a.
Proof.
  destruct (case_ok _ _ _ cut_check) as (u & a & Hu & Ha & Ed & H). exists u, a. repeat (split; [assumption|]). intros Hc.
  destruct (conforms_shape _ (shipped_shapes u Hu) _ _ Hc) as (s & ls & l & i & ms & gss & Es & Hs & Hl & -> & F & B & _). apply bs_inj in Es. subst s.
  assert (Q := bracket_needed). rewrite forallb_forall in Q. specialize (Q _ Hs). cbn [fst snd] in Q. rewrite String.eqb_refl in Q. cbn [negb orb] in Q. rewrite forallb_forall in Q. specialize (Q _ Hl). apply existsb_exists in Q. destruct Q as (sh & Ish & Q). destruct sh as [n c|]; [|discriminate]. apply andb_prop in Q. destruct Q as [Qn Qc]. apply String.eqb_eq in Qn. subst n.
  destruct (Forall2_in_l _ _ _ _ F Ish) as (g & Hg & Sg). cbn in Sg. destruct Sg as [[_ V]|(w & _ & ->)]; [rewrite V in Qc; discriminate|].
  assert (I : In (EText (bs "CLOSE_BRACKET") w) (entries ms)). { assert (I : In (EText (bs "CLOSE_BRACKET") w) (nonblank (entries ms))) by (rewrite B; apply in_concat; eexists; split; [exact Hg|left; reflexivity]). apply filter_In in I. apply I. }
  rewrite forallb_forall in H. specialize (H _ I). discriminate H.
Qed.
Print Assumptions C92_parser_cuts_short.
