(* TextProps.v - properties C71 to C75: what the texts of the grammar mean. *)
From Coq Require Import Strings.String Strings.Byte Lia.
From Verif Require TrimProofs.
From Verif Require Import Go GoLemmas DomainModel CardModel PatModel RuleModel RuleProofs PathModel Regex TextModel TextSpec TextProofs TextProofs2 TextProofs3 TextProofs4 TextProofs5.
Open Scope list_scope.

(* C71: a text of patterns is read exactly as the declarations it contains: sections that
   end with a semicolon, the leftmost declaration of each kind in each section, names as
   long as possible, the last declaration of a name. *)
Theorem C71_patterns_text_exactly : forall text ps,
  (exists t, to_patterns text = Ok t /\ table_all t = ps) <-> means_patterns text ps.
Proof.
  intros text ps. split.
  - intros (t & H & E). apply to_patterns_exact in H. destruct H as (ps' & H & ->). cbn in E. subst. exact H.
  - intros H. exists (ps, fold_left (fun m x => minsert m (p_name x) x) ps []). split; [apply to_patterns_exact; eauto|reflexivity].
Qed.
(* a name denotes the last pattern of that name *)
Theorem C71_name_denotes_last : forall text t, to_patterns text = Ok t -> forall k p, table_find t k = Ok p <-> last_named p_name (table_all t) k p.
Proof. intros text t H k p. apply to_patterns_exact in H. destruct H as (ps & _ & ->). apply last_find. Qed.
(* no text makes it panic or run for ever: every other text is an error *)
Theorem C71_other_texts_are_errors : forall text, (forall ps, ~ means_patterns text ps) <-> to_patterns text = Err.
Proof.
  intros text. destruct (to_patterns_tame text) as [P N]. split.
  - intros H. destruct (to_patterns text) as [t| | |] eqn:E; try contradiction; [|reflexivity]. exfalso. apply (H (table_all t)). apply C71_patterns_text_exactly. eauto.
  - intros E ps H. apply C71_patterns_text_exactly in H. destruct H as (t & H & _). congruence.
Qed.
Definition sample_patterns : bytes := bs "$BIT: ""0,1,\"""";  NUM: $BIT$BIT; num: NUM @NUM ;".
Definition bit : group := {| g_name := bs "$BIT"; g_list := [bs "0"; bs "1"; [dq]] |}.
Definition num_serie : serie := {| s_name := bs "NUM"; s_list := [bit; bit] |}.
Definition num : pattern := {| p_name := bs "num"; p_list := [{| ch_serie := num_serie; ch_reverse := false |}; {| ch_serie := num_serie; ch_reverse := true |}] |}.
Theorem C71_example : exists t, to_patterns sample_patterns = Ok t /\ table_all t = [num] /\ table_find t (bs "num") = Ok num.
Proof. eexists. split; [vm_compute; reflexivity|]. split; vm_compute; reflexivity. Qed.
Theorem C71_example_meaning : means_patterns sample_patterns [num].
Proof. apply C71_patterns_text_exactly. destruct C71_example as (t & H & E & _). eauto. Qed.

(* C72: a source written in any layout, its options free of the grammar's characters, is
   read back as written. *)
Theorem C72_source_read_as_written : forall items text ps, written items text ->
  ((exists t, to_patterns text = Ok t /\ table_all t = ps) <-> items_mean items ps).
Proof. intros items text ps H. rewrite C71_patterns_text_exactly. apply written_means. exact H. Qed.
Theorem C72_layout_does_not_matter : forall items text text', written items text -> written items text' ->
  forall ps, (exists t, to_patterns text = Ok t /\ table_all t = ps) <-> (exists t, to_patterns text' = Ok t /\ table_all t = ps).
Proof. intros items text text' H H' ps. rewrite (C72_source_read_as_written _ _ _ H), (C72_source_read_as_written _ _ _ H'). reflexivity. Qed.
Definition sample_items : list item :=
  [IGroup (bs "$BIT") [bs "0"; bs "1"; [dq]]; ISerie (bs "NUM") [bs "$BIT"; bs "$BIT"]; IPattern (bs "num") [(false, bs "NUM"); (true, bs "NUM")]].
Theorem C72_example : written sample_items sample_patterns /\ items_mean sample_items [num].
Proof.
  assert (GN : group_name (bs "$BIT")). { exists (bs "BIT"). split; [reflexivity|]. split; [discriminate|]. repeat (constructor; [left; vm_compute; split; discriminate|]); constructor. }
  assert (SN : serie_name (bs "NUM")). { exists "N"%byte, (bs "UM"). split; [reflexivity|]. split; [vm_compute; split; discriminate|]. repeat (constructor; [left; vm_compute; split; discriminate|]); constructor. }
  assert (PN : pattern_name (bs "num")). { exists "n"%byte, (bs "um"). split; [reflexivity|]. split; [vm_compute; split; discriminate|]. repeat (constructor; [left; vm_compute; split; discriminate|]); constructor. }
  assert (B1 : Forall blank (bs " ")) by (repeat constructor). assert (B2 : Forall blank (bs "  ")) by (repeat constructor).
  assert (PO : forall b, b = "0"%byte \/ b = "1"%byte -> option_text [b] [b]).
  { intros b Hb. right. split; [|reflexivity]. split; [constructor; [|constructor]|intros E; discriminate]. destruct Hb as [->| ->]; (split; [|split; discriminate]); cbn; intros H; repeat destruct H as [H|H]; try discriminate; contradiction. }
  split.
  - exists [bs "$BIT: ""0,1,\"""""; bs "  NUM: $BIT$BIT"; bs " num: NUM @NUM "], []. split; [|split; [reflexivity|constructor]]. constructor; [|constructor; [|constructor; [|constructor]]].
    + change (bs "$BIT: ""0,1,\""""") with ([] ++ bs "$BIT" ++ [] ++ colon :: bs " " ++ dq :: join (bs ",") [bs "0"; bs "1"; [backslash; dq]] ++ dq :: []).
      apply line_group; try assumption; try constructor; try discriminate; [apply PO; auto|]. constructor; [apply PO; auto|]. constructor; [left; split; reflexivity|constructor].
    + change (bs "  NUM: $BIT$BIT") with (bs "  " ++ bs "NUM" ++ [] ++ colon :: bs " " ++ bs "$BIT" ++ [] ++ bs "$BIT" ++ []).
      apply line_serie; try assumption; [repeat constructor; assumption| |constructor]. apply spread_more; [constructor|exact I|]. apply spread_last. constructor.
    + change (bs " num: NUM @NUM ") with (bs " " ++ bs "num" ++ [] ++ colon :: bs " " ++ bs "NUM" ++ bs " " ++ bs "@NUM" ++ bs " ").
      apply line_pattern; try assumption; [repeat constructor; assumption| |constructor]. apply spread_more; [exact B1|discriminate|]. apply (spread_last _ (bs "@NUM")). exact B1.
  - exists [num_serie]. split; [discriminate|]. assert (LB : last_named g_name (item_groups sample_items) (bs "$BIT") bit) by (exists [], []; split; [reflexivity|]; split; [reflexivity|intros y []]).
    assert (LN : last_named s_name [num_serie] (bs "NUM") num_serie) by (exists [], []; split; [reflexivity|]; split; [reflexivity|intros y []]).
    split; [|split; [|discriminate]].
    + constructor; [|constructor]. split; [reflexivity|]. constructor; [exact LB|]. constructor; [exact LB|constructor].
    + constructor; [|constructor]. split; [reflexivity|]. constructor; [left; split; [reflexivity|]; split; [exact SN|exact LN]|]. constructor; [right; split; [reflexivity|]; exists (bs "NUM"); split; [reflexivity|exact LN]|constructor].
Qed.
(* without the restriction on the options the claim is false: an option with a colon or a
   dollar is taken for a declaration, an escaped quote inside of an option is not restored *)
Theorem C72_any_option_refuted :
  to_patterns (bs "$A:""x,a:B"";S:$A;p:S;") = Err /\ to_patterns (bs "$A:""x,$B"";S:$A;p:S;") = Err /\
  exists t g, to_patterns (bs "$A:""x\""y"";S:$A;p:S;") = Ok t /\ map (fun p => map (fun c => s_list (ch_serie c)) (p_list p)) (table_all t) = [[[g]]] /\ g_list g = [bs "x###y"].
Proof. split; [vm_compute; reflexivity|]. split; [vm_compute; reflexivity|]. eexists. eexists. split; [vm_compute; reflexivity|]. split; vm_compute; reflexivity. Qed.

(* C73: a text of rules is read exactly as the declarations it contains. *)
Theorem C73_rules_text_exactly : forall patterns text rs,
  (exists t, to_rules text patterns = Ok t /\ table_all t = rs) <-> means_rules (fun n p => exists t, patterns = Some t /\ table_find t n = Ok p) text rs.
Proof. intros patterns text rs. apply to_rules_exact. Qed.
Theorem C73_rules_found_by_name : forall patterns text t, to_rules text patterns = Ok t ->
  forall k r, table_find t k = Ok r <-> In r (table_all t) /\ rl_name r = k.
Proof. exact to_rules_find. Qed.
(* it panics exactly when a readable prefix of the rules is followed by one that has
   neither brackets nor a quoted constant *)
Theorem C73_panics_exactly : forall patterns text,
  to_rules text patterns = Panic <-> exists before d after, declares_all (opens_tight rule_name) text (before ++ d :: after) /\
    Forall (fun x => exists r, rule_of (fun n p => exists t, patterns = Some t /\ table_find t n = Ok p) x r) before /\ unbracketed (hide_quotes (snd d)).
Proof. intros patterns text. apply to_rules_panic. Qed.
Theorem C73_always_ends : forall patterns text, to_rules text patterns <> NoFuel.
Proof. intros patterns text. apply to_rules_panic. Qed.
(* a constant never contains a semicolon, nor three hashes in a row *)
Theorem C73_constants_cannot_contain : forall patterns text t r v, to_rules text patterns = Ok t -> In r (table_all t) -> rl_content r = RConstant v ->
  ~ In semi v /\ forall a b, v <> a ++ bs "###" ++ b.
Proof. exact rules_constants. Qed.
Definition num_table : option (table pattern) := Some ([num], [(bs "num", num)]).
Theorem C73_example : exists t, to_rules (bs "A:[num]+;B: ""a\""b"";C:{2}[ num num];D: ;") num_table = Ok t /\
  map (fun r => (rl_name r, rl_content r)) (table_all t) =
    [(bs "A", RPattern [num] CNonZero); (bs "B", RConstant (bs "a""b")); (bs "C", RPattern [num; num] (CSpecific (SAmount 2))); (bs "D", RConstant [])] /\
  map rl_code (table_all t) = [bs "A:[num]+;"; bs "B: ""a\""b"";"; bs "C:{2}[ num num];"; bs "D: ;"].
Proof. eexists. split; [vm_compute; reflexivity|]. split; vm_compute; reflexivity. Qed.
Theorem C73_example_panic : to_rules (bs "A:[num]+;B: num+;") num_table = Panic /\ unbracketed (bs " num+").
Proof.
  split; [vm_compute; reflexivity|]. exists (bs " num+"). split; [exists []; split; [reflexivity|]; split; [|left; reflexivity]|].
  - cbn. intros H. repeat destruct H as [H|H]; try discriminate; contradiction.
  - split.
    + intros F. apply TrimProofs.white_text_bytes in F. inversion F as [|? ? _ F']; subst. inversion F' as [|? ? H _]; subst. destruct H as [H|H]; [discriminate|cbn in H; lia].
    + intros a b z E. assert (K : In "["%byte (bs " num+")) by (rewrite E; apply in_or_app; right; left; reflexivity). cbn in K. repeat destruct K as [K|K]; try discriminate; contradiction.
Qed.
(* blanks before the colon, a missing cardinality, a trailing blank in the brackets *)
Theorem C73_example_errors : to_rules (bs "A :""x"";") num_table = Err /\ to_rules (bs "A:[num];") num_table = Err /\ to_rules (bs "A:[num ]+;") num_table = Err /\ to_rules (bs "A:;") num_table = Err.
Proof. repeat split; vm_compute; reflexivity. Qed.

Print Assumptions C71_patterns_text_exactly.
Print Assumptions C71_name_denotes_last.
Print Assumptions C71_other_texts_are_errors.
Print Assumptions C71_example.
Print Assumptions C71_example_meaning.
Print Assumptions C72_source_read_as_written.
Print Assumptions C72_layout_does_not_matter.
Print Assumptions C72_example.
Print Assumptions C72_any_option_refuted.
Print Assumptions C73_rules_text_exactly.
Print Assumptions C73_rules_found_by_name.
Print Assumptions C73_panics_exactly.
Print Assumptions C73_always_ends.
Print Assumptions C73_constants_cannot_contain.
Print Assumptions C73_example.
Print Assumptions C73_example_panic.
Print Assumptions C73_example_errors.
