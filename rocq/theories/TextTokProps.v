(* TextTokProps.v - property C74: what a text of tokens means. *)
From Coq Require Import Strings.String Strings.Byte Lia.
From Verif Require Import Go GoLemmas DomainModel CardModel PatModel RuleModel RuleProofs PathModel Regex RegexProofs TextModel TextSpec TextTokSpec TextProofs TextProofs2 TextProofs3 TextProofs4 TextProofs5 TextTokProofs TextTokProofs2 TextTokProofs3 TextTokProofs4 TextTokProofs5.
Open Scope list_scope.

Definition named_in (rules : table rule) : bytes -> rule -> Prop := fun n r => table_find rules n = Ok r.
(* C74: a text of tokens is read exactly as the declarations it contains: name : lines --- :
   lines +++ : tests; every token is found by its name, and its tests are those of its text *)
Theorem C74_tokens_text_exactly : forall rules text l,
  (exists t, to_tokens rules text = Ok (t, map (fun x => (t_name (fst x), snd x)) l) /\ table_all t = map fst l /\
    forall k y, table_find t k = Ok y <-> In y (map fst l) /\ t_name y = k) <-> means_tokens (named_in rules) text l.
Proof. intros rules text l. apply to_tokens_exact. Qed.
(* nothing else is answered *)
Theorem C74_every_answer : forall rules text r, to_tokens rules text = Ok r ->
  exists l, means_tokens (named_in rules) text l /\ table_all (fst r) = map fst l /\ snd r = map (fun x => (t_name (fst x), snd x)) l.
Proof.
  intros rules text r H. destruct (to_tokens_inv rules text r H) as (l & E & A & F). exists l. split; [|split; [exact A|rewrite E; reflexivity]].
  apply to_tokens_exact. exists (fst r). split; [rewrite H, E at 1; reflexivity|]. split; assumption.
Qed.
(* no text makes it panic or run for ever: every other text is an error *)
Theorem C74_other_texts_are_errors : forall rules text, (forall l, ~ means_tokens (named_in rules) text l) <-> to_tokens rules text = Err.
Proof.
  intros rules text. destruct (to_tokens_tame rules text) as [P N]. split.
  - intros H. destruct (to_tokens rules text) as [r| | |] eqn:E; try contradiction; [|reflexivity]. exfalso. destruct (C74_every_answer rules text r E) as (l & M & _). exact (H l M).
  - intros E l M. apply C74_tokens_text_exactly in M. destruct M as (t & K & _). congruence.
Qed.
Definition r_a : rule := {| rl_name := bs "AA"; rl_content := RConstant (bs "a"); rl_code := bs "AA:""a"";" |}.
Definition r_b : rule := {| rl_name := bs "BB"; rl_content := RConstant (bs "b"); rl_code := bs "BB:""b"";" |}.
Definition ab_rules : table rule := ([r_a; r_b], [(bs "AA", r_a); (bs "BB", r_b)]).
Definition e_rule (r : rule) (c : option cardinality) : tinstr := TElem {| te_content := TRule r; te_card := c |}.
Definition e_token (n : bytes) (s : option (list tspec)) (c : option cardinality) : tinstr := TElem {| te_content := TRef {| tr_name := n; tr_specs := s |}; te_card := c |}.
Theorem C74_example : exists t, to_tokens ab_rules (bs "one: AA BB+ | #two{2}->AA{1,}x{3}<- # AA --- : BB +++ : aab###b; two: one{1,2}AA?;") =
    Ok (t, [(bs "one", Some [bs " aab"; bs "b"]); (bs "two", None)]) /\
  table_all t =
    [{| t_name := bs "one";
        t_must := [[e_rule r_a None; e_rule r_b (Some CNonZero)];
                   [TSwitch; e_token (bs "two") (Some [{| ts_name := bs "AA"; ts_card := SRange 1%N None |}; {| ts_name := bs "x"; ts_card := SAmount 3%N |}]) (Some (CSpecific (SAmount 2%N))); TSwitch; e_rule r_a None]];
        t_not := Some [[e_rule r_b None]] |};
     {| t_name := bs "two"; t_must := [[e_token (bs "one") None (Some (CSpecific (SRange 1%N (Some 2%N)))); e_rule r_a (Some COptional)]]; t_not := None |}].
Proof. eexists. split; vm_compute; reflexivity. Qed.
(* an undeclared rule, a name declared twice, an empty alternative, a section without its colon,
   an empty body, an empty list of tests *)
Theorem C74_example_errors :
  to_tokens ab_rules (bs "a: CC;") = Err /\ to_tokens ab_rules (bs "a: AA;a: BB;") = Err /\ to_tokens ab_rules (bs "a: AA||BB;") = Err /\
  to_tokens ab_rules (bs "a: AA --- BB;") = Err /\ to_tokens ab_rules (bs "a: ;") = Err /\ to_tokens ab_rules (bs "a: AA +++ : ;") = Err.
Proof. repeat split; vm_compute; reflexivity. Qed.

Definition lines_of (rules : table rule) (text : bytes) : option (list (list tline * option (list tline))) :=
  match to_tokens rules text with Ok r => Some (map (fun t => (t_must t, t_not t)) (table_all (fst r))) | _ => None end.
(* the claim that every # of a line switches the channels is false: one that follows an element
   without a cardinality, or an element at once, is lost *)
Theorem C74_hash_switches_refuted :
  lines_of ab_rules (bs "a: AA # BB;") = Some [([[e_rule r_a None; e_rule r_b None]], None)] /\
  lines_of ab_rules (bs "a: AA+# BB;") = Some [([[e_rule r_a (Some CNonZero); e_rule r_b None]], None)] /\
  lines_of ab_rules (bs "a: AA+ # BB;") = Some [([[e_rule r_a (Some CNonZero); TSwitch; e_rule r_b None]], None)].
Proof. repeat split; vm_compute; reflexivity. Qed.
(* so is the claim that a declaration without a body is refused *)
Theorem C74_empty_body_refused_refuted :
  lines_of ab_rules (bs "a:;b: AA;") = Some [([[e_rule r_a None]], None)] /\ lines_of ab_rules (bs "a: ;b: AA;") = None.
Proof. repeat split; vm_compute; reflexivity. Qed.
(* and the claims that the separators may directly follow an element, and that what follows the
   second section is read: here the rule CC is not declared *)
Theorem C74_separators_anywhere_refuted :
  lines_of ab_rules (bs "a: x->AA{1}<----:AA;") = None /\ lines_of ab_rules (bs "a: AA++++:x;") = None /\
  lines_of ab_rules (bs "a: AA---:BB---:CC;") = Some [([[e_rule r_a None]], Some [[e_rule r_b None]])].
Proof. repeat split; vm_compute; reflexivity. Qed.
(* what is not part of the grammar is skipped in silence *)
Theorem C74_garbage_refused_refuted : lines_of ab_rules (bs "a: AA = BB %(;") = Some [([[e_rule r_a None; e_rule r_b None]], None)].
Proof. vm_compute. reflexivity. Qed.

Print Assumptions C74_tokens_text_exactly.
Print Assumptions C74_every_answer.
Print Assumptions C74_other_texts_are_errors.
Print Assumptions C74_example.
Print Assumptions C74_example_errors.
Print Assumptions C74_hash_switches_refuted.
Print Assumptions C74_empty_body_refused_refuted.
Print Assumptions C74_separators_anywhere_refuted.
Print Assumptions C74_garbage_refused_refuted.
