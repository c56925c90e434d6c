From Coq Require Import Strings.String Strings.Byte Lia.
From Verif Require Import Go GoLemmas DomainModel DomainSpec BaseModel BaseSpec BaseProofs BuildModel BuildSpec.
Open Scope list_scope.
Lemma run6 {A B C D E F} (i : A) (j : B) (k : C) (l : D) (m : E) (n : F) ops : after6 i j k l m n ops = (a6 i ops, b6 j ops, c6 k ops, d6 l ops, e6 m ops, f6 n ops).
Proof. unfold after6, run, a6, b6, c6, d6, e6, f6, latest. runs ops. Qed.
Lemma no_empty_filled {A} (o : option (list A)) : no_empty o = filled o.
Proof. destruct o as [[|x l]|]; reflexivity. Qed.
Definition counted (o : option N) : option N := match o with Some n => if (n <? 2 ^ 63)%N then Some n else None | None => None end.
Lemma number_counted o : uint64 o -> number o = counted o.
Proof.
  intros H. destruct o as [n|]; [|reflexivity]. unfold number, counted, int_of. specialize (H n eq_refl).
  destruct (N.ltb_spec n (2 ^ 63)).
  - destruct (Z.ltb_spec (Z.of_N n) 0); [lia|]. rewrite N2Z.id. reflexivity.
  - destruct (Z.ltb_spec (Z.of_N n - 2 ^ 64) 0); [reflexivity|]. lia.
Qed.
Ltac fields := repeat match goal with |- context [latest ?i ?c ?f ?l] => let v := fresh "v" in set (v := latest i c f l) in *; clearbody v end.
Ltac made_up :=
  intros; first [rewrite run1 | rewrite run2 | rewrite run3 | rewrite run4 | rewrite run6];
  repeat match goal with H : uint64 _ |- _ => apply number_counted in H end;
  unfold a1, a2, b2, a3, b3, c3, a4, b4, c4, d4, a6, b6, c6, d6, e6, f6, flagged, named, bytes in *;
  repeat match goal with |- context [latest ?i ?c ?f ?l] => let v := fresh "v" in set (v := latest i c f l) in *; clearbody v end;
  cbv beta iota zeta delta [token_now token_content_now line_match_now matches_now rule_match_now rule_match_result_now specifier_now token_match_now token_result_now token_result_matches_now result_now mistake_now mistake_index_now valid_not_now specifier_do_not_match_now contains_next_now cardinality_is_invalid_now contains_prefix_now tree_token_now tree_line_now tree_rule_now tree_tokens_now tree_result_now path_now element_now path_line_now recursive_token_now path_rule_now path_specifier_now path_token_now token_path_now next_now choice_now serie_now group_now pattern_now discovery_now rule_element_now rule_now rule_pattern_now grammar_block_now token_reference_now grammar_element_now token_specifier_now grammar_lines_now grammar_token_now suite_line_now suite_now suite_application_now link_now include_now references_now content_now rule_result_now next_element_now match_now skip_match_now block_match_now mistake_content_now mistake_path_now answer_now tree_match_now path_container_now path_instruction_now pattern_container_now grammar_content_now grammar_instruction_now token_specifier_content_now]; 
  rewrite ?no_empty_filled; repeat match goal with H : number _ = _ |- _ => rewrite H; clear H end;
  unfold counted, filled;
  repeat match goal with
  | |- context [match ?o with Some _ => _ | None => _ end] => is_var o; destruct o
  | |- context [match ?o with [] => _ | _ :: _ => _ end] => is_var o; destruct o
  | |- context [if ?o then _ else _] => is_var o; destruct o
  | |- context [(?n <? 2 ^ 63)%N] => destruct (N.ltb_spec n (2 ^ 63))
  end;
  first [ eapply builds_ok; [reflexivity|]; intros; cbn; split; [intros ->; repeat eexists; try reflexivity; try discriminate; try assumption | intros; repeat match goal with H : exists _, _ |- _ => destruct H | H : _ /\ _ |- _ => destruct H | H : Some _ = Some _ |- _ => inversion H; clear H; subst end; try subst; first [reflexivity | congruence]]
        | eapply builds_err; [reflexivity|]; intros ? K; cbn in K; repeat match goal with H : exists _, _ |- _ => destruct H | H : _ /\ _ |- _ => destruct H | H : Some _ = Some _ |- _ => inversion H; clear H; subst end; try congruence; try lia ].
