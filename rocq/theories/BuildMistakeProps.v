(* BuildMistakeProps.v - property theorem C95, continued: the mistakes of AstModel.v are what
   the calls of asts/mistakes/adapter.go:416-446 make of the builders of BuildModel.v. *)
From Coq Require Import Strings.String Strings.Byte Lia.
From Verif Require Import Go GoLemmas DomainModel DomainSpec CardModel CardSpec PatModel PatSpec RuleModel RuleSpec PathModel PathSpec LexModel LexSpec AstModel AstSpec AstProofs.
From Verif Require Import BaseModel BaseSpec BuildModel BuildSpec.
Open Scope list_scope.

(* a mistake as its accessors show it; parents that are empty are none *)
Definition shown (m : mistake) : x_mistake x_mistake_index (x_mistake_path bytes) mcontent :=
  let parents := filled (Some (mi_parents m)) in
  MkMistake (MkMistakeIndex (N.of_nat (mi_index m)) (N.of_nat (mi_line m)) (N.of_nat (mi_column m)))
    (match mi_container m with PcToken w => MkMistakePathToken w parents | PcRule w => MkMistakePathRule w parents end) (mi_content m).
(* adapter.go:416-446: the calls, in order *)
Definition path_calls (c : mcontainer) (parents : list bytes) : list (op3 bytes bytes (option (list bytes))) :=
  [N3; match c with PcToken w => B3 w | PcRule w => A3 w end; C3 (Some parents)].
Definition index_calls (i l c : nat) : list (op3 (option N) (option N) (option N)) :=
  [N3; A3 (Some (N.of_nat i)); B3 (Some (N.of_nat l)); C3 (Some (N.of_nat c))].
Definition mistake_calls (p : x_mistake_path bytes) (i : x_mistake_index) (content : mcontent) :=
  [N3; B3 (Some p); A3 (Some i); C3 (Some content)].

Lemma newlines_le s : newlines s <= length s.
Proof. unfold newlines. induction s as [|b s IH]; [apply le_n|]. cbn [filter]. destruct (Byte.eqb x0a b); cbn [length]; lia. Qed.
Lemma number_small n : (N.of_nat n < 2 ^ 63)%N -> number (Some (N.of_nat n)) = Some (N.of_nat n).
Proof. intros H. unfold number, int_of. apply N.ltb_lt in H. rewrite H. destruct (Z.ltb_spec (Z.of_N (N.of_nat n)) 0); [lia|]. rewrite N2Z.id. reflexivity. Qed.

Theorem C95_mistakes_are_made_by_the_builders :
  forall c parents script content i l col,
  (N.of_nat (length script) < 2 ^ 63)%N -> at_position script i l col ->
  (let* p := mistake_path_now (after3 [] [] None (path_calls c parents)) in
   let* x := mistake_index_now (after3 None None None (index_calls i l col)) in
   mistake_now (after3 None None None (mistake_calls p x content)))
  = (let* m := build_mistake c parents script content in Ok (shown m)).
Proof.
  intros c parents script content i l col S P. pose proof (newlines_le script).
  pose proof P as (b & la & E & _ & _ & Ei & El & Ec). apply position_exact in P.
  assert (I : mistake_index_now (after3 None None None (index_calls i l col)) = Ok (MkMistakeIndex (N.of_nat i) (N.of_nat l) (N.of_nat col))).
  { unfold index_calls, after3, run, mistake_index_now. cbn [fold_left step3]. assert (length la <= length script) by (subst script; rewrite app_length; lia). rewrite !number_small by lia. reflexivity. }
  unfold build_mistake. rewrite P, I. unfold shown. cbn [mi_index mi_line mi_column mi_container mi_parents mi_content].
  destruct c as [[|w ws]|[|w ws]], parents as [|q qs]; reflexivity.
Qed.
Print Assumptions C95_mistakes_are_made_by_the_builders.
Example C95_mistake_example : at_position (bs "ab") 2 0 1 /\
  (let* m := build_mistake (PcToken (bs "t")) [] (bs "ab") McNoMatch in Ok (shown m)) = Ok (MkMistake (MkMistakeIndex 2 0 1) (MkMistakePathToken (bs "t") None) McNoMatch).
Proof. split; [apply position_exact|]; vm_compute; reflexivity. Qed.
