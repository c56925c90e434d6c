(* Utf8Proofs.v - the width the model computes is the width of the first character. *)
From Coq Require Import Strings.String Strings.Byte Lia ZArith.
From Verif Require Import Go Regex Utf8Spec.
Open Scope list_scope.
Ltac Zify.zify_post_hook ::= Z.to_euclidean_division_equations.

Lemma cons_eq (a b : N) l m : a :: l = b :: m -> a = b /\ l = m.
Proof. intros E. injection E as -> ->. split; reflexivity. Qed.
Ltac parts E := repeat (apply cons_eq in E; let Q := fresh "Q" in destruct E as [Q E]).
Definition enc (l : list N) : Prop := exists c, scalar_value c /\ l = utf8 c.
Definition cont (n : N) : Prop := (0x80 <= n <= 0xBF)%N.
Ltac cases c := unfold utf8; destruct (N.ltb_spec c 0x80); [|destruct (N.ltb_spec c 0x800); [|destruct (N.ltb_spec c 0x10000)]].
Lemma enc1 a : enc [a] <-> (a < 0x80)%N.
Proof.
  split.
  - intros (c & S & E). revert E. cases c; intros E; try discriminate. parts E. clear E. lia.
  - intros H. exists a. split; [unfold scalar_value; lia|]. cases a; try lia. reflexivity.
Qed.
Lemma enc2 a b : enc [a; b] <-> (0xC2 <= a <= 0xDF)%N /\ cont b.
Proof.
  unfold cont. split.
  - intros (c & S & E). revert E. cases c; intros E; try discriminate. parts E. clear E. lia.
  - intros [H1 H2]. remember ((a - 0xC0) * 0x40 + (b - 0x80))%N as c. exists c. split; [unfold scalar_value; lia|]. cases c; try lia. f_equal; [lia|f_equal; lia].
Qed.
Lemma enc3 a b c : enc [a; b; c] <->
  ((a = 0xE0 /\ 0xA0 <= b <= 0xBF) \/ (0xE1 <= a <= 0xEC /\ cont b) \/ (a = 0xED /\ 0x80 <= b <= 0x9F) \/ (0xEE <= a <= 0xEF /\ cont b))%N /\ cont c.
Proof.
  unfold cont. split.
  - intros (v & S & E). unfold scalar_value in S. revert E. cases v; intros E; try discriminate. parts E. clear E. lia.
  - intros [H1 H2]. remember ((a - 0xE0) * 0x1000 + (b - 0x80) * 0x40 + (c - 0x80))%N as v. exists v. split; [unfold scalar_value; lia|]. cases v; try lia. f_equal; [lia|f_equal; [lia|f_equal; lia]].
Qed.
Lemma enc4 a b c d : enc [a; b; c; d] <->
  ((a = 0xF0 /\ 0x90 <= b <= 0xBF) \/ (0xF1 <= a <= 0xF3 /\ cont b) \/ (a = 0xF4 /\ 0x80 <= b <= 0x8F))%N /\ cont c /\ cont d.
Proof.
  unfold cont. split.
  - intros (v & S & E). unfold scalar_value in S. revert E. cases v; intros E; try discriminate. parts E. clear E. lia.
  - intros (H1 & H2 & H3). remember ((a - 0xF0) * 0x40000 + (b - 0x80) * 0x1000 + (c - 0x80) * 0x40 + (d - 0x80))%N as v. exists v. split; [unfold scalar_value; lia|]. cases v; try lia. f_equal; [lia|f_equal; [lia|f_equal; [lia|f_equal; lia]]].
Qed.
Lemma enc_length l : enc l -> 1 <= length l <= 4.
Proof. intros (c & _ & ->). cases c; cbn; lia. Qed.
Lemma char_enc w : character w <-> enc (map Byte.to_N w).
Proof. reflexivity. Qed.
Lemma prefix_cases s w r : s = w ++ r -> character w ->
  w = firstn (length w) s /\ ((length w = 1 /\ exists a u, s = a :: u /\ character [a]) \/
  (length w = 2 /\ exists a b u, s = a :: b :: u /\ character [a; b]) \/
  (length w = 3 /\ exists a b c u, s = a :: b :: c :: u /\ character [a; b; c]) \/
  (length w = 4 /\ exists a b c d u, s = a :: b :: c :: d :: u /\ character [a; b; c; d])).
Proof.
  intros -> C. split; [rewrite firstn_app, Nat.sub_diag, firstn_all, firstn_O, app_nil_r; reflexivity|].
  assert (L := enc_length _ (proj1 (char_enc w) C)). rewrite map_length in L.
  destruct w as [|a [|b [|c [|d [|e w]]]]]; cbn [length] in *; try lia; cbn [app].
  - left. eauto.
  - right. left. split; [reflexivity|]. eauto.
  - right. right. left. split; [reflexivity|]. exists a, b, c, r. auto.
  - right. right. right. split; [reflexivity|]. exists a, b, c, d, r. auto.
Qed.
Require Import ZifyBool.
Ltac chars := repeat match goal with
  | H : character [?a] |- _ => apply char_enc in H; cbn [map] in H; apply enc1 in H
  | H : character [?a; ?b] |- _ => apply char_enc in H; cbn [map] in H; apply enc2 in H
  | H : character [?a; ?b; ?c] |- _ => apply char_enc in H; cbn [map] in H; apply enc3 in H
  | H : character [?a; ?b; ?c; ?d] |- _ => apply char_enc in H; cbn [map] in H; apply enc4 in H
  end; unfold cont, between in *.
Ltac char1 := apply char_enc; cbn [map]; apply enc1; unfold cont, between in *.
Ltac char2 := apply char_enc; cbn [map]; apply enc2; unfold cont, between in *.
Ltac char3 := apply char_enc; cbn [map]; apply enc3; unfold cont, between in *.
Ltac char4 := apply char_enc; cbn [map]; apply enc4; unfold cont, between in *.
Ltac eqs := repeat match goal with H : _ :: _ = _ :: _ |- _ => injection H as H; subst end; try discriminate.
(* every character a text starts with is as wide as the model computes *)
Lemma width_char s w r : s = w ++ r -> character w -> length w = rune_width s.
Proof.
  intros E C. destruct (prefix_cases s w r E C) as [_ [(-> & a & u & -> & K)|[(-> & a & b & u & -> & K)|[(-> & a & b & c & u & -> & K)|(-> & a & b & c & d & u & -> & K)]]]]; clear E C; chars; unfold rune_width.
  - destruct u as [|b u]; [reflexivity|]. unfold between. destruct (_ && _)%bool eqn:B1; [lia|]. destruct u as [|c u]; [reflexivity|]. destruct ((_ || _) && _)%bool eqn:B2; [lia|]. destruct u as [|d u]; [reflexivity|]. destruct ((_ || _) && _ && _)%bool eqn:B3; [lia|reflexivity].
  - unfold between. destruct (_ && _)%bool eqn:B1; [reflexivity|lia].
  - unfold between. destruct (_ && _)%bool eqn:B1; [lia|]. destruct ((_ || _) && _)%bool eqn:B2; [reflexivity|lia].
  - unfold between. destruct (_ && _)%bool eqn:B1; [lia|]. destruct ((_ || _) && _)%bool eqn:B2; [lia|]. destruct ((_ || _) && _ && _)%bool eqn:B3; [reflexivity|lia].
Qed.
(* and if it starts with none, it is one byte *)
Lemma width_other s : (forall w r, s = w ++ r -> ~ character w) -> rune_width s = 1.
Proof.
  intros N. unfold rune_width. destruct s as [|a [|b u]]; try reflexivity.
  destruct (_ && _)%bool eqn:B1. { exfalso. apply (N [a; b] u eq_refl). char2. lia. }
  destruct u as [|c u]; [reflexivity|]. destruct ((_ || _) && _)%bool eqn:B2. { exfalso. apply (N [a; b; c] u eq_refl). char3. lia. }
  destruct u as [|d u]; [reflexivity|]. destruct ((_ || _) && _ && _)%bool eqn:B3; [|reflexivity]. exfalso. apply (N [a; b; c; d] u eq_refl). char4. lia.
Qed.
Lemma width_is s : s <> [] -> character (firstn (rune_width s) s) \/ (rune_width s = 1 /\ forall w r, s = w ++ r -> ~ character w).
Proof.
  intros N. assert (D : character (firstn (rune_width s) s) \/ ~ character (firstn (rune_width s) s)).
  { destruct s as [|a u]; [contradiction|]. clear N. 
    assert (R : forall w, character w \/ ~ character w).
    { intros w. rewrite char_enc. destruct w as [|x1 [|x2 [|x3 [|x4 [|x5 w]]]]]; cbn [map].
      - right. intros H. apply enc_length in H. cbn in H. lia.
      - rewrite enc1. lia.
      - rewrite enc2. unfold cont. lia.
      - rewrite enc3. unfold cont. lia.
      - rewrite enc4. unfold cont. lia.
      - right. intros H. apply enc_length in H. cbn in H. lia. }
    apply R. }
  destruct D as [D|D]; [left; exact D|right].
  assert (A : forall w r, s = w ++ r -> ~ character w).
  { intros w r E C. apply D. rewrite <- (width_char s w r E C). rewrite <- (proj1 (prefix_cases s w r E C)). exact C. }
  split; [apply width_other; exact A|exact A].
Qed.
Theorem first_character_width s w : s <> [] -> (first_character s w <-> w = firstn (rune_width s) s).
Proof.
  intros N. split.
  - intros (r & E & [C|[L A]]).
    + rewrite <- (width_char s w r E C). exact (proj1 (prefix_cases s w r E C)).
    + rewrite (width_other s A). subst s. destruct w as [|a [|b w]]; try discriminate. reflexivity.
  - intros ->. exists (skipn (rune_width s) s). split; [symmetry; apply firstn_skipn|]. destruct (width_is s N) as [C|[L A]]; [left; exact C|right]. split; [|exact A]. rewrite L. destruct s; [contradiction|reflexivity].
Qed.
Lemma first_not_empty s w : first_character s w -> w <> [].
Proof. intros (r & _ & [C|[L _]]) ->; [|discriminate]. apply char_enc, enc_length in C. cbn in C. lia. Qed.
