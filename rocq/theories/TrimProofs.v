(* TrimProofs.v - strings.TrimSpace removes exactly the white space around a text. *)
From Coq Require Import Strings.String Strings.Byte Lia ZArith ZifyBool.
From Verif Require Import Go GoLemmas Utf8Spec Utf8Proofs.
Open Scope list_scope.
Ltac Zify.zify_post_hook ::= Z.to_euclidean_division_equations.

Definition is_white (w : bytes) : bool :=
  match w with [a] => is_space a | [a; b] => is_space2 a b | [a; b; c] => is_space3 a b c | _ => false end.
Lemma white_iff w : white w <-> is_white w = true.
Proof.
  split.
  - intros (v & W & E). unfold white_space in W. revert E. cases v; intros E.
    + destruct w as [|a [|b w]]; try discriminate. cbn [map] in E. parts E. cbn [is_white]. unfold is_space. lia.
    + destruct w as [|a [|b [|c w]]]; try discriminate. cbn [map] in E. parts E. cbn [is_white]. unfold is_space2. lia.
    + destruct w as [|a [|b [|c [|d w]]]]; try discriminate. cbn [map] in E. parts E. cbn [is_white]. unfold is_space3. lia.
    + lia.
  - destruct w as [|a [|b [|c [|d w]]]]; cbn [is_white]; try discriminate; intros H; cbn [map]; unfold is_space, is_space2, is_space3 in H.
    + exists (Byte.to_N a). split; [unfold white_space; lia|]. cases (Byte.to_N a); try lia. reflexivity.
    + remember ((Byte.to_N a - 0xC0) * 0x40 + (Byte.to_N b - 0x80))%N as v. exists v. split; [unfold white_space; lia|]. cases v; try lia. apply (f_equal2 (@cons N)); [lia|apply (f_equal2 (@cons N)); [lia|reflexivity]].
    + remember ((Byte.to_N a - 0xE0) * 0x1000 + (Byte.to_N b - 0x80) * 0x40 + (Byte.to_N c - 0x80))%N as v. exists v. split; [unfold white_space; lia|]. cases v; try lia. apply (f_equal2 (@cons N)); [lia|apply (f_equal2 (@cons N)); [lia|apply (f_equal2 (@cons N)); [lia|reflexivity]]].
Qed.
Lemma white_cases w : white w -> (exists a, w = [a] /\ is_space a = true) \/ (exists a b, w = [a; b] /\ is_space2 a b = true) \/ (exists a b c, w = [a; b; c] /\ is_space3 a b c = true).
Proof. intros H. apply white_iff in H. destruct w as [|a [|b [|c [|d w]]]]; try discriminate; cbn in H; eauto 10. Qed.
Lemma white_not_empty w : white w -> w <> [].
Proof. intros H ->. apply white_iff in H. discriminate. Qed.
(* what the bytes of white space are *)
Definition white_byte (b : byte) : Prop := is_space b = true \/ (128 <= Byte.to_N b)%N.
Lemma white_bytes w : white w -> Forall white_byte w.
Proof.
  unfold white_byte. intros H. destruct (white_cases w H) as [(a & -> & E)|[(a & b & -> & E)|(a & b & c & -> & E)]]; repeat constructor; auto; unfold is_space2, is_space3 in E; lia.
Qed.
Lemma white_text_bytes p : white_text p -> Forall white_byte p.
Proof. intros H. induction H as [|w r Hw Hr IH]; [constructor|]. apply Forall_app. split; [apply white_bytes; exact Hw|exact IH]. Qed.
Lemma white_head w w' r r' : white w -> white w' -> w ++ r = w' ++ r' -> w = w' /\ r = r'.
Proof.
  intros H H'. destruct (white_cases w H) as [(a & -> & E)|[(a & b & -> & E)|(a & b & c & -> & E)]]; destruct (white_cases w' H') as [(a' & -> & E')|[(a' & b' & -> & E')|(a' & b' & c' & -> & E')]];
  cbn [app]; intros X; injection X; intros; subst; auto; exfalso; unfold is_space, is_space2, is_space3 in *; lia.
Qed.
Lemma white_tail w w' r r' : white w -> white w' -> r ++ w = r' ++ w' -> w = w' /\ r = r'.
Proof.
  intros H H' X. apply (f_equal (@rev byte)) in X. rewrite !rev_app_distr in X. assert (R : forall u v : bytes, rev u = rev v -> u = v) by (intros u v Y; apply (f_equal (@rev byte)) in Y; rewrite !rev_involutive in Y; exact Y). revert X.
  destruct (white_cases w H) as [(a & -> & E)|[(a & b & -> & E)|(a & b & c & -> & E)]]; destruct (white_cases w' H') as [(a' & -> & E')|[(a' & b' & -> & E')|(a' & b' & c' & -> & E')]];
  cbn [app rev]; intros X; injection X; intros; subst; auto; exfalso; unfold is_space, is_space2, is_space3 in *; lia.
Qed.

(* ---- one step ---- *)
Lemma trim_left_step s : (exists w r, white w /\ s = w ++ r /\ trim_left s = trim_left r) \/ (trim_left s = s /\ forall w r, white w -> s <> w ++ r).
Proof.
  destruct s as [|a r].
  - right. split; [reflexivity|]. intros w r H E. symmetry in E. apply app_eq_nil in E. destruct E as [E _]. exact (white_not_empty w H E).
  - cbn [trim_left]. destruct (is_space a) eqn:E1. { left. exists [a], r. split; [apply white_iff; exact E1|]. auto. }
    assert (No : forall w u, white w -> a :: r = w ++ u -> (exists b u', r = b :: u' /\ is_space2 a b = true) \/ exists b c u', r = b :: c :: u' /\ is_space3 a b c = true).
    { intros w u H X. destruct (white_cases w H) as [(a' & -> & E')|[(a' & b' & -> & E')|(a' & b' & c' & -> & E')]]; cbn [app] in X; injection X; intros; subst; [congruence|left|right]; eauto. }
    destruct r as [|b r]. { right. split; [reflexivity|]. intros w u H X. destruct (No w u H X) as [(b & u' & D & _)|(b & c & u' & D & _)]; discriminate. }
    destruct (is_space2 a b) eqn:E2. { left. exists [a; b], r. split; [apply white_iff; exact E2|]. auto. }
    destruct r as [|c r]. { right. split; [reflexivity|]. intros w u H X. destruct (No w u H X) as [(b' & u' & D & K)|(b' & c & u' & D & _)]; [injection D; intros; subst; congruence|discriminate]. }
    destruct (is_space3 a b c) eqn:E3. { left. exists [a; b; c], r. split; [apply white_iff; exact E3|]. auto. }
    right. split; [reflexivity|]. intros w u H X. destruct (No w u H X) as [(b' & u' & D & K)|(b' & c' & u' & D & K)]; injection D; intros; subst; congruence.
Qed.
Lemma trim_left_white w r : white w -> trim_left (w ++ r) = trim_left r.
Proof.
  intros H. destruct (trim_left_step (w ++ r)) as [(w' & r' & H' & E & ->)|[_ N]]; [|exfalso; exact (N w r H eq_refl)]. destruct (white_head _ _ _ _ H H' E) as [_ ->]. reflexivity.
Qed.
Lemma trim_left_text p r : white_text p -> trim_left (p ++ r) = trim_left r.
Proof. intros H. induction H as [|w p Hw Hp IH]; [reflexivity|]. rewrite <- app_assoc, trim_left_white by exact Hw. exact IH. Qed.
Lemma trim_left_stop s : (forall w r, white w -> s <> w ++ r) -> trim_left s = s.
Proof. intros N. destruct (trim_left_step s) as [(w & r & H & E & _)|[E _]]; [exfalso; exact (N w r H E)|exact E]. Qed.
Lemma trim_left_parts s : exists p, s = p ++ trim_left s /\ white_text p /\ forall w r, white w -> trim_left s <> w ++ r.
Proof.
  remember (length s) as n eqn:L. assert (B : length s <= n) by lia. clear L. revert s B. induction n as [|n IH]; intros s B.
  - destruct s; [|cbn in B; lia]. exists []. split; [reflexivity|]. split; [constructor|]. destruct (trim_left_step []) as [(w & r & H & E & _)|[_ N]]; [|exact N]. symmetry in E. apply app_eq_nil in E. destruct E as [E _]. destruct (white_not_empty w H E).
  - destruct (trim_left_step s) as [(w & r & H & -> & ->)|[-> N]].
    + destruct (IH r) as (p & E & P & N). { rewrite app_length in B. destruct w; [destruct (white_not_empty _ H eq_refl)|cbn in B; lia]. } exists (w ++ p). rewrite <- app_assoc, <- E. split; [reflexivity|]. split; [constructor; assumption|exact N].
    + exists []. split; [reflexivity|]. split; [constructor|exact N].
Qed.

Definition trim_right (s : bytes) : bytes := rev (trim_back (rev s)).
Lemma trim_back_step s : (exists w r, white w /\ s = rev w ++ r /\ trim_back s = trim_back r) \/ (trim_back s = s /\ forall w r, white w -> s <> rev w ++ r).
Proof.
  destruct s as [|a r].
  - right. split; [reflexivity|]. intros w r H E. symmetry in E. apply app_eq_nil in E. destruct E as [E _]. apply (f_equal (@rev byte)) in E. rewrite rev_involutive in E. exact (white_not_empty w H E).
  - cbn [trim_back]. destruct (is_space a) eqn:E1. { left. exists [a], r. split; [apply white_iff; exact E1|]. auto. }
    assert (No : forall w u, white w -> a :: r = rev w ++ u -> (exists b u', r = b :: u' /\ is_space2 b a = true) \/ exists b c u', r = b :: c :: u' /\ is_space3 c b a = true).
    { intros w u H X. destruct (white_cases w H) as [(a' & -> & E')|[(a' & b' & -> & E')|(a' & b' & c' & -> & E')]]; cbn [app rev] in X; injection X; intros; subst; [congruence|left|right]; eauto. }
    destruct r as [|b r]. { right. split; [reflexivity|]. intros w u H X. destruct (No w u H X) as [(b & u' & D & _)|(b & c & u' & D & _)]; discriminate. }
    destruct (is_space2 b a) eqn:E2. { left. exists [b; a], r. split; [apply white_iff; exact E2|]. auto. }
    destruct r as [|c r]. { right. split; [reflexivity|]. intros w u H X. destruct (No w u H X) as [(b' & u' & D & K)|(b' & c & u' & D & _)]; [injection D; intros; subst; congruence|discriminate]. }
    destruct (is_space3 c b a) eqn:E3. { left. exists [c; b; a], r. split; [apply white_iff; exact E3|]. auto. }
    right. split; [reflexivity|]. intros w u H X. destruct (No w u H X) as [(b' & u' & D & K)|(b' & c' & u' & D & K)]; injection D; intros; subst; congruence.
Qed.
Lemma trim_right_step s : (exists w r, white w /\ s = r ++ w /\ trim_right s = trim_right r) \/ (trim_right s = s /\ forall w r, white w -> s <> r ++ w).
Proof.
  unfold trim_right. destruct (trim_back_step (rev s)) as [(w & r & H & E & ->)|[-> N]].
  - left. exists w, (rev r). split; [exact H|]. rewrite rev_involutive. split; [|reflexivity]. apply (f_equal (@rev byte)) in E. rewrite rev_involutive, rev_app_distr, rev_involutive in E. exact E.
  - right. split; [apply rev_involutive|]. intros w r H ->. apply (N w (rev r) H). apply rev_app_distr.
Qed.
Lemma trim_right_white w r : white w -> trim_right (r ++ w) = trim_right r.
Proof.
  intros H. destruct (trim_right_step (r ++ w)) as [(w' & r' & H' & E & ->)|[_ N]]; [|exfalso; exact (N w r H eq_refl)]. destruct (white_tail _ _ _ _ H H' E) as [_ ->]. reflexivity.
Qed.
Lemma trim_right_text r q : white_text q -> trim_right (r ++ q) = trim_right r.
Proof. intros H. revert r. induction H as [|w p Hw Hp IH]; intros r; [rewrite app_nil_r; reflexivity|]. rewrite app_assoc, IH. apply trim_right_white. exact Hw. Qed.
Lemma trim_right_stop s : (forall w r, white w -> s <> r ++ w) -> trim_right s = s.
Proof. intros N. destruct (trim_right_step s) as [(w & r & H & E & _)|[E _]]; [exfalso; exact (N w r H E)|exact E]. Qed.
Lemma white_text_app p q : white_text p -> white_text q -> white_text (p ++ q).
Proof. intros H K. induction H as [|w p Hw Hp IH]; [exact K|]. rewrite <- app_assoc. constructor; assumption. Qed.
Lemma white_one w : white w -> white_text w.
Proof. intros H. rewrite <- (app_nil_r w). constructor; [exact H|constructor]. Qed.
Lemma trim_right_parts s : exists q, s = trim_right s ++ q /\ white_text q /\ forall w r, white w -> trim_right s <> r ++ w.
Proof.
  remember (length s) as n eqn:L. assert (B : length s <= n) by lia. clear L. revert s B. induction n as [|n IH]; intros s B.
  - destruct s; [|cbn in B; lia]. exists []. split; [reflexivity|]. split; [constructor|]. destruct (trim_right_step []) as [(w & r & H & E & _)|[_ N]]; [|exact N]. symmetry in E. apply app_eq_nil in E. destruct E as [_ E]. destruct (white_not_empty w H E).
  - destruct (trim_right_step s) as [(w & r & H & -> & ->)|[-> N]].
    + destruct (IH r) as (p & E & P & N). { rewrite app_length in B. destruct w; [destruct (white_not_empty _ H eq_refl)|cbn in B; lia]. } exists (p ++ w). rewrite app_assoc, <- E. split; [reflexivity|]. split; [apply white_text_app; [exact P|apply white_one; exact H]|exact N].
    + exists []. split; [rewrite app_nil_r; reflexivity|]. split; [constructor|exact N].
Qed.
(* the first byte of white space is not inside a white space character *)
Lemma white_start q b r : white_text q -> q = b :: r -> is_space b = true \/ (0xC2 <= Byte.to_N b)%N.
Proof.
  intros H. destruct H as [|w p Hw Hp]; [discriminate|]. destruct (white_cases w Hw) as [(a & -> & E)|[(a & b' & -> & E)|(a & b' & c & -> & E)]]; cbn [app]; intros X; injection X; intros; subst; auto; unfold is_space2, is_space3 in E; right; lia.
Qed.
Lemma no_white_across t q : t <> [] -> white_text q -> (forall w r, white w -> t <> w ++ r) -> forall w r, white w -> t ++ q <> w ++ r.
Proof.
  intros Ne Q N w r H E.
  destruct (white_cases w H) as [(a & -> & S)|[(a & b & -> & S)|(a & b & c & -> & S)]]; destruct t as [|x [|y [|z t]]]; try contradiction; cbn [app] in E; injection E; clear E; intros.
  all: try (subst; exact (N _ _ H eq_refl)).
  all: match goal with X : ?q = _, Q : white_text ?q |- _ => destruct (white_start _ _ _ Q X) as [S'|S'] end; unfold is_space, is_space2, is_space3 in *; lia.
Qed.

(* ---- strings.TrimSpace ---- *)
Lemma trim_space_iff s t : trimmed s t <-> trim_space s = t.
Proof.
  change (trim_space s) with (trim_right (trim_left s)). split.
  - intros (p & q & -> & P & Q & F & L). rewrite trim_left_text by exact P. destruct t as [|b t].
    + cbn [app]. rewrite <- (app_nil_r q). rewrite trim_left_text by exact Q. reflexivity.
    + rewrite trim_left_stop by (apply no_white_across; [discriminate|exact Q|exact F]). rewrite trim_right_text by exact Q. apply trim_right_stop. exact L.
  - intros <-. destruct (trim_left_parts s) as (p & E & P & F). destruct (trim_right_parts (trim_left s)) as (q & E' & Q & L). exists p, q.
    split; [rewrite <- E'; exact E|]. split; [exact P|]. split; [exact Q|]. split; [|exact L]. intros w r H X. apply (F w (r ++ q) H). rewrite app_assoc, <- X. exact E'.
Qed.
Lemma trim_space_trimmed s : trimmed s (trim_space s).
Proof. apply trim_space_iff. reflexivity. Qed.
Lemma trim_blank s : trim_space s = [] <-> white_text s.
Proof.
  rewrite <- trim_space_iff. split.
  - intros (p & q & -> & P & Q & _). apply white_text_app; assumption.
  - intros H. exists s, []. rewrite !app_nil_r. split; [reflexivity|]. split; [exact H|]. split; [constructor|]. split; intros w r W E; symmetry in E; apply app_eq_nil in E; destruct E as [E1 E2]; apply (white_not_empty w W); assumption.
Qed.
Lemma trimmed_self s t : trimmed s t -> trimmed t t.
Proof. intros (p & q & _ & _ & _ & F & L). exists [], []. rewrite app_nil_r. repeat split; try constructor; assumption. Qed.
Lemma trim_space_idem s : trim_space (trim_space s) = trim_space s.
Proof. apply trim_space_iff. apply (trimmed_self s). apply trim_space_trimmed. Qed.
Lemma trim_space_in c s : In c s -> white_byte c \/ In c (trim_space s).
Proof.
  destruct (trim_space_trimmed s) as (p & q & E & P & Q & _). intros H. rewrite E in H. apply white_text_bytes in P, Q. rewrite Forall_forall in P, Q.
  apply in_app_or in H. destruct H as [H|H]; [left; auto|]. apply in_app_or in H. destruct H as [H|H]; [right; exact H|left; auto].
Qed.
(* a text between plain bytes *)
Definition plain_byte (b : byte) : Prop := (Byte.to_N b < 128)%N /\ is_space b = false.
Lemma white_last w : white w -> forall r b, w = r ++ [b] -> white_byte b.
Proof. intros H r b ->. apply white_bytes in H. apply Forall_app in H. destruct H as [_ H]. inversion H. assumption. Qed.
Lemma trimmed_plain t : (forall b r, t = b :: r -> plain_byte b) -> (forall a b, t = a ++ [b] -> plain_byte b) -> trimmed t t.
Proof.
  assert (N : forall b, plain_byte b -> ~ white_byte b) by (intros b [P1 P2] [K|K]; [congruence|lia]).
  intros H1 H2. exists [], []. rewrite app_nil_r. split; [reflexivity|]. split; [constructor|]. split; [constructor|]. split.
  - intros w r W E. assert (B := white_bytes w W). destruct w as [|b w]; [exact (white_not_empty _ W eq_refl)|]. inversion B; subst. exact (N b (H1 b (w ++ r) eq_refl) H3).
  - intros w r W E. destruct (exists_last (white_not_empty w W)) as (w' & b & Ew). apply (N b); [|exact (white_last w W w' b Ew)]. apply (H2 (r ++ w') b). rewrite E, Ew. apply app_assoc.
Qed.
Lemma trim_space_id2 t : (forall b r, t = b :: r -> plain_byte b) -> (forall a b, t = a ++ [b] -> plain_byte b) -> trim_space t = t.
Proof. intros H1 H2. apply trim_space_iff. apply trimmed_plain; assumption. Qed.
Lemma trim_space_id s : (forall c, In c s -> plain_byte c) -> trim_space s = s.
Proof. intros H. apply trim_space_id2; intros; apply H; subst; [left; reflexivity|apply in_or_app; right; left; reflexivity]. Qed.
Lemma digit_plain c : is_digit c = true -> plain_byte c.
Proof. destruct c; intros H; try discriminate H; split; reflexivity. Qed.
