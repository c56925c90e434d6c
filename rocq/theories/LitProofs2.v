(* LitProofs2.v - proofs for LitProps.v: reading literals. *)
From Coq Require Import Strings.String Strings.Byte Lia.
From Verif Require Import Go GoLemmas DomainModel DomainSpec CardModel CardSpec PatModel PatSpec PatProofs RuleModel RuleSpec PathModel PathSpec LexModel LexSpec OrdSpec OrdProofs2 PickSpec PickProofs2 LetterProofs ShapeProofs ProgSpec ShapeProofs2 ProgProofs ProgProofs2 ListSpec LitSpec.
Open Scope list_scope.

Definition sh_digits : shape := HRule (WClass (bs "INT_PATTERN") digits None) one.
Definition sh_float : shape := tk "floatValue" [[word "MINUS" "-" COptional; sh_digits; word "DOT" "." one; sh_digits]].
Definition sh_int : shape := tk "intValue" [[word "MINUS" "-" COptional; sh_digits]].
Definition sh_truth : shape := tk "boolValue" [[word "TRUE" "true" one]; [word "FALSE" "false" one]].
Definition sh_quote : shape := HRule (WConst (bs "QUOTATION") [x22]) one.
Definition sh_string : shape := tk "stringValue" [[HSwitch; sh_quote; HRule (WUntil (bs "EVERYTHING_EXCEPT_QUOTATION") x22) one; sh_quote]].
Definition sh_number : shape := tk "computableValue" [[sh_float]; [sh_int]].
Definition sh_prim : shape := tk "primitiveValue" [[sh_truth]; [sh_string]].
Definition sh_value : shape := tk "declarableValue" [[sh_number]; [sh_prim]].

Lemma digits_head w : is_digits w -> exists a v, w = a :: v /\ In a digits.
Proof. intros (N & F). destruct w as [|a v]; [contradiction|]. inversion F as [|? ? I _]; subst. eauto. Qed.
Lemma digits_calm w s : is_digits w -> calm (w ++ s).
Proof. intros H. destruct (digits_head w H) as (a & v & -> & I). apply calm_byte with (a := digits); [exact I|reflexivity]. Qed.
Lemma digits_no w s c : is_digits w -> misses digits (firstn 1 c) = true -> c <> [] -> ~ is_prefix c (w ++ s).
Proof. intros H M N [y E]. destruct (digits_head w H) as (a & v & -> & I). destruct c as [|b c]; [contradiction|]. cbn in E. injection E as -> _. apply (misses_ok digits [b] b M I). left. reflexivity. Qed.
Lemma byte_calm b s : in_b b (x2f :: spaces) = false -> calm (b :: s).
Proof. intros H. apply (calm_byte b s [b]); [left; reflexivity|]. cbn [misses forallb]. rewrite H. reflexivity. Qed.
Lemma blank_no_digit g b s : blank g -> ~ In b digits -> no_digit (g ++ b :: s).
Proof. intros G N c r E. destruct g as [|a g]; cbn in E; injection E as <- _; [exact N|]. inversion G as [|? ? I _]; subst. apply (misses_ok spaces digits); [reflexivity|exact I]. Qed.
Lemma dot_no_digit g s : blank g -> no_digit (g ++ bs "." ++ s).
Proof. intros G. apply blank_no_digit; [exact G|]. apply (misses_ok [x2e] digits); [reflexivity|left; reflexivity]. Qed.

Section Read.
Variable channels : nat -> list path.
Hypothesis Hc : plain_channels channels.
Hypothesis Hb : blank_channels channels.
Notation gives := (gives channels).
Notation bad := (bad channels).
Notation line_gives := (line_gives channels).
Notation line_bad := (line_bad channels).
Notation beaten := (beaten channels).
Notation picks := (picks channels).

Lemma digits_give r ch nx w s : is_want (WClass (bs "INT_PATTERN") digits None) r -> is_digits w -> no_digit s -> gives (PRule r one) ch nx (w ++ s) [number_tree w] s.
Proof.
  intros (L & E & ps & k & C & A & T) D S. unfold number_tree. rewrite <- E. apply gv_rule; [exact L|intros _; left; apply calm_quiet, digits_calm, D; exact Hb|]. apply takes_once; [reflexivity|reflexivity|reflexivity|].
  eapply letters_take; [exact C|exact A|exact T|apply D|apply D|exact S].
Qed.
Lemma digits_bad r ch nx b s : is_want (WClass (bs "INT_PATTERN") digits None) r -> calm (b :: s) -> ~ In b digits -> bad (PRule r one) ch nx (b :: s).
Proof.
  intros (L & E & ps & k & C & A & T) Q N. apply bd_rule; [exact L|discriminate|intros _; left; apply calm_quiet; [exact Hb|exact Q]| |reflexivity]. rewrite (letters_begin r ps k digits _ C A). intros (b' & t' & X & I). injection X as <- <-. contradiction.
Qed.
Lemma sign_none n c r ch nx s : is_want (WConst n c) r -> calm s -> ~ is_prefix c s -> gives (PRule r COptional) ch nx s [] s.
Proof. intros (L & _ & Ec) Q N. apply gv_no_rule; [exact L|apply calm_some, Q|intros _; left; apply calm_quiet; [exact Hb|exact Q]| |reflexivity]. rewrite (constant_begins r c s Ec). intros [_ P]. contradiction. Qed.
Lemma sign_there n c r ch nx s : is_want (WConst n c) r -> calm (c ++ s) -> gives (PRule r COptional) ch nx (c ++ s) [Text n c] s.
Proof.
  intros (L & <- & Ec) Q. apply gv_rule; [exact L|intros _; left; apply calm_quiet; [exact Hb|exact Q]|]. apply takes_once; [reflexivity|reflexivity|reflexivity|]. apply constant_takes; [exact Ec|]. destruct L as [_ L]. rewrite Ec in L. exact L.
Qed.
(* the sign, with the spaces after it, and what is read then *)
Definition sign_text (m : option bytes) : bytes := match m with Some g => bs "-" ++ g | None => [] end.
Definition good_sign (m : option bytes) : Prop := match m with Some g => blank g | None => True end.
Lemma sign_calm m w s : good_sign m -> is_digits w -> calm (sign_text m ++ w ++ s).
Proof. intros G D. destruct m as [g|]; cbn [sign_text app]; [apply byte_calm; reflexivity|apply digits_calm, D]. Qed.
Lemma sign_line r0 r1 m w s l out rest : is_want (WConst (bs "MINUS") (bs "-")) r0 -> is_want (WClass (bs "INT_PATTERN") digits None) r1 -> good_sign m -> is_digits w -> no_digit s ->
  line_gives l true true s out rest -> line_gives (ICont (PRule r0 COptional) :: ICont (PRule r1 one) :: l) true true (sign_text m ++ w ++ s) (sign_tree m ++ [number_tree w] ++ out) rest.
Proof.
  intros W0 W1 G D S H. destruct m as [g|]; cbn [sign_text sign_tree].
  - rewrite <- app_assoc. change (Text (bs "MINUS") (bs "-") :: gap_tree g) with ([Text (bs "MINUS") (bs "-")] ++ gap_tree g). rewrite <- app_assoc.
    eapply lg_more; [apply sign_there; [exact W0|apply byte_calm; reflexivity]|]. rewrite (app_assoc (gap_tree g) [number_tree w] out). eapply lg_more; [|exact H]. apply (lead_gives channels Hc Hb); [exact G|apply digits_calm, D|]. apply digits_give; assumption.
  - cbn [app]. change (number_tree w :: out) with ([] ++ [number_tree w] ++ out). eapply lg_more; [apply (sign_none _ _ _ _ _ _ W0); [apply digits_calm, D|apply digits_no; [exact D|reflexivity|discriminate]]|]. eapply lg_more; [|exact H]. apply digits_give; assumption.
Qed.
Lemma sign_line_bad r0 r1 m w s l : is_want (WConst (bs "MINUS") (bs "-")) r0 -> is_want (WClass (bs "INT_PATTERN") digits None) r1 -> good_sign m -> is_digits w -> no_digit s ->
  line_bad l true true s -> line_bad (ICont (PRule r0 COptional) :: ICont (PRule r1 one) :: l) true true (sign_text m ++ w ++ s).
Proof.
  intros W0 W1 G D S H. destruct m as [g|]; cbn [sign_text].
  - rewrite <- app_assoc. eapply lb_later; [apply sign_there; [exact W0|apply byte_calm; reflexivity]|]. eapply lb_later; [|exact H]. apply (lead_gives channels Hc Hb); [exact G|apply digits_calm, D|]. apply digits_give; assumption.
  - cbn [app]. eapply lb_later; [apply (sign_none _ _ _ _ _ _ W0); [apply digits_calm, D|apply digits_no; [exact D|reflexivity|discriminate]]|]. eapply lb_later; [|exact H]. apply digits_give; assumption.
Qed.
Lemma sign_line_none r0 r1 b s l : is_want (WConst (bs "MINUS") (bs "-")) r0 -> is_want (WClass (bs "INT_PATTERN") digits None) r1 -> in_b b (x2f :: spaces) = false -> in_b b digits = false -> Byte.eqb b x2d = false ->
  line_bad (ICont (PRule r0 COptional) :: ICont (PRule r1 one) :: l) true true (b :: s).
Proof.
  intros W0 W1 Q D M. assert (C := byte_calm b s Q). eapply lb_later; [apply (sign_none _ _ _ _ _ _ W0 C)|].
  - intros [y E]. cbn in E. injection E as -> _. discriminate.
  - apply lb_here. apply digits_bad; [exact W1|exact C|]. intros I. apply in_b_ok in I. congruence.
Qed.

(* ---- integers and floats ---- *)
Definition int_of (m : option bytes) (w : bytes) : literal := match m with Some g => LNegative g w | None => LNatural w end.
Lemma int_text m w : literal_text (int_of m w) = sign_text m ++ w.
Proof. destruct m; cbn [int_of literal_text sign_text]; [rewrite <- app_assoc|]; reflexivity. Qed.
Lemma int_tree m w : literal_tree (int_of m w) = Branch (bs "intValue") 0 (sign_tree m ++ [number_tree w]).
Proof. destruct m; reflexivity. Qed.
Lemma sh_int_is e : to sh_int e -> exists r0 r1, el_name e = bs "intValue" /\ el_not e = None /\ el_must e = [[ICont (PRule r0 COptional); ICont (PRule r1 one)]] /\ is_want (WConst (bs "MINUS") (bs "-")) r0 /\ is_want (WClass (bs "INT_PATTERN") digits None) r1.
Proof.
  intros (En & Nn & L). cbn [both] in L. destruct (el_must e) as [|[|i0 [|i1 [|? ?]]] [|? ?]] eqn:Em; try tauto. destruct L as [(K0 & K1 & _) _]. destruct K0 as (r0 & -> & K0). destruct K1 as (r1 & -> & K1). exists r0, r1. auto.
Qed.
Lemma sh_float_is e : to sh_float e -> exists r0 r1 r2 r3, el_name e = bs "floatValue" /\ el_not e = None /\ el_must e = [[ICont (PRule r0 COptional); ICont (PRule r1 one); ICont (PRule r2 one); ICont (PRule r3 one)]] /\
  is_want (WConst (bs "MINUS") (bs "-")) r0 /\ is_want (WClass (bs "INT_PATTERN") digits None) r1 /\ is_want (WConst (bs "DOT") (bs ".")) r2 /\ is_want (WClass (bs "INT_PATTERN") digits None) r3.
Proof.
  intros (En & Nn & L). cbn [both] in L. destruct (el_must e) as [|[|i0 [|i1 [|i2 [|i3 [|? ?]]]]] [|? ?]] eqn:Em; try tauto. destruct L as [(K0 & K1 & K2 & K3 & _) _]. destruct K0 as (r0 & -> & K0). destruct K1 as (r1 & -> & K1). destruct K2 as (r2 & -> & K2). destruct K3 as (r3 & -> & K3). exists r0, r1, r2, r3. auto 10.
Qed.
Lemma digits_shorter w : is_digits w -> 0 < length w.
Proof. intros (N & _). destruct w; [contradiction|cbn; lia]. Qed.
Lemma int_picks e m w rest : to sh_int e -> good_sign m -> is_digits w -> no_digit rest -> picks e true (literal_text (int_of m w) ++ rest) (literal_tree (int_of m w)) rest.
Proof.
  intros T G D R. destruct (sh_int_is e T) as (r0 & r1 & En & Nn & Em & W0 & W1). rewrite int_text, int_tree, <- En, <- app_assoc. assert (Lw := digits_shorter w D).
  apply (pk_line channels e true _ [] [ICont (PRule r0 COptional); ICont (PRule r1 one)] []); [exact Nn|exact Em| |rewrite !app_length; lia|constructor|constructor].
  rewrite <- (app_nil_r [number_tree w]). apply sign_line; auto. constructor.
Qed.
Lemma float_picks e m u g1 g2 v rest : to sh_float e -> good_literal (LFloat m u g1 g2 v) -> no_digit rest -> picks e true (literal_text (LFloat m u g1 g2 v) ++ rest) (literal_tree (LFloat m u g1 g2 v)) rest.
Proof.
  intros T (Gm & Du & G1 & G2 & Dv) R. destruct (sh_float_is e T) as (r0 & r1 & r2 & r3 & En & Nn & Em & W0 & W1 & W2 & W3). cbn [literal_text literal_tree]. fold (sign_text m). rewrite <- En, <- !app_assoc. assert (Lv := digits_shorter v Dv).
  apply (pk_line channels e true _ [] [ICont (PRule r0 COptional); ICont (PRule r1 one); ICont (PRule r2 one); ICont (PRule r3 one)] []); [exact Nn|exact Em| |rewrite !app_length; lia|constructor|constructor].
  apply sign_line; auto; [apply dot_no_digit, G1|]. rewrite (app_assoc (gap_tree g1) [Text (bs "DOT") (bs ".")]). eapply lg_more.
  - apply (lead_gives channels Hc Hb); [exact G1|apply byte_calm; reflexivity|]. apply (word_gives channels Hb (bs "DOT") (bs ".")); [exact W2|intros _; apply byte_calm; reflexivity].
  - apply one_gives. apply (lead_gives channels Hc Hb); [exact G2|apply digits_calm, Dv|]. apply digits_give; assumption.
Qed.
(* an integer is no float *)
Lemma float_bad e m w rest : to sh_float e -> good_sign m -> is_digits w -> may_follow (int_of m w) rest -> bad (PToken e [] one) true true (literal_text (int_of m w) ++ rest).
Proof.
  intros T G D F. destruct (sh_float_is e T) as (r0 & r1 & r2 & r3 & En & Nn & Em & W0 & W1 & W2 & W3). rewrite int_text, <- app_assoc. apply (tok_bad channels Hb); [exact Nn| |apply sign_calm; assumption]. rewrite Em. apply bt_bad; [|constructor].
  assert (F' : no_digit rest /\ (rest = [] \/ exists g b r, rest = g ++ b :: r /\ blank g /\ ~ In b spaces /\ b <> x2e /\ b <> x2f)) by (destruct m; exact F). clear F. destruct F' as [Nd F].
  apply sign_line_bad; auto. apply lb_here. destruct F as [->|(g & b & r & -> & Gg & N1 & N2 & N3)]; [eapply bd_end; reflexivity|].
  assert (Q : calm (b :: r)) by (exists b, r; auto). apply (lead_bad channels Hc Hb); [exact Gg|exact Q|]. apply (word_bad channels Hb (bs "DOT") (bs ".")); [exact W2|exact Q|]. intros [y E]. cbn in E. injection E as -> _. contradiction.
Qed.
(* nothing else is a number *)
Definition no_number (b : byte) : bool := negb (in_b b (x2f :: spaces)) && negb (in_b b digits) && negb (Byte.eqb b x2d).
Lemma no_number_is b : no_number b = true -> in_b b (x2f :: spaces) = false /\ in_b b digits = false /\ Byte.eqb b x2d = false.
Proof. unfold no_number. intros H. apply andb_prop in H. destruct H as [H H3]. apply andb_prop in H. destruct H as [H1 H2]. apply negb_true_iff in H1, H2, H3. auto. Qed.
Lemma int_no e b s : to sh_int e -> no_number b = true -> bad (PToken e [] one) true true (b :: s).
Proof.
  intros T N. apply no_number_is in N. destruct N as (N1 & N2 & N3). destruct (sh_int_is e T) as (r0 & r1 & En & Nn & Em & W0 & W1). apply (tok_bad channels Hb); [exact Nn| |apply byte_calm, N1]. rewrite Em. apply bt_bad; [|constructor]. apply sign_line_none; assumption.
Qed.
Lemma float_no e b s : to sh_float e -> no_number b = true -> bad (PToken e [] one) true true (b :: s).
Proof.
  intros T N. apply no_number_is in N. destruct N as (N1 & N2 & N3). destruct (sh_float_is e T) as (r0 & r1 & r2 & r3 & En & Nn & Em & W0 & W1 & W2 & W3). apply (tok_bad channels Hb); [exact Nn| |apply byte_calm, N1]. rewrite Em. apply bt_bad; [|constructor]. apply sign_line_none; assumption.
Qed.

(* ---- a token with two lines of one token each ---- *)
Lemma two_is n a b e na la nb lb : a = tk na la -> b = tk nb lb -> to (tk n [[a]; [b]]) e ->
  exists e0 e1, el_name e = bs n /\ el_not e = None /\ el_must e = [[ICont (PToken e0 [] one)]; [ICont (PToken e1 [] one)]] /\ to a e0 /\ to b e1.
Proof.
  intros -> -> (En & Nn & L). cbn [both] in L. destruct (el_must e) as [|[|i0 [|? ?]] [|[|i1 [|? ?]] [|? ?]]] eqn:Em; try tauto. destruct L as ((K0 & _) & (K1 & _) & _).
  apply has_tok in K0. destruct K0 as (e0 & -> & K0). apply has_tok in K1. destruct K1 as (e1 & -> & K1). exists e0, e1. auto.
Qed.
Lemma two_first e n c0 c1 s t rest : el_name e = bs n -> el_not e = None -> el_must e = [[ICont c0]; [ICont c1]] -> gives c0 true true s [t] rest -> length rest < length s -> beaten (length rest) true s [[ICont c1]] -> picks e true s (under n 0 t) rest.
Proof. intros En Nn Em G L B. unfold under. rewrite <- En. apply (pk_line channels e true s [] [ICont c0] [[ICont c1]] [t] rest); [exact Nn|exact Em|apply one_gives, G|exact L|constructor|exact B]. Qed.
Lemma two_second e n c0 c1 s t rest : el_name e = bs n -> el_not e = None -> el_must e = [[ICont c0]; [ICont c1]] -> bad c0 true true s -> gives c1 true true s [t] rest -> length rest < length s -> picks e true s (under n 1 t) rest.
Proof. intros En Nn Em B G L. unfold under. rewrite <- En. apply (pk_line channels e true s [[ICont c0]] [ICont c1] [] [t] rest); [exact Nn|exact Em|apply one_gives, G|exact L|apply bt_bad; [apply lb_here, B|constructor]|constructor]. Qed.
Lemma two_bad e n c0 c1 s : el_name e = bs n -> el_not e = None -> el_must e = [[ICont c0]; [ICont c1]] -> calm s -> bad c0 true true s -> bad c1 true true s -> bad (PToken e [] one) true true s.
Proof. intros En Nn Em Q B0 B1. apply (tok_bad channels Hb); [exact Nn| |exact Q]. rewrite Em. apply bt_bad; [apply lb_here, B0|]. apply bt_bad; [apply lb_here, B1|constructor]. Qed.

(* ---- numbers ---- *)
Lemma int_calm m w s : good_sign m -> is_digits w -> calm (literal_text (int_of m w) ++ s).
Proof. intros G D. rewrite int_text, <- app_assoc. apply sign_calm; assumption. Qed.
Lemma float_calm m u g1 g2 v s : good_literal (LFloat m u g1 g2 v) -> calm (literal_text (LFloat m u g1 g2 v) ++ s).
Proof. intros (Gm & Du & _). cbn [literal_text]. rewrite <- !app_assoc. apply (sign_calm m u); assumption. Qed.
Lemma int_longer m w s : is_digits w -> length s < length (literal_text (int_of m w) ++ s).
Proof. intros D. rewrite int_text, !app_length. assert (L := digits_shorter w D). lia. Qed.
Lemma float_longer m u g1 g2 v s : good_literal (LFloat m u g1 g2 v) -> length s < length (literal_text (LFloat m u g1 g2 v) ++ s).
Proof. intros (_ & _ & _ & _ & D). cbn [literal_text]. rewrite !app_length. assert (L := digits_shorter v D). lia. Qed.
Lemma int_number e m w rest : to sh_number e -> good_sign m -> is_digits w -> may_follow (int_of m w) rest -> picks e true (literal_text (int_of m w) ++ rest) (under "computableValue" 1 (literal_tree (int_of m w))) rest.
Proof.
  intros T G D F. destruct (two_is _ sh_float sh_int e _ _ _ _ eq_refl eq_refl T) as (e0 & e1 & En & Nn & Em & T0 & T1). eapply two_second; [exact En|exact Nn|exact Em|apply float_bad; assumption| |apply int_longer, D].
  apply (tok_gives channels Hb); [|apply int_calm; assumption]. apply int_picks; auto. destruct m; apply F.
Qed.
Lemma float_number e m u g1 g2 v rest : to sh_number e -> good_literal (LFloat m u g1 g2 v) -> no_digit rest -> picks e true (literal_text (LFloat m u g1 g2 v) ++ rest) (under "computableValue" 0 (literal_tree (LFloat m u g1 g2 v))) rest.
Proof.
  intros T G R. destruct (two_is _ sh_float sh_int e _ _ _ _ eq_refl eq_refl T) as (e0 & e1 & En & Nn & Em & T0 & T1). eapply two_first; [exact En|exact Nn|exact Em| |apply float_longer, G|].
  - apply (tok_gives channels Hb); [|apply float_calm, G]. apply float_picks; assumption.
  - destruct G as (Gm & Du & G1 & G2 & Dv). assert (E : literal_text (LFloat m u g1 g2 v) ++ rest = literal_text (int_of m u) ++ g1 ++ bs "." ++ g2 ++ v ++ rest) by (rewrite int_text; cbn [literal_text]; fold (sign_text m); rewrite <- !app_assoc; reflexivity).
    rewrite E. eapply bt_less; [apply one_gives, (tok_gives channels Hb); [apply int_picks; [exact T1|exact Gm|exact Du|apply dot_no_digit, G1]|apply int_calm; assumption]| |constructor]. rewrite !app_length. lia.
Qed.
Lemma number_no e b s : to sh_number e -> no_number b = true -> bad (PToken e [] one) true true (b :: s).
Proof.
  intros T N. destruct (two_is _ sh_float sh_int e _ _ _ _ eq_refl eq_refl T) as (e0 & e1 & En & Nn & Em & T0 & T1). eapply two_bad; [exact En|exact Nn|exact Em|apply byte_calm, (no_number_is b N)|apply float_no; assumption|apply int_no; assumption].
Qed.

(* ---- booleans and texts ---- *)
Definition truths := [("TRUE", "true"); ("FALSE", "false")]%string.
Lemma truth_picks e b rest : to sh_truth e -> picks e true (literal_text (LTruth b) ++ rest) (literal_tree (LTruth b)) rest.
Proof.
  intros T. destruct b; cbn [literal_text literal_tree].
  - eapply (words_there channels Hb (bs "boolValue") truths e 0 [] ("TRUE", "true")%string [("FALSE", "false")]%string); [exact T|reflexivity|reflexivity|apply byte_calm; reflexivity|discriminate|reflexivity].
  - eapply (words_there channels Hb (bs "boolValue") truths e 1 [("TRUE", "true")]%string ("FALSE", "false")%string []); [exact T|reflexivity|reflexivity|apply byte_calm; reflexivity|discriminate|reflexivity].
Qed.
Lemma truth_no e b s : to sh_truth e -> in_b b (x2f :: spaces) = false -> in_b b (bs "tf") = false -> bad (PToken e [] one) true true (b :: s).
Proof.
  intros T Q N. eapply (words_bad channels Hb (bs "boolValue") truths e true (b :: s)); [exact T|apply byte_calm, Q|]. intros n c I [y E]. destruct I as [[= <- <-]|[[= <- <-]|[]]]; cbn in E; injection E as -> _; discriminate.
Qed.
Lemma sh_string_is e : to sh_string e -> exists r0 r1 r2, el_name e = bs "stringValue" /\ el_not e = None /\ el_must e = [[ISwitch; ICont (PRule r0 one); ICont (PRule r1 one); ICont (PRule r2 one)]] /\
  is_want (WConst (bs "QUOTATION") [x22]) r0 /\ is_want (WUntil (bs "EVERYTHING_EXCEPT_QUOTATION") x22) r1 /\ is_want (WConst (bs "QUOTATION") [x22]) r2.
Proof.
  intros (En & Nn & L). cbn [both] in L. destruct (el_must e) as [|[|i0 [|i1 [|i2 [|i3 [|? ?]]]]] [|? ?]] eqn:Em; try tauto. destruct L as [(K0 & K1 & K2 & K3 & _) _]. cbn [has] in K0. subst i0. destruct K1 as (r1 & -> & K1). destruct K2 as (r2 & -> & K2). destruct K3 as (r3 & -> & K3). exists r1, r2, r3. auto 10.
Qed.
Lemma string_picks e w rest : to sh_string e -> good_literal (LQuoted w) -> picks e true (literal_text (LQuoted w) ++ rest) (literal_tree (LQuoted w)) rest.
Proof.
  intros T (Nw & Iw). destruct (sh_string_is e T) as (r0 & r1 & r2 & En & Nn & Em & W0 & (L1 & E1 & p & k & C1 & U & Tp) & W2). cbn [literal_text literal_tree]. rewrite <- En, <- !app_assoc.
  apply (pk_line channels e true _ [] [ISwitch; ICont (PRule r0 one); ICont (PRule r1 one); ICont (PRule r2 one)] []); [exact Nn|exact Em| |rewrite !app_length; cbn; lia|constructor|constructor].
  apply lg_switch. cbn [negb]. change [Text (bs "QUOTATION") [x22]; Text (bs "EVERYTHING_EXCEPT_QUOTATION") w; Text (bs "QUOTATION") [x22]] with ([Text (bs "QUOTATION") [x22]] ++ [Text (bs "EVERYTHING_EXCEPT_QUOTATION") w] ++ [Text (bs "QUOTATION") [x22]] ++ []).
  eapply lg_more; [apply (word_gives channels Hb (bs "QUOTATION") [x22]); [exact W0|intros _; apply byte_calm; reflexivity]|]. rewrite <- E1. eapply lg_more.
  - apply gv_rule; [exact L1|discriminate|]. apply takes_once; [reflexivity|reflexivity|reflexivity|]. change ([x22] ++ rest) with (x22 :: rest). eapply until_takes; eassumption.
  - change (x22 :: rest) with ([x22] ++ rest). eapply lg_more; [apply (word_gives channels Hb (bs "QUOTATION") [x22]); [exact W2|discriminate]|constructor].
Qed.
Lemma string_no e b s : to sh_string e -> in_b b (x2f :: spaces) = false -> Byte.eqb b x22 = false -> bad (PToken e [] one) true true (b :: s).
Proof.
  intros T Q N. destruct (sh_string_is e T) as (r0 & r1 & r2 & En & Nn & Em & W0 & _). assert (C := byte_calm b s Q). apply (tok_bad channels Hb); [exact Nn| |exact C]. rewrite Em. apply bt_bad; [|constructor]. apply lb_switch, lb_here. cbn [negb].
  apply (word_bad channels Hb (bs "QUOTATION") [x22]); [exact W0|exact C|]. intros [y E]. cbn in E. injection E as -> _. discriminate.
Qed.
Lemma truth_calm b s : calm (literal_text (LTruth b) ++ s).
Proof. destruct b; apply byte_calm; reflexivity. Qed.
Lemma truth_prim e b rest : to sh_prim e -> picks e true (literal_text (LTruth b) ++ rest) (under "primitiveValue" 0 (literal_tree (LTruth b))) rest.
Proof.
  intros T. destruct (two_is _ sh_truth sh_string e _ _ _ _ eq_refl eq_refl T) as (e0 & e1 & En & Nn & Em & T0 & T1). eapply two_first; [exact En|exact Nn|exact Em|apply (tok_gives channels Hb); [apply truth_picks, T0|apply truth_calm]|destruct b; cbn; lia|].
  apply bt_bad; [|constructor]. apply lb_here. destruct b; apply string_no; try reflexivity; exact T1.
Qed.
Lemma string_prim e w rest : to sh_prim e -> good_literal (LQuoted w) -> picks e true (literal_text (LQuoted w) ++ rest) (under "primitiveValue" 1 (literal_tree (LQuoted w))) rest.
Proof.
  intros T G. destruct (two_is _ sh_truth sh_string e _ _ _ _ eq_refl eq_refl T) as (e0 & e1 & En & Nn & Em & T0 & T1). eapply two_second; [exact En|exact Nn|exact Em|apply truth_no; [exact T0|reflexivity|reflexivity]| |cbn [literal_text]; rewrite !app_length; cbn; lia].
  apply (tok_gives channels Hb); [apply string_picks; assumption|apply byte_calm; reflexivity].
Qed.
Lemma prim_no e b s : to sh_prim e -> in_b b (x2f :: spaces) = false -> in_b b (bs "tf") = false -> Byte.eqb b x22 = false -> bad (PToken e [] one) true true (b :: s).
Proof.
  intros T Q N1 N2. destruct (two_is _ sh_truth sh_string e _ _ _ _ eq_refl eq_refl T) as (e0 & e1 & En & Nn & Em & T0 & T1). eapply two_bad; [exact En|exact Nn|exact Em|apply byte_calm, Q|apply truth_no; assumption|apply string_no; assumption].
Qed.

(* ---- values ---- *)
Lemma digit_head_no (P : byte -> bool) b : forallb P digits = true -> In b digits -> P b = true.
Proof. intros H I. rewrite forallb_forall in H. exact (H b I). Qed.
Lemma sign_no_prim e m w s : to sh_prim e -> is_digits w -> bad (PToken e [] one) true true (sign_text m ++ w ++ s).
Proof.
  intros T D. destruct m as [g|]; cbn [sign_text app]; [apply prim_no; [exact T|reflexivity|reflexivity|reflexivity]|]. destruct (digits_head w D) as (a & v & -> & I).
  assert (K := digit_head_no (fun b => negb (in_b b (x2f :: spaces)) && negb (in_b b (bs "tf")) && negb (Byte.eqb b x22)) a eq_refl I). cbv beta in K. apply andb_prop in K. destruct K as [K K3]. apply andb_prop in K. destruct K as [K1 K2]. apply negb_true_iff in K1, K2, K3. apply prim_no; assumption.
Qed.
Lemma group_calm l s : good_literal l -> calm (literal_text l ++ s).
Proof.
  destruct l as [w|g w|m u g1 g2 v|b|w]; intros G; [apply digits_calm, G|apply byte_calm; reflexivity|apply float_calm, G|apply truth_calm|apply byte_calm; reflexivity].
Qed.
Lemma value_picks e l rest : to sh_value e -> good_literal l -> may_follow l rest -> picks e true (literal_text l ++ rest) (value_tree l) rest.
Proof.
  intros T G F. destruct (two_is _ sh_number sh_prim e _ _ _ _ eq_refl eq_refl T) as (e0 & e1 & En & Nn & Em & T0 & T1). assert (C := group_calm l rest G).
  destruct l as [w|g w|m u g1 g2 v|b|w]; cbn [value_tree group_tree].
  - eapply two_first; [exact En|exact Nn|exact Em|apply (tok_gives channels Hb); [exact (int_number e0 None w rest T0 I G F)|exact C]|exact (int_longer None w rest G)|]. apply bt_bad; [|constructor]. apply lb_here. exact (sign_no_prim e1 None w rest T1 G).
  - destruct G as [Gg D]. eapply two_first; [exact En|exact Nn|exact Em|apply (tok_gives channels Hb); [exact (int_number e0 (Some g) w rest T0 Gg D F)|exact C]|exact (int_longer (Some g) w rest D)|]. apply bt_bad; [|constructor]. apply lb_here. apply prim_no; [exact T1|reflexivity|reflexivity|reflexivity].
  - eapply two_first; [exact En|exact Nn|exact Em|apply (tok_gives channels Hb); [exact (float_number e0 m u g1 g2 v rest T0 G F)|exact C]|exact (float_longer m u g1 g2 v rest G)|]. apply bt_bad; [|constructor]. apply lb_here. cbn [literal_text]. fold (sign_text m). rewrite <- !app_assoc. apply sign_no_prim; [exact T1|apply G].
  - eapply two_second; [exact En|exact Nn|exact Em| |apply (tok_gives channels Hb); [exact (truth_prim e1 b rest T1)|exact C]|destruct b; cbn; lia]. destruct b; apply number_no; try reflexivity; exact T0.
  - eapply two_second; [exact En|exact Nn|exact Em|apply number_no; [exact T0|reflexivity]|apply (tok_gives channels Hb); [exact (string_prim e1 w rest T1 G)|exact C]|cbn [literal_text]; rewrite !app_length; cbn; lia].
Qed.
End Read.
