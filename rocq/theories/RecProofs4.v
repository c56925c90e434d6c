(* RecProofs4.v - proofs for RecProps.v: reading list types nested to any depth. *)
From Coq Require Import Strings.String Strings.Byte Lia.
From Verif Require Import Go GoLemmas DomainModel DomainSpec CardModel CardSpec PatModel PatSpec PatProofs RuleModel RuleSpec PathModel PathSpec LexModel LexSpec AstModel OrdSpec OrdProofs2 PickSpec PickProofs2 LetterProofs ShapeProofs ProgSpec ShapeProofs2 ProgProofs ProgProofs2 RecSpec RecProofs3 ListSpec.
Open Scope list_scope.

Definition sh_with (x : shape) : shape := tk "declarativeType" [[sh_primitive]; [sh_computable]; [x]].
Definition sh_list (x : shape) : shape := tk "listType" [[word "LIST" "list" one; word "LESS" "<" one; x; word "MORE" ">" one]].
(* the type at the root; the one a reference leads to; the one inside that; the list a reference leads to *)
Definition sh_a : shape := sh_with (sh_list (HRec (bs "declarativeType"))).
Definition sh_c : shape := sh_with (HRec (bs "listType")).
Definition sh_b : shape := sh_with (sh_list sh_c).
Definition sh_l : shape := sh_list sh_a.
Definition sh_ldecl : shape := tk "variableDeclaration" [[sh_a; sh_name]].

Section Read.
Variable channels : nat -> list path.
Hypothesis Hc : plain_channels channels.
Hypothesis Hb : blank_channels channels.
Variable lookup : bytes -> option element.
Variables eb el : element.
Hypothesis Lb : lookup (bs "declarativeType") = Some eb.
Hypothesis Ll : lookup (bs "listType") = Some el.
Hypothesis Tb : to sh_b eb.
Hypothesis Tl : to sh_l el.
Notation finds := (finds channels lookup).
Notation lacks := (lacks channels lookup).
Notation line_finds := (line_finds channels lookup).
Notation outdone := (outdone channels lookup).
Notation chooses := (chooses channels lookup).

Lemma gives_finds c ch nx s o r N : gives channels c ch nx s o r -> finds c ch nx s N o r N.
Proof. intros H. apply (proj1 (embed channels lookup) _ _ _ _ _ _ H). Qed.
Lemma bad_lacks c ch nx s N : bad channels c ch nx s -> lacks c ch nx s N N.
Proof. intros H. apply (proj1 (proj2 (embed channels lookup)) _ _ _ _ H). Qed.
Lemma lead_finds c g s N o s1 N1 : blank g -> calm s -> finds c true true s N o s1 N1 -> finds c true true (g ++ s) N (gap_tree g ++ o) s1 N1.
Proof. intros F Q H. destruct g as [|a g]; [exact H|]. cbn [gap_tree app]. apply fi_skip with (s1 := s); [reflexivity| |exact H]. exact (passes_spaces channels Hc Hb (a :: g) s ltac:(discriminate) F (calm_ends s Q)). Qed.
Lemma tok_finds e ch s N t s1 N1 : chooses e true s N t s1 N1 -> calm s -> finds (PToken e [] one) ch true s N [t] s1 N1.
Proof. intros P Q. eapply fi_tokens; [apply calm_some, Q|apply be_quiet, calm_quiet; [exact Hb|exact Q]| |reflexivity]. apply re_last; [exact P|]. exists 1%N. split; [reflexivity|cbn; lia]. Qed.
Lemma rec_finds x e ch s N t s1 N1 : lookup x = Some e -> N x <> Some s -> chooses e true s (note N x s) t s1 N1 -> calm s -> finds (PRec x [] one) ch true s N [t] s1 N1.
Proof. intros L D P Q. eapply fi_again; [apply calm_some, Q|apply be_quiet, calm_quiet; [exact Hb|exact Q]|exact D|exact L| |reflexivity]. apply re_last; [exact P|]. exists 1%N. split; [reflexivity|cbn; lia]. Qed.

Definition older (N : notes) (s : bytes) : Prop := forall x t, N x = Some t -> length s <= length t.
Definition newer (N : notes) (s : bytes) : Prop := forall x t, N x = Some t -> length s < length t.
Lemma newer_older N s : newer N s -> older N s.
Proof. intros H x t E. apply H in E. lia. Qed.
Lemma older_less N s r : older N s -> length r < length s -> newer N r.
Proof. intros H L x t E. apply H in E. lia. Qed.
Lemma newer_not N s x : newer N s -> N x <> Some s.
Proof. intros H E. apply H in E. lia. Qed.
Lemma older_note N x s : older N s -> older (note N x s) s.
Proof. intros H y t. unfold note. destruct (bytes_eqb y x); [intros [= <-]; apply le_n|apply H]. Qed.

Lemma ltype_calm t s : calm (ltype_text t ++ s).
Proof. destruct t as [t|g1 g2 t g3]; cbn [ltype_text]; [apply type_calm|]. eexists _, _. split; [reflexivity|]. split; [|discriminate]. cbn. intuition discriminate. Qed.
Lemma plain_tree t : ltype_tree (LPlain t) = type_tree t.
Proof. destruct t; reflexivity. Qed.

(* ---- the three lines of a type ---- *)
Definition three (e0 e1 : element) (c : pcontainer) (e : element) : Prop :=
  el_name e = bs "declarativeType" /\ el_not e = None /\ el_must e = [[ICont (PToken e0 [] one)]; [ICont (PToken e1 [] one)]; [ICont c]] /\
  tok_is (bs "primitiveType") (word_lines primitives) e0 /\ tok_is (bs "computableType") (word_lines computables) e1.
Lemma sh_three x e : to (sh_with x) e -> (forall i, has x i -> exists c, i = ICont c) -> exists e0 e1 c, three e0 e1 c e /\ has x (ICont c).
Proof.
  intros (En & Nn & L) Hx. cbn [both] in L. destruct (el_must e) as [|[|i0 [|? ?]] [|[|i1 [|? ?]] [|[|i2 [|? ?]] [|? ?]]]] eqn:Em; try tauto. destruct L as ((K0 & _) & (K1 & _) & (K2 & _) & _).
  apply has_tok in K0. destruct K0 as (e0 & -> & K0). apply has_tok in K1. destruct K1 as (e1 & -> & K1). destruct (Hx _ K2) as (c & ->). exists e0, e1, c. split; [|exact K2]. repeat split; auto; try apply K0; apply K1.
Qed.
Lemma plain_choice e0 e1 c e t s N N1 : three e0 e1 c e -> lacks c true true (type_text t ++ s) N N1 -> chooses e true (type_text t ++ s) N (type_tree t) s N1.
Proof.
  intros (En & Nn & Em & K0 & K1) B2. assert (Q := type_calm t s).
  assert (Lt : length s < length (type_text t ++ s)) by (rewrite app_length; destruct t; cbn; lia).
  assert (B0 : apart_b (map (fun x : string * string => bs (snd x)) primitives) (type_text t) = true -> forall N, lacks (PToken e0 [] one) true true (type_text t ++ s) N N) by (intros A M; apply bad_lacks; eapply words_bad; [exact Hb|exact K0|exact Q|apply apart_words, A]).
  assert (B1 : apart_b (map (fun x : string * string => bs (snd x)) computables) (type_text t) = true -> forall N, lacks (PToken e1 [] one) true true (type_text t ++ s) N N) by (intros A M; apply bad_lacks; eapply words_bad; [exact Hb|exact K1|exact Q|apply apart_words, A]).
  assert (G : forall f x, picks channels f true (type_text t ++ s) x s -> forall M, line_finds [ICont (PToken f [] one)] true true (type_text t ++ s) M [x] s M).
  { intros f x P M. change [x] with ([x] ++ []). eapply lf_more; [|apply lf_end]. apply gives_finds, tok_gives; assumption. }
  assert (P0 : forall x, picks channels e0 true (type_text t ++ s) x s -> apart_b (map (fun x : string * string => bs (snd x)) computables) (type_text t) = true -> chooses e true (type_text t ++ s) N (Branch (bs "declarativeType") 0 [x]) s N1).
  { intros x P A. rewrite <- En. apply (ch_line channels lookup e true _ N N N N1 [] [ICont (PToken e0 [] one)] [[ICont (PToken e1 [] one)]; [ICont c]]); [exact Nn|exact Em|constructor|apply G, P|exact Lt|].
    eapply od_lacks; [apply ll_here, B1, A|]. eapply od_lacks; [apply ll_here, B2|constructor]. }
  assert (P1 : forall x, picks channels e1 true (type_text t ++ s) x s -> apart_b (map (fun x : string * string => bs (snd x)) primitives) (type_text t) = true -> chooses e true (type_text t ++ s) N (Branch (bs "declarativeType") 1 [x]) s N1).
  { intros x P A. rewrite <- En. apply (ch_line channels lookup e true _ N N N N1 [[ICont (PToken e0 [] one)]] [ICont (PToken e1 [] one)] [[ICont c]]); [exact Nn|exact Em| |apply G, P|exact Lt|].
    - eapply od_lacks; [apply ll_here, B0, A|constructor].
    - eapply od_lacks; [apply ll_here, B2|constructor]. }
  destruct t; cbn [type_tree]; [apply P0|apply P0|apply P1|apply P1|apply P1]; try reflexivity.
  - eapply (words_there channels Hb _ primitives e0 0 [] ("BOOL", "bool")%string); [exact K0|reflexivity|reflexivity|exact Q|discriminate|reflexivity].
  - eapply (words_there channels Hb _ primitives e0 1 [("BOOL", "bool")%string] ("STRING", "string")%string); [exact K0|reflexivity|reflexivity|exact Q|discriminate|reflexivity].
  - eapply (words_there channels Hb _ computables e1 0 [] ("FLOAT", "float")%string); [exact K1|reflexivity|reflexivity|exact Q|discriminate|reflexivity].
  - eapply (words_there channels Hb _ computables e1 1 [("FLOAT", "float")%string] ("UINT", "uint")%string); [exact K1|reflexivity|reflexivity|exact Q|discriminate|reflexivity].
  - eapply (words_there channels Hb _ computables e1 2 [("FLOAT", "float"); ("UINT", "uint")]%string ("INT", "int")%string); [exact K1|reflexivity|reflexivity|exact Q|discriminate|reflexivity].
Qed.
Lemma list_calm s : calm (bs "list" ++ s).
Proof. eexists _, _. split; [reflexivity|]. split; [|discriminate]. cbn. intuition discriminate. Qed.
Lemma list_choice e0 e1 c e s N tr rest N1 : three e0 e1 c e -> length rest < length (bs "list" ++ s) -> finds c true true (bs "list" ++ s) N [tr] rest N1 -> chooses e true (bs "list" ++ s) N (Branch (bs "declarativeType") 2 [tr]) rest N1.
Proof.
  intros (En & Nn & Em & K0 & K1) Lt F. assert (Q := list_calm s). rewrite <- En. apply (ch_line channels lookup e true _ N N N1 N1 [[ICont (PToken e0 [] one)]; [ICont (PToken e1 [] one)]] [ICont c] []); [exact Nn|exact Em| | |exact Lt|constructor].
  - eapply od_lacks; [apply ll_here, bad_lacks; eapply words_bad; [exact Hb|exact K0|exact Q|apply apart_words; reflexivity]|]. eapply od_lacks; [apply ll_here, bad_lacks; eapply words_bad; [exact Hb|exact K1|exact Q|apply apart_words; reflexivity]|constructor].
  - change [tr] with ([tr] ++ []). eapply lf_more; [exact F|constructor].
Qed.

(* ---- the line of a list ---- *)
Definition four (c : pcontainer) (e : element) : Prop :=
  exists r0 r1 r3, el_name e = bs "listType" /\ el_not e = None /\ el_must e = [[ICont (PRule r0 one); ICont (PRule r1 one); ICont c; ICont (PRule r3 one)]] /\
  is_want (WConst (bs "LIST") (bs "list")) r0 /\ is_want (WConst (bs "LESS") (bs "<")) r1 /\ is_want (WConst (bs "MORE") (bs ">")) r3.
Lemma sh_four x e : to (sh_list x) e -> (forall i, has x i -> exists c, i = ICont c) -> exists c, four c e /\ has x (ICont c).
Proof.
  intros (En & Nn & L) Hx. cbn [both] in L. destruct (el_must e) as [|[|i0 [|i1 [|i2 [|i3 [|? ?]]]]] [|? ?]] eqn:Em; try tauto. destruct L as ((K0 & K1 & K2 & K3 & _) & _). destruct (Hx _ K2) as (c & ->). destruct K0 as (r0 & -> & K0). destruct K1 as (r1 & -> & K1). destruct K3 as (r3 & -> & K3).
  exists c. split; [|exact K2]. exists r0, r1, r3. split; [exact En|]. split; [exact Nn|]. split; [exact Em|]. auto.
Qed.
Lemma rule_finds n c r s N : is_want (WConst n c) r -> calm (c ++ s) -> finds (PRule r one) true true (c ++ s) N [Text n c] s N.
Proof. intros W Q. apply gives_finds. apply word_gives; [exact Hb|exact W|intros _; exact Q]. Qed.
Lemma four_choice c e g1 g2 g3 t rest N N1 : four c e -> blank g1 -> blank g2 -> blank g3 ->
  finds c true true (ltype_text t ++ g3 ++ bs ">" ++ rest) N [ltype_tree t] (g3 ++ bs ">" ++ rest) N1 ->
  chooses e true (bs "list" ++ g1 ++ bs "<" ++ g2 ++ ltype_text t ++ g3 ++ bs ">" ++ rest) N
    (Branch (bs "listType") 0 ([Text (bs "LIST") (bs "list")] ++ gap_tree g1 ++ [Text (bs "LESS") (bs "<")] ++ gap_tree g2 ++ [ltype_tree t] ++ gap_tree g3 ++ [Text (bs "MORE") (bs ">")])) rest N1.
Proof.
  intros (r0 & r1 & r3 & En & Nn & Em & W0 & W1 & W3) G1 G2 G3 F. rewrite <- En. apply (ch_line channels lookup e true _ N N N1 N1 [] [ICont (PRule r0 one); ICont (PRule r1 one); ICont c; ICont (PRule r3 one)] []); [exact Nn|exact Em|constructor| |rewrite !app_length; cbn; lia|constructor].
  apply lf_more with (s1 := g1 ++ bs "<" ++ g2 ++ ltype_text t ++ g3 ++ bs ">" ++ rest) (N1 := N); [apply rule_finds; [exact W0|apply list_calm]|].
  assert (Q : forall b s, b = bs "<" \/ b = bs ">" -> calm (b ++ s)) by (intros b s [-> | ->]; eexists _, _; (split; [reflexivity|]); (split; [cbn; intuition discriminate|discriminate])).
  rewrite (app_assoc (gap_tree g1)). apply lf_more with (s1 := g2 ++ ltype_text t ++ g3 ++ bs ">" ++ rest) (N1 := N); [apply lead_finds; [exact G1|apply Q; auto|apply rule_finds; [exact W1|apply Q; auto]]|].
  rewrite (app_assoc (gap_tree g2)). apply lf_more with (s1 := g3 ++ bs ">" ++ rest) (N1 := N1); [apply lead_finds; [exact G2|apply ltype_calm|exact F]|].
  rewrite <- (app_nil_r (gap_tree g3 ++ _)). apply lf_more with (s1 := rest) (N1 := N1); [apply lead_finds; [exact G3|apply Q; auto|apply rule_finds; [exact W3|apply Q; auto]]|constructor].
Qed.
Lemma four_lacks c e t s N : four c e -> outdone (length (type_text t ++ s)) true (type_text t ++ s) (el_must e) N N.
Proof.
  intros (r0 & r1 & r3 & En & Nn & Em & W0 & W1 & W3). rewrite Em. eapply od_lacks; [|constructor]. apply ll_here, bad_lacks. eapply word_bad; [exact Hb|exact W0|apply type_calm|]. intros P. destruct (prefix_two _ _ _ P) as [X|X]; destruct t; discriminate X.
Qed.
Lemma four_tok_lacks c e t s N : four c e -> lacks (PToken e [] one) true true (type_text t ++ s) N N.
Proof.
  intros F. assert (Nn : el_not e = None) by (destruct F as (? & ? & ? & _ & X & _); exact X). assert (Q := type_calm t s). eapply la_tokens with (ts := []); [apply calm_some, Q|apply be_quiet, calm_quiet; [exact Hb|exact Q]| |reflexivity|reflexivity]. apply re_none; [exact Nn|]. eapply four_lacks; exact F.
Qed.

(* ---- types ---- *)
Definition good_after (e : element) (t : ltype) (s : bytes) (N : notes) : Prop := exists N1, chooses e true (ltype_text t ++ s) N (ltype_tree t) s N1 /\ newer N1 s.
Lemma ltype_longer t s : length s < length (ltype_text t ++ s).
Proof. rewrite app_length. destruct t as [[]|]; cbn; lia. Qed.
Lemma list_text g1 g2 t g3 s : ltype_text (LList g1 g2 t g3) ++ s = bs "list" ++ g1 ++ bs "<" ++ g2 ++ ltype_text t ++ g3 ++ bs ">" ++ s.
Proof. cbn [ltype_text]. rewrite <- !app_assoc. reflexivity. Qed.
Lemma inner_less g1 g2 t g3 s : length (ltype_text t ++ g3 ++ bs ">" ++ s) < length (ltype_text (LList g1 g2 t g3) ++ s).
Proof. rewrite list_text. rewrite !app_length. cbn. lia. Qed.
Lemma after_more N g3 s : newer N (g3 ++ bs ">" ++ s) -> newer N s.
Proof. intros H x t E. apply H in E. rewrite !app_length in E. cbn in E. lia. Qed.
Lemma types_read t : good_ltype t ->
  (forall e s N, to sh_a e -> older N (ltype_text t ++ s) -> good_after e t s N) /\
  (forall e s N, to sh_b e -> older N (ltype_text t ++ s) -> good_after e t s N) /\
  (forall e s N, to sh_c e -> newer N (ltype_text t ++ s) -> good_after e t s N).
Proof.
  induction t as [t|g1 g2 t IH g3]; intros Gt.
  - unfold good_after. rewrite plain_tree. cbn [ltype_text]. split; [|split]; intros e s N T O.
    + destruct (sh_three _ e T) as (e0 & e1 & c & Th & Hx); [intros i (f & -> & _); eauto|]. apply has_tok in Hx. destruct Hx as (f & [= ->] & Hx). destruct (sh_four _ f Hx) as (c' & F & _); [intros i ->; eauto|].
      exists N. split; [eapply plain_choice; [exact Th|eapply four_tok_lacks; exact F]|]. eapply older_less; [exact O|apply (ltype_longer (LPlain t))].
    + destruct (sh_three _ e T) as (e0 & e1 & c & Th & Hx); [intros i (f & -> & _); eauto|]. apply has_tok in Hx. destruct Hx as (f & [= ->] & Hx). destruct (sh_four _ f Hx) as (c' & F & _); [intros i (g & -> & _); eauto|].
      exists N. split; [eapply plain_choice; [exact Th|eapply four_tok_lacks; exact F]|]. eapply older_less; [exact O|apply (ltype_longer (LPlain t))].
    + destruct (sh_three _ e T) as (e0 & e1 & c & Th & Hx); [intros i ->; eauto|]. injection Hx as ->. destruct (sh_four _ el Tl) as (c' & F & _); [intros i (g & -> & _); eauto|]. assert (Q := type_calm t s).
      exists (note N (bs "listType") (type_text t ++ s)). split.
      * eapply plain_choice; [exact Th|]. eapply la_again with (ts := []); [apply calm_some, Q|apply be_quiet, calm_quiet; [exact Hb|exact Q]|apply newer_not, O|exact Ll| |reflexivity|reflexivity]. apply re_none; [destruct F as (? & ? & ? & _ & X & _); exact X|eapply four_lacks; exact F].
      * eapply older_less; [apply older_note, newer_older, O|apply (ltype_longer (LPlain t))].
  - destruct Gt as (G1 & G2 & Gt & G3). destruct (IH Gt) as (IA & IB & IC). set (s' s := ltype_text t ++ g3 ++ bs ">" ++ s). split; [|split]; intros e s N T O; unfold good_after.
    + destruct (sh_three _ e T) as (e0 & e1 & c & Th & Hx); [intros i (f & -> & _); eauto|]. apply has_tok in Hx. destruct Hx as (f & [= ->] & Hx). destruct (sh_four _ f Hx) as (c & F & Hc'); [intros i ->; eauto|]. injection Hc' as ->.
      assert (Nw : newer N (s' s)) by (eapply older_less; [exact O|apply inner_less]). destruct (IB eb (g3 ++ bs ">" ++ s) (note N (bs "declarativeType") (s' s)) Tb) as (N1 & Ch & Af); [apply older_note, newer_older, Nw|].
      exists N1. split; [|eapply after_more, Af]. rewrite list_text. cbn [ltype_tree]. eapply list_choice; [exact Th|rewrite !app_length; cbn; lia|]. apply tok_finds; [|apply list_calm]. apply four_choice with (c := PRec (bs "declarativeType") [] one); auto.
      apply rec_finds with (e := eb); [exact Lb|apply newer_not, Nw|exact Ch|apply ltype_calm].
    + destruct (sh_three _ e T) as (e0 & e1 & c & Th & Hx); [intros i (f & -> & _); eauto|]. apply has_tok in Hx. destruct Hx as (f & [= ->] & Hx). destruct (sh_four _ f Hx) as (c & F & Hc'); [intros i (g & -> & _); eauto|]. apply has_tok in Hc'. destruct Hc' as (ec & [= ->] & Tc).
      assert (Nw : newer N (s' s)) by (eapply older_less; [exact O|apply inner_less]). destruct (IC ec (g3 ++ bs ">" ++ s) N Tc Nw) as (N1 & Ch & Af).
      exists N1. split; [|eapply after_more, Af]. rewrite list_text. cbn [ltype_tree]. eapply list_choice; [exact Th|rewrite !app_length; cbn; lia|]. apply tok_finds; [|apply list_calm]. apply four_choice with (c := PToken ec [] one); auto.
      apply tok_finds; [exact Ch|apply ltype_calm].
    + destruct (sh_three _ e T) as (e0 & e1 & c & Th & Hx); [intros i ->; eauto|]. injection Hx as ->. destruct (sh_four _ el Tl) as (c & F & Hc'); [intros i (g & -> & _); eauto|]. apply has_tok in Hc'. destruct Hc' as (ea & [= ->] & Ta).
      assert (Nw : newer (note N (bs "listType") (ltype_text (LList g1 g2 t g3) ++ s)) (s' s)) by (eapply older_less; [apply older_note, newer_older, O|apply inner_less]). destruct (IA ea (g3 ++ bs ">" ++ s) _ Ta (newer_older _ _ Nw)) as (N1 & Ch & Af).
      exists N1. split; [|eapply after_more, Af]. rewrite list_text in *. cbn [ltype_tree]. eapply list_choice; [exact Th|rewrite !app_length; cbn; lia|]. eapply rec_finds; [exact Ll|apply newer_not, O| |apply list_calm]. apply four_choice with (c := PToken ea [] one); auto.
      apply tok_finds; [exact Ch|apply ltype_calm].
Qed.
Lemma ldecl_read e t g w rest : to sh_ldecl e -> good_ltype t -> blank g -> is_name w -> ends_class letters rest ->
  exists N1, chooses e true (ldecl_text t g w ++ rest) no_notes (ldecl_tree t g w) rest N1.
Proof.
  intros (En & Nn & L) Gt G W R. cbn [both] in L. destruct (el_must e) as [|[|i0 [|i1 [|? ?]]] [|? ?]] eqn:Em; try tauto. destruct L as ((K0 & K1 & _) & _). apply has_tok in K0. destruct K0 as (e0 & -> & K0). apply has_tok in K1. destruct K1 as (e1 & -> & K1).
  destruct (proj1 (types_read t Gt) e0 (g ++ w ++ rest) no_notes K0) as (N1 & Ch & _); [intros x y E; discriminate|]. exists N1. unfold ldecl_tree, ldecl_text. rewrite <- !app_assoc, <- En.
  apply (ch_line channels lookup e true _ no_notes no_notes N1 N1 [] [ICont (PToken e0 [] one); ICont (PToken e1 [] one)] []); [exact Nn|exact Em|constructor| |assert (X := ltype_longer t rest); destruct W as (? & ? & -> & _); rewrite !app_length in *; cbn; lia|constructor].
  apply lf_more with (s1 := g ++ w ++ rest) (N1 := N1); [apply tok_finds; [exact Ch|apply ltype_calm]|]. rewrite <- (app_nil_r (gap_tree g ++ _)). apply lf_more with (s1 := rest) (N1 := N1); [|constructor].
  apply lead_finds; [exact G|apply name_calm, W|]. apply gives_finds, tok_gives; [exact Hb| |apply name_calm, W]. assert (E : name_shape w = name_tree w) by (destruct W as (a & v & -> & _); reflexivity). rewrite E. apply name_picks; assumption.
Qed.
End Read.
