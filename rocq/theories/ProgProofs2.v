(* ProgProofs2.v - proofs for ProgProps.v: reading declarations; what is no assignment. *)
From Coq Require Import Strings.String Strings.Byte Lia.
From Verif Require Import Go GoLemmas DomainModel DomainSpec CardModel CardSpec PatModel PatSpec PatProofs RuleModel RuleSpec PathModel PathSpec LexModel LexSpec OrdSpec OrdProofs2 PickSpec PickProofs2 LetterProofs ShapeProofs ProgSpec ShapeProofs2 ProgProofs.
Open Scope list_scope.

Section Read.
Variable channels : nat -> list path.
Hypothesis Hc : plain_channels channels.
Hypothesis Hb : blank_channels channels.
Notation quiet := (PickSpec.quiet channels).
Notation gives := (gives channels).
Notation bad := (bad channels).
Notation line_gives := (line_gives channels).
Notation line_bad := (line_bad channels).
Notation beaten := (beaten channels).
Notation picks := (picks channels).

Lemma words_bad n ws e ch s : tok_is n (word_lines ws) e -> calm s -> (forall n c, In (n, c) ws -> ~ is_prefix (bs c) s) -> bad (PToken e [] one) ch true s.
Proof. intros (_ & N & L) Q K. apply tok_bad; [exact Hb|exact N| |exact Q]. eapply words_beaten; eauto. Qed.
Lemma apart_words ws b s : apart_b (map (fun x : string * string => bs (snd x)) ws) b = true -> forall n c, In (n, c) ws -> ~ is_prefix (bs c) (b ++ s).
Proof. intros H n c I. apply (apart_cold _ _ s H). apply in_map_iff. exists (n, c). auto. Qed.
Lemma words_there n ws e i before x after s : tok_is n (word_lines ws) e -> ws = before ++ x :: after -> i = length before -> calm (bs (snd x) ++ s) -> bs (snd x) <> [] -> apart_b (map (fun x : string * string => bs (snd x)) (before ++ after)) (bs (snd x)) = true ->
  picks e true (bs (snd x) ++ s) (Branch n i [Text (bs (fst x)) (bs (snd x))]) s.
Proof.
  intros (En & Nn & L) -> -> Q N A. rewrite <- En. destruct x as [m c]. cbn [fst snd] in *. apply words_picks with (after := after); [exact Hb|exact Nn|exact L|exact Q|exact N|]. intros n' c' I. apply (apart_words _ _ s A n' c' I).
Qed.
Definition primitives := [("BOOL", "bool"); ("STRING", "string")]%string.
Definition computables := [("FLOAT", "float"); ("UINT", "uint"); ("INT", "int")]%string.
Lemma type_picks e t s : to sh_type e -> picks e true (type_text t ++ s) (type_tree t) s.
Proof.
  intros (En & Nn & L). cbn [both] in L. destruct (el_must e) as [|[|i0 [|? ?]] [|[|i1 [|? ?]] [|[|i2 [|? ?]] [|? ?]]]] eqn:Em; try tauto. destruct L as ((K0 & _) & (K1 & _) & (K2 & _) & _).
  apply has_tok in K0. destruct K0 as (e0 & -> & K0). apply has_tok in K1. destruct K1 as (e1 & -> & K1). assert (Q := type_calm t s).
  change (tok_is (bs "primitiveType") (word_lines primitives) e0) in K0. change (tok_is (bs "computableType") (word_lines computables) e1) in K1.
  assert (D : apart_b [bs "list"] (type_text t) = true) by (destruct t; reflexivity).
  destruct (lines_cold channels Hb (type_text t ++ s) _ _ K2 Q (apart_cold _ _ s D) true true) as (c2 & -> & B2).
  assert (Lt : length s < length (type_text t ++ s)) by (rewrite app_length; destruct t; cbn; lia).
  assert (B0 : apart_b (map (fun x : string * string => bs (snd x)) primitives) (type_text t) = true -> bad (PToken e0 [] one) true true (type_text t ++ s)) by (intros A; eapply words_bad; [exact K0|exact Q|apply apart_words, A]).
  assert (B1 : apart_b (map (fun x : string * string => bs (snd x)) computables) (type_text t) = true -> bad (PToken e1 [] one) true true (type_text t ++ s)) by (intros A; eapply words_bad; [exact K1|exact Q|apply apart_words, A]).
  assert (P0 : forall x, picks e0 true (type_text t ++ s) x s -> apart_b (map (fun x : string * string => bs (snd x)) computables) (type_text t) = true -> picks e true (type_text t ++ s) (Branch (bs "declarativeType") 0 [x]) s).
  { intros x P A. rewrite <- En. apply (pk_line channels e true _ [] [ICont (PToken e0 [] one)] [[ICont (PToken e1 [] one)]; [ICont c2]]); [exact Nn|exact Em|apply one_gives, tok_gives; assumption|exact Lt|constructor|].
    apply bt_bad; [apply lb_here, B1, A|]. apply bt_bad; [apply lb_here, B2|constructor]. }
  assert (P1 : forall x, picks e1 true (type_text t ++ s) x s -> apart_b (map (fun x : string * string => bs (snd x)) primitives) (type_text t) = true -> picks e true (type_text t ++ s) (Branch (bs "declarativeType") 1 [x]) s).
  { intros x P A. rewrite <- En. apply (pk_line channels e true _ [[ICont (PToken e0 [] one)]] [ICont (PToken e1 [] one)] [[ICont c2]]); [exact Nn|exact Em|apply one_gives, tok_gives; assumption|exact Lt| |].
    - apply bt_bad; [apply lb_here, B0, A|constructor].
    - apply bt_bad; [apply lb_here, B2|constructor]. }
  destruct t; cbn [type_tree]; [apply P0|apply P0|apply P1|apply P1|apply P1]; try reflexivity.
  - eapply (words_there _ primitives e0 0 [] ("BOOL", "bool")%string); [exact K0|reflexivity|reflexivity|exact Q|discriminate|reflexivity].
  - eapply (words_there _ primitives e0 1 [("BOOL", "bool")%string] ("STRING", "string")%string); [exact K0|reflexivity|reflexivity|exact Q|discriminate|reflexivity].
  - eapply (words_there _ computables e1 0 [] ("FLOAT", "float")%string); [exact K1|reflexivity|reflexivity|exact Q|discriminate|reflexivity].
  - eapply (words_there _ computables e1 1 [("FLOAT", "float")%string] ("UINT", "uint")%string); [exact K1|reflexivity|reflexivity|exact Q|discriminate|reflexivity].
  - eapply (words_there _ computables e1 2 [("FLOAT", "float"); ("UINT", "uint")]%string ("INT", "int")%string); [exact K1|reflexivity|reflexivity|exact Q|discriminate|reflexivity].
Qed.
Definition decl_tree (t : stype) (g w : bytes) : tree := Branch (bs "variableDeclaration") 0 (type_tree t :: lead g ++ [name_tree w]).
Lemma decl_picks e t g w rest : to sh_decl e -> Forall (fun b => In b spaces) g -> is_name w -> ends_class letters rest -> picks e true (type_text t ++ g ++ w ++ rest) (decl_tree t g w) rest.
Proof.
  intros (En & Nn & L) G W R. cbn [both] in L. destruct (el_must e) as [|[|i0 [|i1 [|? ?]]] [|? ?]] eqn:Em; try tauto. destruct L as ((K0 & K1 & _) & _). apply has_tok in K0. destruct K0 as (e0 & -> & K0). apply has_tok in K1. destruct K1 as (e1 & -> & K1).
  unfold decl_tree. rewrite <- En. apply (pk_line channels e true _ [] [ICont (PToken e0 [] one); ICont (PToken e1 [] one)] []); [exact Nn|exact Em| |rewrite !app_length; destruct t; cbn; lia|constructor|constructor].
  apply (lg_more channels _ _ true true (type_text t ++ g ++ w ++ rest) [type_tree t] (g ++ w ++ rest) (lead g ++ [name_tree w])).
  - apply tok_gives; [exact Hb|apply type_picks; exact K0|apply type_calm].
  - apply one_gives. apply lead_gives; [exact Hc|exact Hb|exact G|apply name_calm, W|]. apply tok_gives; [exact Hb|apply name_picks; assumption|apply name_calm, W].
Qed.
Definition type_words : list bytes := [bs "bool"; bs "string"; bs "float"; bs "uint"; bs "int"; bs "list"].
Lemma decl_cold e ch s : to sh_decl e -> calm s -> cold s type_words -> bad (PToken e [] one) ch true s.
Proof.
  intros (En & Nn & L) Q C. cbn [both] in L. destruct (el_must e) as [|[|i0 [|i1 [|? ?]]] [|? ?]] eqn:Em; try tauto. destruct L as ((K0 & K1 & _) & _). apply has_tok in K0. destruct K0 as (e0 & -> & (E0 & N0 & L0)). apply tok_bad; [exact Hb|exact Nn| |exact Q]. rewrite Em. apply bt_bad; [|constructor]. apply lb_here.
  apply tok_bad; [exact Hb|exact N0| |exact Q]. cbn [both] in L0. destruct (el_must e0) as [|[|i [|? ?]] [|[|j [|? ?]] [|[|k [|? ?]] [|? ?]]]]; try tauto. destruct L0 as ((J0 & _) & (J1 & _) & (J2 & _) & _). apply has_tok in J0. destruct J0 as (f0 & -> & J0). apply has_tok in J1. destruct J1 as (f1 & -> & J1).
  assert (C2 : cold s [bs "list"]) by (intros x [<-|[]]; apply C; cbn; auto 10). destruct (lines_cold channels Hb s _ _ J2 Q C2 true true) as (c2 & -> & B2).
  apply bt_bad; [apply lb_here; eapply (words_bad _ primitives); [exact J0|exact Q|]|]. { intros n c [I|[I|[]]]; injection I as <- <-; apply C; cbn; auto. }
  apply bt_bad; [apply lb_here; eapply (words_bad _ computables); [exact J1|exact Q|]|]. { intros n c [I|[I|[I|[]]]]; injection I as <- <-; apply C; cbn; auto 10. }
  apply bt_bad; [apply lb_here, B2|constructor].
Qed.

(* ---- what follows ---- *)
Definition nexts : list byte := lower ++ [x2b; x2d].
Definition settled (s : bytes) : Prop := s = [] \/ exists b t, s = b :: t /\ In b nexts.
Definition next (rest : bytes) : Prop := exists g s, rest = g ++ s /\ Forall (fun b => In b spaces) g /\ settled s /\ (s = [] -> g = []).
Lemma settled_calm b t : In b nexts -> calm (b :: t).
Proof. intros I. apply calm_byte with (a := nexts); [exact I|reflexivity]. Qed.
Lemma word_settled n c r ch nx s : is_want (WConst n c) r -> misses nexts (firstn 1 c) = true -> c <> [] -> settled s -> bad (PRule r one) ch nx s.
Proof.
  intros W M N [->|(b & t & -> & I)]; [eapply bd_end; reflexivity|]. eapply word_bad; [exact Hb|exact W|apply settled_calm, I|]. intros [y E]. destruct c as [|a c]; [contradiction|]. cbn in E. injection E as <- _. apply (misses_ok _ _ _ M I). left. reflexivity.
Qed.
Lemma star_line n k i rest : has (HTok n [[word k "," one; HRest]] CZero) i -> next rest -> exists out rest', line_gives [i] true true rest out rest' /\ settled rest' /\ length rest' <= length rest.
Proof.
  intros H (g & s & -> & G & S & Ng). apply has_tok in H. destruct H as (e & -> & (En & Nn & L)). cbn [both] in L. destruct (el_must e) as [|[|i0 [|i1 [|? ?]]] [|? ?]] eqn:Em; try tauto. destruct L as ((K0 & _) & _). destruct K0 as (r & -> & W).
  destruct S as [->|(b & t & -> & I)].
  - rewrite (Ng eq_refl). exists [], []. split; [eapply lg_over; reflexivity|]. split; [left; reflexivity|apply le_n].
  - exists (lead g ++ []), (b :: t). split; [|split; [right; eauto|rewrite app_length; lia]]. apply one_gives. assert (Q := settled_calm b t I). apply lead_gives; [exact Hc|exact Hb|exact G|exact Q|].
    apply gv_tokens; [discriminate|intros _; left; apply calm_quiet; [exact Hb|exact Q]| |reflexivity]. apply tk_none; [exact Nn|]. rewrite Em. apply bt_bad; [|constructor]. apply lb_here. eapply word_settled; [exact W|reflexivity|discriminate|right; eauto].
Qed.

(* ---- no assignment ---- *)
Lemma assignee_name_picks e w r0 : to sh_assignee_name e -> is_name w -> ends_class letters r0 -> exists t, picks e true (w ++ r0) t r0.
Proof.
  intros (En & Nn & L) W R. cbn [both] in L. destruct (el_must e) as [|[|i0 [|? ?]] [|[|i1 [|? ?]] [|? ?]]] eqn:Em; try tauto. destruct L as ((K0 & _) & (K1 & _) & _). apply has_tok in K0. destruct K0 as (e0 & -> & K0). destruct K1 as (r & -> & K1).
  eexists. apply (pk_line channels e true _ [] [ICont (PToken e0 [] one)] [[ICont (PRule r one)]]); [exact Nn|exact Em| |destruct W as (a & v & -> & _); rewrite app_length; cbn; lia|constructor|].
  - apply one_gives, tok_gives; [exact Hb|apply name_picks; eassumption|apply name_calm, W].
  - apply bt_bad; [|constructor]. apply lb_here. eapply word_bad; [exact Hb|exact K1|apply name_calm, W|]. destruct W as (a & v & -> & I & _). intros [y E]. cbn in E. injection E as -> _. revert I. apply (misses_ok [x5f] lower); [reflexivity|left; reflexivity].
Qed.
Lemma rows e n m k nf lf s rest1 : tok_is n [[tk nf lf; HTok m [[word k "," one; HRest]] CZero]] e -> calm s -> (forall e0, tok_is (bs nf) lf e0 -> exists t, picks e0 true s t rest1) -> next rest1 -> length rest1 < length s -> exists x r', picks e true s x r' /\ settled r'.
Proof.
  intros (En & Nn & L) Q P N Lt. cbn [both] in L. destruct (el_must e) as [|[|i0 [|i1 [|? ?]]] [|? ?]] eqn:Em; try tauto. destruct L as ((K0 & K1 & _) & _). apply has_tok in K0. destruct K0 as (e0 & -> & K0). destruct (P _ K0) as (t & Pt). destruct (star_line m k i1 rest1 K1 N) as (out & r' & Hl & S & Ll).
  eexists _, r'. split; [|exact S]. eapply (pk_line channels e true s [] [ICont (PToken e0 [] one); i1] []); [exact Nn|exact Em| |lia|constructor|constructor]. eapply lg_more; [apply tok_gives; [exact Hb|exact Pt|exact Q]|exact Hl].
Qed.
Lemma assignment_bad e ch s w r0 rest1 : to sh_assignment e -> s = w ++ r0 -> is_name w -> ends_class letters r0 -> next r0 -> (forall e0, to sh_first e0 -> exists t, picks e0 true s t rest1) -> next rest1 -> length rest1 < length s -> bad (PToken e [] one) ch true s.
Proof.
  intros (En & Nn & L) Es W R N0 P N1 Lt. assert (Q : calm s) by (rewrite Es; apply name_calm, W). cbn [both] in L. destruct (el_must e) as [|[|i0 [|i1 [|? ?]]] [|? ?]] eqn:Em; try tauto. destruct L as ((K0 & _) & _). apply has_tok in K0. destruct K0 as (e0 & -> & (E0 & M0 & L0)).
  apply tok_bad; [exact Hb|exact Nn| |exact Q]. rewrite Em. apply bt_bad; [|constructor]. apply lb_here. apply tok_bad; [exact Hb|exact M0| |exact Q].
  cbn [both] in L0. destruct (el_must e0) as [|[|j0 [|j1 [|j2 [|? ?]]]] [|[|j3 [|j4 [|? ?]]] [|? ?]]]; try tauto. destruct L0 as ((J0 & J1 & J2 & _) & (J3 & J4 & _) & _).
  apply has_tok in J0. destruct J0 as (f0 & -> & J0). destruct J1 as (r1 & -> & J1). apply has_tok in J3. destruct J3 as (f3 & -> & J3). destruct J4 as (r4 & -> & J4).
  apply bt_bad; [|apply bt_bad; [|constructor]].
  - destruct (rows f0 _ _ _ _ _ s rest1 J0 Q P N1 Lt) as (x & r' & Px & S). eapply lb_later; [apply tok_gives; [exact Hb|exact Px|exact Q]|]. apply lb_here. eapply word_settled; [exact J1|reflexivity|discriminate|exact S].
  - assert (Lw : length r0 < length s) by (rewrite Es, app_length; destruct W as (a & v & -> & _); cbn; lia).
    assert (X : exists x r', picks f3 true s x r' /\ settled r').
    { destruct J3 as (F1 & F2 & F3). assert (F3' := F3). cbn [both] in F3. destruct (el_must f3) as [|[|h0 [|h1 [|? ?]]] [|? ?]] eqn:Ef; try tauto. destruct F3 as ((G0 & G1 & _) & _). apply has_tok in G0. destruct G0 as (g0 & -> & G0). destruct (assignee_name_picks g0 w r0 G0 W R) as (y & Py).
      destruct (star_line _ _ h1 r0 G1 N0) as (out & r' & Hl & S & Ll). eexists _, r'. split; [|exact S]. eapply (pk_line channels f3 true s [] [ICont (PToken g0 [] one); h1] []); [exact F2|exact Ef| |lia|constructor|constructor]. rewrite Es in *. eapply lg_more; [apply tok_gives; [exact Hb|exact Py|exact Q]|exact Hl]. }
    destruct X as (x & r' & Px & S). eapply lb_later; [apply tok_gives; [exact Hb|exact Px|exact Q]|]. apply lb_here. eapply word_settled; [exact J4|reflexivity|discriminate|exact S].
Qed.
End Read.
