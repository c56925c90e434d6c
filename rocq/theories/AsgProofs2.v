(* AsgProofs2.v - proofs for AsgProps.v: reading assignments. *)
From Coq Require Import Strings.String Strings.Byte Lia.
From Verif Require Import Go GoLemmas DomainModel DomainSpec CardModel CardSpec PatModel PatSpec PatProofs RuleModel RuleSpec PathModel PathSpec LexModel LexSpec OrdSpec OrdProofs2 PickSpec PickProofs2 PickProofs3 LetterProofs ShapeProofs ProgSpec ShapeProofs2 ProgProofs ProgProofs2 ProgProofs3 ProgProofs4 ProgProofs5 ListSpec RecProofs4 RecProofs6 LitSpec LitProofs2 AsgSpec AsgProofs.
Open Scope list_scope.

Definition sh_listvalue : shape := tk "listValue" [[HHeads [bs "["]]; [sh_name]].
Definition sh_total : shape := tk "totalListAssignable" [[sh_listvalue]; [tk "slice" [[sh_listvalue; HRest; HRest; HRest]]]; [HHeads [bs "append"]]].
Definition sh_single : shape := tk "singleAssignable" [[sh_value]; [HRest]; [HRest]; [HRest]].
Definition sh_assignable : shape := tk "assignable" [[sh_total]; [sh_single]].
Definition sh_assignables : shape := tk "assignables" [[sh_assignable; HTok (bs "commaAssignable") [[HRest; HRest]] CZero]].
Definition sh_setting : shape := tk "assignment" [[sh_assignee; sh_assignables]].
Definition sh_setter : list (list shape) := [[sh_setting]; [sh_decl]; [HHeads [bs "if"]]; [HHeads [bs "for"]]; [HHeads [bs "log"]]; [sh_direction]; [sh_increment]].
Definition sh_setters : shape := tk "instructions" [[HTok (bs "instruction") sh_setter CNonZero]].
Definition sh_setprog : shape := tk "program" [[sh_headers; sh_setters]].

Lemma both_one {A B} (f : A -> B -> Prop) k l : both f [k] l -> exists i, l = [i] /\ f k i.
Proof. destruct l as [|i [|? ?]]; cbn [both]; try tauto. intros [H _]. eauto. Qed.
Lemma name_blank_tree g : lead g = gap_tree g. Proof. reflexivity. Qed.
Lemma type_text_name t w : is_name w -> is_name (type_text t ++ w).
Proof.
  intros (a & v & -> & I & N & F). destruct (type_name t) as (b & u & E & Ib & Nu & Fu). rewrite E. exists b, (u ++ a :: v). split; [reflexivity|]. split; [exact Ib|]. split; [destruct u; discriminate|]. apply Forall_app. split; [exact Fu|]. constructor; [apply in_or_app; left; exact I|exact F].
Qed.
Definition edge (s : bytes) : Prop := exists b t, s = b :: t /\ In b (bs ":=").
Lemma edge_calm s : edge s -> calm s.
Proof. intros (b & t & -> & I). apply (calm_byte b t (bs ":=")); [exact I|reflexivity]. Qed.
Lemma edge_ends g s : blank g -> edge s -> ends_class letters (g ++ s).
Proof.
  intros G (b & t & -> & I) c r E. destruct g as [|a g]; cbn in E; injection E as <- _; [apply (misses_ok (bs ":=") letters); [reflexivity|exact I]|]. inversion G as [|? ? J _]; subst. apply (misses_ok spaces letters); [reflexivity|exact J].
Qed.
Lemma not_at n c b s : Byte.eqb c b = false -> bs n = [c] -> ~ is_prefix (bs n) (b :: s).
Proof. intros E -> [y H]. cbn in H. injection H as H _. subst. rewrite Byte.byte_dec_lb in E by reflexivity. discriminate. Qed.

Section Read.
Variable channels : nat -> list path.
Hypothesis Hc : plain_channels channels.
Hypothesis Hb : blank_channels channels.
Notation quiet := (PickSpec.quiet channels).
Notation gives := (gives channels).
Notation bad := (bad channels).
Notation line_gives := (line_gives channels).
Notation line_bad := (line_bad channels).
Notation beaten := (beaten channels).
Notation picks := (picks channels).
Notation G := (G channels).
Notation PK := (PK channels).
Notation LG := (LG channels).

(* ---- what is no name, no list ---- *)
Lemma name_no e b s : to sh_name e -> in_b b (x2f :: spaces) = false -> in_b b lower = false -> bad (PToken e [] one) true true (b :: s).
Proof.
  intros (En & Nn & L) Q N. cbn [both] in L. destruct (el_must e) as [|l [|? ?]] eqn:Em; try tauto. destruct L as [L _]. destruct l as [|i0 [|i1 [|i2 [|? ?]]]]; try tauto. destruct L as (K0 & K1 & _ & _). cbn [has] in K0, K1. subst i0. destruct K1 as (r1 & -> & L1 & E1 & p1 & k1 & C1 & A1 & T1).
  assert (C := byte_calm b s Q). apply (tok_bad channels Hb); [exact Nn| |exact C]. rewrite Em. apply bt_bad; [|constructor]. apply lb_switch, lb_here. apply bd_rule; [exact L1|discriminate|intros _; left; apply calm_quiet; [exact Hb|exact C]| |reflexivity].
  rewrite (letters_begin r1 p1 k1 lower _ C1 A1). intros (b' & t' & X & I). injection X as <- <-. apply in_b_ok in I. congruence.
Qed.
Definition not_list (b : byte) : bool := negb (in_b b (x2f :: spaces)) && negb (in_b b lower) && negb (Byte.eqb x5b b).
Lemma not_list_is b : not_list b = true -> in_b b (x2f :: spaces) = false /\ in_b b lower = false /\ Byte.eqb x5b b = false.
Proof. unfold not_list. intros H. apply andb_prop in H. destruct H as [H H3]. apply andb_prop in H. destruct H as [H1 H2]. apply negb_true_iff in H1, H2, H3. auto. Qed.
Lemma one_cold b s c w : Byte.eqb c b = false -> cold (b :: s) [c :: w].
Proof. intros E o [<-|[]] [y H]. cbn in H. injection H as H _. subst. rewrite Byte.byte_dec_lb in E by reflexivity. discriminate. Qed.
Lemma listvalue_no e b s : to sh_listvalue e -> not_list b = true -> bad (PToken e [] one) true true (b :: s).
Proof.
  intros (En & Nn & L) N. destruct (not_list_is b N) as (N1 & N2 & N3). assert (C := byte_calm b s N1). cbn [both] in L. destruct (el_must e) as [|[|i0 [|? ?]] [|[|i1 [|? ?]] [|? ?]]] eqn:Em; try tauto. destruct L as ((K0 & _) & (K1 & _) & _). apply has_tok in K1. destruct K1 as (e1 & -> & K1).
  destruct (lines_cold channels Hb _ _ _ K0 C (one_cold b s x5b [] N3) true true) as (c0 & -> & B0). apply (tok_bad channels Hb); [exact Nn| |exact C]. rewrite Em. apply bt_bad; [apply lb_here, B0|]. apply bt_bad; [|constructor]. apply lb_here. apply name_no; assumption.
Qed.
Lemma total_no e b s : to sh_total e -> not_list b = true -> bad (PToken e [] one) true true (b :: s).
Proof.
  intros (En & Nn & L) N. destruct (not_list_is b N) as (N1 & N2 & N3). assert (C := byte_calm b s N1). cbn [both] in L. destruct (el_must e) as [|[|i0 [|? ?]] [|[|i1 [|? ?]] [|[|i2 [|? ?]] [|? ?]]]] eqn:Em; try tauto. destruct L as ((K0 & _) & (K1 & _) & (K2 & _) & _). apply has_tok in K0. destruct K0 as (e0 & -> & K0). apply has_tok in K1. destruct K1 as (e1 & -> & (E1 & M1 & L1)).
  assert (Na : Byte.eqb x61 b = false). { destruct (Byte.eqb x61 b) eqn:E; [|reflexivity]. apply Byte.byte_dec_bl in E. subst b. discriminate. }
  destruct (lines_cold channels Hb _ _ _ K2 C (one_cold b s x61 (bs "ppend") Na) true true) as (c2 & -> & B2).
  apply (tok_bad channels Hb); [exact Nn| |exact C]. rewrite Em. apply bt_bad; [apply lb_here, listvalue_no; assumption|]. apply bt_bad; [|apply bt_bad; [apply lb_here, B2|constructor]]. apply lb_here.
  cbn [both] in L1. destruct (el_must e1) as [|[|j0 [|j1 [|j2 [|j3 [|? ?]]]]] [|? ?]] eqn:Em1; try tauto. destruct L1 as ((J0 & _) & _). apply has_tok in J0. destruct J0 as (f0 & -> & J0).
  apply (tok_bad channels Hb); [exact M1| |exact C]. rewrite Em1. apply bt_bad; [|constructor]. apply lb_here. apply listvalue_no; assumption.
Qed.

(* ---- the target ---- *)
Lemma word_picks e t r0 : to sh_assignee_name e -> (match t with TTyped _ _ _ => False | _ => good_target t end) -> ends_class letters r0 -> picks e true (target_text t ++ r0) (word_shape t) r0.
Proof.
  intros (En & Nn & L) Gt R. cbn [both] in L. destruct (el_must e) as [|[|i0 [|? ?]] [|[|i1 [|? ?]] [|? ?]]] eqn:Em; try tauto. destruct L as ((K0 & _) & (K1 & _) & _). apply has_tok in K0. destruct K0 as (e0 & -> & K0). destruct K1 as (r & -> & K1).
  destruct t as [|w|]; [contradiction| |]; cbn [target_text word_shape].
  - destruct Gt as [W _]. unfold under. rewrite (name_shape_is w W), <- En. apply (pk_line channels e true _ [] [ICont (PToken e0 [] one)] [[ICont (PRule r one)]]); [exact Nn|exact Em| |destruct W as (a & v & -> & _); rewrite app_length; cbn; lia|constructor|].
    + apply one_gives, tok_gives; [exact Hb|apply name_picks; eassumption|apply name_calm, W].
    + apply bt_bad; [|constructor]. apply lb_here. eapply word_bad; [exact Hb|exact K1|apply name_calm, W|]. destruct W as (a & v & -> & I & _). intros [y E]. cbn in E. injection E as -> _. revert I. apply (misses_ok [x5f] lower); [reflexivity|left; reflexivity].
  - rewrite <- En. assert (Q : calm (bs "_" ++ r0)) by (apply byte_calm; reflexivity). apply (pk_line channels e true _ [[ICont (PToken e0 [] one)]] [ICont (PRule r one)] []); [exact Nn|exact Em| |rewrite app_length; cbn; lia| |constructor].
    + apply one_gives. apply (word_gives channels Hb (bs "UNDERSCORE") (bs "_")); [exact K1|intros _; exact Q].
    + apply bt_bad; [|constructor]. apply lb_here. apply name_no; [exact K0|reflexivity|reflexivity].
Qed.
Lemma target_calm t s : good_target t -> calm (target_text t ++ s).
Proof. destruct t as [t g w|w|]; cbn [target_text]; intros H; [rewrite <- !app_assoc; apply type_calm|apply name_calm, H|apply byte_calm; reflexivity]. Qed.
Lemma target_longer t s : good_target t -> length s < length (target_text t ++ s).
Proof. destruct t as [t g w|w|]; cbn [target_text]; intros H; rewrite !app_length; [destruct t; cbn; lia|destruct H as [(a & v & -> & _) _]; cbn; lia|cbn; lia]. Qed.
(* whatever stands there, a name can be read off it *)
Lemma some_word e t r0 : to sh_assignee_name e -> good_target t -> ends_class letters r0 -> exists x r1, picks e true (target_text t ++ r0) x r1 /\ length r1 < length (target_text t ++ r0) /\ length r0 <= length r1 /\ (r1 = r0 \/ exists g w, blank g /\ is_name w /\ g <> [] /\ r1 = g ++ w ++ r0).
Proof.
  intros K H R. destruct t as [t g w|w|].
  - destruct H as (Gg & W & _). cbn [target_text]. destruct g as [|a g].
    + destruct (assignee_name_picks channels Hb e (type_text t ++ w) r0 K (type_text_name t w W) R) as (x & Px). exists x, r0. rewrite <- app_assoc in Px. cbn [app]. rewrite <- app_assoc. split; [exact Px|]. split; [rewrite !app_length; destruct t; cbn; lia|]. split; [apply le_n|left; reflexivity].
    + destruct (assignee_name_picks channels Hb e (type_text t) ((a :: g) ++ w ++ r0) K (type_name t)) as (x & Px). { intros c v E. cbn in E. injection E as <- _. inversion Gg as [|? ? J _]; subst. apply (misses_ok spaces letters); [reflexivity|exact J]. }
      exists x, ((a :: g) ++ w ++ r0). rewrite <- !app_assoc. split; [exact Px|]. split; [rewrite (app_length (type_text t)); destruct t; cbn [type_text length bs]; cbn; lia|]. split; [rewrite !app_length; lia|]. right. exists (a :: g), w. split; [exact Gg|]. split; [exact W|]. split; [discriminate|reflexivity].
  - exists (word_shape (TNamed w)), r0. split; [apply word_picks; [exact K|exact H|exact R]|]. split; [apply target_longer, H|]. split; [apply le_n|left; reflexivity].
  - exists (word_shape TSkipped), r0. split; [apply word_picks; [exact K|exact H|exact R]|]. split; [apply target_longer, H|]. split; [apply le_n|left; reflexivity].
Qed.
Lemma first_picks e t r0 : to sh_first e -> good_target t -> ends_class letters r0 -> picks e true (target_text t ++ r0) (first_shape t) r0.
Proof.
  intros (En & Nn & L) H R. cbn [both] in L. destruct (el_must e) as [|[|i0 [|? ?]] [|[|i1 [|? ?]] [|? ?]]] eqn:Em; try tauto. destruct L as ((K0 & _) & (K1 & _) & _). apply has_tok in K0. destruct K0 as (e0 & -> & K0). apply has_tok in K1. destruct K1 as (e1 & -> & K1). assert (Q := target_calm t r0 H). assert (Lt := target_longer t r0 H).
  assert (Cold : cold (target_text t ++ r0) type_words -> match t with TTyped _ _ _ => False | _ => True end -> picks e true (target_text t ++ r0) (under "assigneeNameFirst" 1 (word_shape t)) r0).
  { intros C T. unfold under. rewrite <- En. apply (pk_line channels e true _ [[ICont (PToken e0 [] one)]] [ICont (PToken e1 [] one)] []); [exact Nn|exact Em|apply one_gives, tok_gives; [exact Hb|apply word_picks; [exact K1|destruct t; [contradiction|exact H|exact H]|exact R]|exact Q]|exact Lt| |constructor].
    apply bt_bad; [|constructor]. apply lb_here. apply (decl_cold channels Hb); assumption. }
  destruct (some_word e1 t r0 K1 H R) as (x & r1 & Px & Lx & Ly & _). destruct t as [t g w|w|]; cbn [first_shape].
  - clear Cold. destruct H as (Gg & W & _). cbn [target_text] in *. unfold under. rewrite <- En. apply (pk_line channels e true _ [] [ICont (PToken e0 [] one)] [[ICont (PToken e1 [] one)]]); [exact Nn|exact Em| |exact Lt|constructor|].
    + apply one_gives, tok_gives; [exact Hb| |exact Q]. rewrite <- !app_assoc. unfold ldecl_tree. rewrite plain_tree, (name_shape_is w W). change ([type_tree t] ++ gap_tree g ++ [name_tree w]) with (type_tree t :: lead g ++ [name_tree w]). apply decl_picks; assumption.
    + eapply bt_less; [apply one_gives, tok_gives; [exact Hb|exact Px|exact Q]| |constructor]. lia.
  - apply Cold; [|exact I]. cbn [target_text]. apply name_cold; [apply H|exact R|reflexivity|]. intros o Io. apply (proj2 H). exact Io.
  - apply Cold; [|exact I]. apply apart_cold. reflexivity.
Qed.
Lemma star_edge n k i g s : has (HTok n [[word k "," one; HRest]] CZero) i -> blank g -> edge s -> line_gives [i] true true (g ++ s) (gap_tree g) s.
Proof.
  intros H Gg Ed. apply has_tok in H. destruct H as (e & -> & (En & Nn & L)). cbn [both] in L. destruct (el_must e) as [|[|i0 [|i1 [|? ?]]] [|? ?]] eqn:Em; try tauto. destruct L as ((K0 & _) & _). destruct K0 as (r & -> & W). assert (Q := edge_calm s Ed).
  rewrite <- (app_nil_r (gap_tree g)). apply one_gives. apply lead_gives; [exact Hc|exact Hb|exact Gg|exact Q|].
  apply gv_tokens; [apply calm_some, Q|intros _; left; apply calm_quiet; [exact Hb|exact Q]| |reflexivity]. apply tk_none; [exact Nn|]. rewrite Em. apply bt_bad; [|constructor]. apply lb_here. apply (word_bad channels Hb _ _ _ _ _ _ W Q). destruct Ed as (b & t & -> & I). intros [y E]. cbn in E. injection E as -> _. revert I. apply (misses_ok [x2c] (bs ":=")); [reflexivity|left; reflexivity].
Qed.
(* the same before a letter *)
Lemma star_word n k i g w s : has (HTok n [[word k "," one; HRest]] CZero) i -> blank g -> is_name w -> line_gives [i] true true (g ++ w ++ s) (gap_tree g) (w ++ s).
Proof.
  intros H Gg W. apply has_tok in H. destruct H as (e & -> & (En & Nn & L)). cbn [both] in L. destruct (el_must e) as [|[|i0 [|i1 [|? ?]]] [|? ?]] eqn:Em; try tauto. destruct L as ((K0 & _) & _). destruct K0 as (r & -> & W0). assert (Q := name_calm w s W).
  rewrite <- (app_nil_r (gap_tree g)). apply one_gives. apply lead_gives; [exact Hc|exact Hb|exact Gg|exact Q|].
  apply gv_tokens; [apply calm_some, Q|intros _; left; apply calm_quiet; [exact Hb|exact Q]| |reflexivity]. apply tk_none; [exact Nn|]. rewrite Em. apply bt_bad; [|constructor]. apply lb_here. apply (word_bad channels Hb _ _ _ _ _ _ W0 Q). destruct W as (a & v & -> & I & _). intros [y E]. cbn in E. injection E as -> _. revert I. apply (misses_ok [x2c] lower); [reflexivity|left; reflexivity].
Qed.
Lemma firsts_picks e t g s : to sh_firsts e -> good_target t -> blank g -> edge s -> picks e true (target_text t ++ g ++ s) (Branch (bs "assigneeNameFirsts") 0 (first_shape t :: gap_tree g)) s.
Proof.
  intros (En & Nn & L) H Gg Ed. cbn [both] in L. destruct (el_must e) as [|[|i0 [|i1 [|? ?]]] [|? ?]] eqn:Em; try tauto. destruct L as ((K0 & K1 & _) & _). apply has_tok in K0. destruct K0 as (e0 & -> & K0). assert (Lt := target_longer t (g ++ s) H).
  rewrite <- En. apply (pk_line channels e true _ [] [ICont (PToken e0 [] one); i1] []); [exact Nn|exact Em| |rewrite app_length in Lt; rewrite !app_length in *; lia|constructor|constructor].
  change (first_shape t :: gap_tree g) with ([first_shape t] ++ gap_tree g). eapply lg_more; [apply tok_gives; [exact Hb|apply first_picks; [exact K0|exact H|apply edge_ends; assumption]|apply target_calm, H]|]. eapply star_edge; eassumption.
Qed.
Lemma names_picks e t g s : to sh_names e -> good_target t -> match t with TTyped _ _ _ => False | _ => True end -> blank g -> edge s -> picks e true (target_text t ++ g ++ s) (Branch (bs "assigneeNames") 0 (word_shape t :: gap_tree g)) s.
Proof.
  intros (En & Nn & L) H Ty Gg Ed. cbn [both] in L. destruct (el_must e) as [|[|i0 [|i1 [|? ?]]] [|? ?]] eqn:Em; try tauto. destruct L as ((K0 & K1 & _) & _). apply has_tok in K0. destruct K0 as (e0 & -> & K0). assert (Lt := target_longer t (g ++ s) H).
  rewrite <- En. apply (pk_line channels e true _ [] [ICont (PToken e0 [] one); i1] []); [exact Nn|exact Em| |rewrite app_length in Lt; rewrite !app_length in *; lia|constructor|constructor].
  change (word_shape t :: gap_tree g) with ([word_shape t] ++ gap_tree g). eapply lg_more; [apply tok_gives; [exact Hb|apply word_picks; [exact K0|destruct t; [contradiction|exact H|exact H]|apply edge_ends; assumption]|apply target_calm, H]|]. eapply star_edge; eassumption.
Qed.
Lemma some_names e t g s : to sh_names e -> good_target t -> blank g -> edge s -> exists x r1, picks e true (target_text t ++ g ++ s) x r1 /\ (r1 = s \/ exists w r2, is_name w /\ r1 = w ++ r2).
Proof.
  intros (En & Nn & L) H Gg Ed. cbn [both] in L. destruct (el_must e) as [|[|i0 [|i1 [|? ?]]] [|? ?]] eqn:Em; try tauto. destruct L as ((K0 & K1 & _) & _). apply has_tok in K0. destruct K0 as (e0 & -> & K0). assert (Lt := target_longer t (g ++ s) H). assert (Q := target_calm t (g ++ s) H).
  destruct (some_word e0 t (g ++ s) K0 H (edge_ends g s Gg Ed)) as (x & r1 & Px & Lx & Ly & [->|(g' & w & Gg' & W & Ng & ->)]).
  - eexists _, s. split; [|left; reflexivity]. apply (pk_line channels e true _ [] [ICont (PToken e0 [] one); i1] []); [exact Nn|exact Em| |rewrite !app_length in *; lia|constructor|constructor]. eapply lg_more; [apply tok_gives; [exact Hb|exact Px|exact Q]|eapply star_edge; eassumption].
  - eexists _, (w ++ g ++ s). split; [|right; eauto]. apply (pk_line channels e true _ [] [ICont (PToken e0 [] one); i1] []); [exact Nn|exact Em| |rewrite !app_length in *; lia|constructor|constructor]. eapply lg_more; [apply tok_gives; [exact Hb|exact Px|exact Q]|eapply star_word; eassumption].
Qed.
Definition targets_ok (a : setting) : Prop := good_target (st_target a) /\ blank (st_before a) /\ match st_colon a with Some g => blank g | None => forall t g w, st_target a <> TTyped t g w end.
Lemma assignee_picks e a s : to sh_assignee e -> targets_ok a -> picks e true (target_text (st_target a) ++ st_before a ++ colon_text (st_colon a) ++ bs "=" ++ s) (assignee_shape a) s.
Proof.
  intros (En & Nn & L) (H & Gb & Gc). cbn [both] in L. destruct (el_must e) as [|[|j0 [|j1 [|j2 [|? ?]]]] [|[|j3 [|j4 [|? ?]]] [|? ?]]] eqn:Em; try tauto. destruct L as ((J0 & J1 & J2 & _) & (J3 & J4 & _) & _).
  apply has_tok in J0. destruct J0 as (f0 & -> & J0). destruct J1 as (r1 & -> & J1). destruct J2 as (r2 & -> & J2). apply has_tok in J3. destruct J3 as (f3 & -> & J3). destruct J4 as (r4 & -> & J4).
  assert (Qe : calm (bs "=" ++ s)) by (apply byte_calm; reflexivity). destruct a as [t b c g v]. unfold assignee_shape. cbn [st_target st_before st_colon] in *. destruct c as [k|]; cbn [colon_text].
  - rewrite <- app_assoc. assert (Ed : edge (bs ":" ++ k ++ bs "=" ++ s)) by (exists x3a, (k ++ bs "=" ++ s); split; [reflexivity|left; reflexivity]). assert (Q := target_calm t (b ++ bs ":" ++ k ++ bs "=" ++ s) H). assert (Lt := target_longer t (b ++ bs ":" ++ k ++ bs "=" ++ s) H).
    rewrite <- En. apply (pk_line channels e true _ [] [ICont (PToken f0 [] one); ICont (PRule r1 one); ICont (PRule r2 one)] [[ICont (PToken f3 [] one); ICont (PRule r4 one)]]); [exact Nn|exact Em| |rewrite !app_length in *; lia|constructor|].
    + change (Branch (bs "assigneeNameFirsts") 0 (first_shape t :: gap_tree b) :: Text (bs "COLON") (bs ":") :: gap_tree k ++ [Text (bs "EQUAL") (bs "=")]) with ([Branch (bs "assigneeNameFirsts") 0 (first_shape t :: gap_tree b)] ++ [Text (bs "COLON") (bs ":")] ++ gap_tree k ++ [Text (bs "EQUAL") (bs "=")]).
      eapply lg_more; [apply tok_gives; [exact Hb|apply firsts_picks; eassumption|exact Q]|]. eapply lg_more; [apply (word_gives channels Hb (bs "COLON") (bs ":")); [exact J1|intros _; apply edge_calm, Ed]|].
      apply one_gives. apply lead_gives; [exact Hc|exact Hb|exact Gc|exact Qe|]. apply (word_gives channels Hb (bs "EQUAL") (bs "=")); [exact J2|intros _; exact Qe].
    + apply bt_bad; [|constructor]. destruct (some_names f3 t b _ J3 H Gb Ed) as (x & r & Px & Hr). eapply lb_later; [apply tok_gives; [exact Hb|exact Px|exact Q]|]. apply lb_here. apply (word_bad channels Hb _ _ _ _ _ _ J4).
      * destruct Hr as [->|(w & r' & W & ->)]; [apply edge_calm, Ed|apply name_calm, W].
      * destruct Hr as [->|(w & r' & (z & v' & -> & I & _) & ->)]; [intros [y E]; discriminate|]. intros [y E]. cbn in E. injection E as -> _. revert I. apply (misses_ok [x3d] lower); [reflexivity|left; reflexivity].
  - cbn [app]. assert (Ed : edge (bs "=" ++ s)) by (exists x3d, s; split; [reflexivity|right; left; reflexivity]). assert (Ty : match t with TTyped _ _ _ => False | _ => True end) by (destruct t; [eapply Gc; reflexivity|exact I|exact I]). assert (Q := target_calm t (b ++ bs "=" ++ s) H). assert (Lt := target_longer t (b ++ bs "=" ++ s) H).
    rewrite <- En. apply (pk_line channels e true _ [[ICont (PToken f0 [] one); ICont (PRule r1 one); ICont (PRule r2 one)]] [ICont (PToken f3 [] one); ICont (PRule r4 one)] []); [exact Nn|exact Em| |rewrite !app_length in *; lia| |constructor].
    + change (Branch (bs "assigneeNames") 0 (word_shape t :: gap_tree b) :: [Text (bs "EQUAL") (bs "=")]) with ([Branch (bs "assigneeNames") 0 (word_shape t :: gap_tree b)] ++ [Text (bs "EQUAL") (bs "=")]). eapply lg_more; [apply tok_gives; [exact Hb|apply names_picks; eassumption|exact Q]|]. rewrite <- (app_nil_r [Text (bs "EQUAL") (bs "=")]). apply one_gives. rewrite app_nil_r. apply (word_gives channels Hb (bs "EQUAL") (bs "=")); [exact J4|intros _; exact Qe].
    + apply bt_bad; [|constructor]. eapply lb_later; [apply tok_gives; [exact Hb|apply firsts_picks; eassumption|exact Q]|]. apply lb_here. apply (word_bad channels Hb _ _ _ _ _ _ J1 Qe). intros [y E]. discriminate.
Qed.
End Read.
