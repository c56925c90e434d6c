(* ProgProofs4.v - proofs for ProgProps.v: reading instructions. *)
From Coq Require Import Strings.String Strings.Byte Lia.
From Verif Require Import Go GoLemmas DomainModel DomainSpec CardModel CardSpec PatModel PatSpec PatProofs RuleModel RuleSpec PathModel PathSpec LexModel LexSpec OrdSpec OrdProofs2 PickSpec PickProofs2 LetterProofs ShapeProofs ProgSpec ShapeProofs2 ProgProofs ProgProofs2 ProgProofs3.
Open Scope list_scope.

Section Read.
Variable channels : nat -> list path.
Hypothesis Hc : plain_channels channels.
Hypothesis Hb : blank_channels channels.
Notation quiet := (PickSpec.quiet channels).
Notation gives := (gives channels).
Notation bad := (bad channels).
Notation line_gives := (line_gives channels).
Notation line_bad := (line_bad channels).
Notation beaten := (beaten channels).
Notation picks := (picks channels).
Notation dead := (dead channels).

Definition directions := [("BREAK", "break"); ("CONTINUE", "continue")]%string.
Lemma first_decl e t g w rest : to sh_first e -> is_gap g -> is_name w -> ends_class letters rest -> exists x, picks e true (type_text t ++ g ++ w ++ rest) x rest.
Proof.
  intros (En & Nn & L) G W R. cbn [both] in L. destruct (el_must e) as [|[|i0 [|? ?]] [|[|i1 [|? ?]] [|? ?]]] eqn:Em; try tauto. destruct L as ((K0 & _) & (K1 & _) & _). apply has_tok in K0. destruct K0 as (e0 & -> & K0). apply has_tok in K1. destruct K1 as (e1 & -> & K1).
  assert (Q := type_calm t (g ++ w ++ rest)). destruct (assignee_name_picks channels Hb e1 (type_text t) (g ++ w ++ rest) K1 (type_name t) (gap_ends g _ G)) as (x & Px).
  eexists. apply (pk_line channels e true _ [] [ICont (PToken e0 [] one)] [[ICont (PToken e1 [] one)]]); [exact Nn|exact Em|apply one_gives, tok_gives; [exact Hb|apply decl_picks; [exact Hc|exact Hb|exact K0|apply G|exact W|exact R]|exact Q]|rewrite !app_length; destruct t; cbn; lia|constructor|].
  eapply bt_less; [apply one_gives, tok_gives; [exact Hb|exact Px|exact Q]|rewrite !app_length; lia|constructor].
Qed.
Definition word_stmt (x : stmt) : Prop := x = SBreak \/ x = SContinue.
Lemma word_is_name w : existsb (bytes_eqb w) [bs "break"; bs "continue"] = true -> is_name w.
Proof.
  assert (K : forall a v, in_b a lower = true -> v <> [] -> forallb (fun b => in_b b letters) v = true -> is_name (a :: v)).
  { intros a v I N F. exists a, v. split; [reflexivity|]. split; [apply in_b_ok, I|]. split; [exact N|]. apply Forall_forall. intros b Ib. rewrite forallb_forall in F. apply in_b_ok, (F _ Ib). }
  intros H. apply existsb_exists in H. destruct H as (x & [<-|[<-|[]]] & E); apply bytes_eqb_eq in E; subst w; apply K; try reflexivity; discriminate.
Qed.
(* an instruction that starts with a name (or a word), of which the rest cannot be an assignment *)
Lemma instr_lines e w r0 rest1 : tok_is (bs "instruction") sh_instruction e -> is_name w -> ends_class letters r0 -> next r0 -> (forall e0, to sh_first e0 -> exists t, picks e0 true (w ++ r0) t rest1) -> next rest1 -> length rest1 < length (w ++ r0) ->
  cold (w ++ r0) [bs "if"] -> cold (w ++ r0) [bs "for"] -> cold (w ++ r0) [bs "log"] ->
  exists c0 e1 c2 c3 c4 e5 e6, el_must e = [[ICont c0]; [ICont (PToken e1 [] one)]; [ICont c2]; [ICont c3]; [ICont c4]; [ICont (PToken e5 [] one)]; [ICont (PToken e6 [] one)]] /\
    Forall (dead (w ++ r0)) [[ICont c0]; [ICont c2]; [ICont c3]; [ICont c4]] /\ to sh_decl e1 /\ tok_is (bs "direction") (word_lines directions) e5 /\ to sh_increment e6.
Proof.
  intros (En & Nn & L) W R N0 P N1 Lt C2 C3 C4. assert (Q := name_calm w r0 W). unfold sh_instruction in L.
  apply both_cons in L. destruct L as (l0 & ls & Em & K0 & L). apply both_cons in L. destruct L as (l1 & ls1 & -> & K1 & L). apply both_cons in L. destruct L as (l2 & ls2 & -> & K2 & L). apply both_cons in L. destruct L as (l3 & ls3 & -> & K3 & L). apply both_cons in L. destruct L as (l4 & ls4 & -> & K4 & L). apply both_cons in L. destruct L as (l5 & ls5 & -> & K5 & L). apply both_cons in L. destruct L as (l6 & ls6 & -> & K6 & L). apply both_nil in L. subst ls6.
  assert (S : forall k l, both has [k] l -> exists i, l = [i] /\ has k i) by (intros k [|i [|? ?]]; cbn [both]; try tauto; intros [H _]; eauto).
  apply S in K0. destruct K0 as (i0 & -> & K0). apply S in K1. destruct K1 as (i1 & -> & K1). apply S in K2. destruct K2 as (i2 & -> & K2). apply S in K3. destruct K3 as (i3 & -> & K3). apply S in K4. destruct K4 as (i4 & -> & K4). apply S in K5. destruct K5 as (i5 & -> & K5). apply S in K6. destruct K6 as (i6 & -> & K6).
  apply has_tok in K0. destruct K0 as (e0 & -> & K0). apply has_tok in K1. destruct K1 as (e1 & -> & K1). apply has_tok in K5. destruct K5 as (e5 & -> & K5). apply has_tok in K6. destruct K6 as (e6 & -> & K6).
  destruct (lines_cold channels Hb _ _ _ K2 Q C2 true true) as (c2 & -> & B2). destruct (lines_cold channels Hb _ _ _ K3 Q C3 true true) as (c3 & -> & B3). destruct (lines_cold channels Hb _ _ _ K4 Q C4 true true) as (c4 & -> & B4).
  exists (PToken e0 [] one), e1, c2, c3, c4, e5, e6. split; [exact Em|]. split; [|split; [exact K1|split; [exact K5|exact K6]]].
  assert (B0 := assignment_bad channels Hc Hb e0 true (w ++ r0) w r0 rest1 K0 eq_refl W R N0 P N1 Lt).
  repeat (constructor; [eexists; split; [reflexivity|assumption]|]). constructor.
Qed.
Lemma dead_one s c : bad c true true s -> dead s [ICont c].
Proof. intros B. exists c. auto. Qed.
Lemma instr_picks e g x rest : tok_is (bs "instruction") sh_instruction e -> Forall (fun b => In b spaces) g -> good_stmt x -> follows rest -> picks e true (g ++ stmt_text x ++ rest) (instr_tree g x) rest.
Proof.
  intros T G X F. assert (Nf := follows_next rest F). assert (Re := follows_ends rest F). assert (En := proj1 T). assert (Nn := proj1 (proj2 T)). unfold instr_tree. rewrite <- En.
  destruct x as [t gp nm| | |w|w]; cbn [stmt_text stmt_tree fst snd].
  - destruct X as (Xg & Xn & Xr). rewrite <- !app_assoc. assert (Q := type_calm t (gp ++ nm ++ rest)). assert (Rg := gap_ends gp (nm ++ rest) Xg).
    assert (N0 : next (gp ++ nm ++ rest)).
    { exists gp, (nm ++ rest). split; [reflexivity|]. split; [apply Xg|]. destruct Xn as (a & v & -> & I & _). split; [right; exists a, (v ++ rest); split; [reflexivity|apply lower_nexts, I]|discriminate]. }
    destruct (instr_lines e (type_text t) (gp ++ nm ++ rest) rest T (type_name t) Rg N0) as (c0 & e1 & c2 & c3 & c4 & e5 & e6 & Em & D & K1 & K5 & K6).
    { intros e0 K. apply first_decl; assumption. } { exact Nf. } { rewrite !app_length. destruct t; cbn; lia. } { apply apart_cold. destruct t; reflexivity. } { apply apart_cold. destruct t; reflexivity. } { apply apart_cold. destruct t; reflexivity. }
    inversion D as [|? ? D0 D']; subst. inversion D' as [|? ? D2 D'']; subst. inversion D'' as [|? ? D3 D''']; subst. inversion D''' as [|? ? D4 _]; subst.
    apply (only_line channels Hc Hb e g _ [[ICont c0]] (PToken e1 [] one) [[ICont c2]; [ICont c3]; [ICont c4]; [ICont (PToken e5 [] one)]; [ICont (PToken e6 [] one)]]); [exact Nn|exact Em|exact G|exact Q|repeat (constructor; try assumption)| |apply tok_gives; [exact Hb|apply decl_picks; [exact Hc|exact Hb|exact K1|apply Xg|exact Xn|exact Re]|exact Q]|rewrite !app_length; destruct t; cbn; lia].
    constructor; [exact D2|]. constructor; [exact D3|]. constructor; [exact D4|]. constructor; [apply dead_one; eapply words_bad; [exact Hb|exact K5|exact Q|apply apart_words; destruct t; reflexivity]|]. constructor; [|constructor].
    apply dead_one. apply increment_bad; [exact Hb|exact K6|apply type_name|exact Rg|]. intros e0 K. assert (Qn := name_calm nm rest Xn). apply lead_bad; [exact Hc|exact Hb|apply Xg|exact Qn|]. apply by_bad; [exact Hb|exact K|exact Qn| |]; destruct Xn as (a & v & -> & I & _); intros [y E]; cbn in E; injection E as -> _.
    + apply (misses_ok [x2b] lower x2b); [reflexivity|left; reflexivity|exact I].
    + apply (misses_ok [x2d] lower x2d); [reflexivity|left; reflexivity|exact I].
  - assert (W := word_is_name (bs "break") eq_refl). assert (Q := name_calm (bs "break") rest W).
    destruct (instr_lines e (bs "break") rest rest T W Re Nf) as (c0 & e1 & c2 & c3 & c4 & e5 & e6 & Em & D & K1 & K5 & K6).
    { intros e0 K. apply first_cold; [exact Hb|exact K|exact W|exact Re|apply apart_cold; reflexivity]. } { exact Nf. } { cbn; lia. } { apply apart_cold; reflexivity. } { apply apart_cold; reflexivity. } { apply apart_cold; reflexivity. }
    inversion D as [|? ? D0 D']; subst. inversion D' as [|? ? D2 D'']; subst. inversion D'' as [|? ? D3 D''']; subst. inversion D''' as [|? ? D4 _]; subst.
    apply (only_line channels Hc Hb e g _ [[ICont c0]; [ICont (PToken e1 [] one)]; [ICont c2]; [ICont c3]; [ICont c4]] (PToken e5 [] one) [[ICont (PToken e6 [] one)]]); [exact Nn|exact Em|exact G|exact Q| | | |cbn; lia].
    + constructor; [exact D0|]. constructor; [apply dead_one, decl_cold; [exact Hb|exact K1|exact Q|apply apart_cold; reflexivity]|]. repeat (constructor; try assumption).
    + constructor; [|constructor]. apply dead_one. apply increment_bad; [exact Hb|exact K6|exact W|exact Re|]. intros e0 K. apply by_follows; assumption.
    + apply tok_gives; [exact Hb| |exact Q]. eapply (words_there channels Hb _ directions e5 0 [] ("BREAK", "break")%string); [exact K5|reflexivity|reflexivity|exact Q|discriminate|reflexivity].
  - assert (W := word_is_name (bs "continue") eq_refl). assert (Q := name_calm (bs "continue") rest W).
    destruct (instr_lines e (bs "continue") rest rest T W Re Nf) as (c0 & e1 & c2 & c3 & c4 & e5 & e6 & Em & D & K1 & K5 & K6).
    { intros e0 K. apply first_cold; [exact Hb|exact K|exact W|exact Re|apply apart_cold; reflexivity]. } { exact Nf. } { cbn; lia. } { apply apart_cold; reflexivity. } { apply apart_cold; reflexivity. } { apply apart_cold; reflexivity. }
    inversion D as [|? ? D0 D']; subst. inversion D' as [|? ? D2 D'']; subst. inversion D'' as [|? ? D3 D''']; subst. inversion D''' as [|? ? D4 _]; subst.
    apply (only_line channels Hc Hb e g _ [[ICont c0]; [ICont (PToken e1 [] one)]; [ICont c2]; [ICont c3]; [ICont c4]] (PToken e5 [] one) [[ICont (PToken e6 [] one)]]); [exact Nn|exact Em|exact G|exact Q| | | |cbn; lia].
    + constructor; [exact D0|]. constructor; [apply dead_one, decl_cold; [exact Hb|exact K1|exact Q|apply apart_cold; reflexivity]|]. repeat (constructor; try assumption).
    + constructor; [|constructor]. apply dead_one. apply increment_bad; [exact Hb|exact K6|exact W|exact Re|]. intros e0 K. apply by_follows; assumption.
    + apply tok_gives; [exact Hb| |exact Q]. eapply (words_there channels Hb _ directions e5 1 [("BREAK", "break")]%string ("CONTINUE", "continue")%string); [exact K5|reflexivity|reflexivity|exact Q|discriminate|reflexivity].
  - destruct X as [Xn Xo]. rewrite <- app_assoc. assert (Q := name_calm w (bs "++" ++ rest) Xn).
    assert (Rp : ends_class letters (bs "++" ++ rest)) by (intros b t' E; injection E as <- _; apply (misses_ok [x2b] letters); [reflexivity|left; reflexivity]).
    assert (Np : next (bs "++" ++ rest)) by (exists [], (bs "++" ++ rest); split; [reflexivity|]; split; [constructor|]; split; [right; exists x2b, (x2b :: rest); split; [reflexivity|apply in_or_app; right; left; reflexivity]|discriminate]).
    assert (Cl : forall os, forallb (fun o => existsb (bytes_eqb o) openers) os = true -> cold (w ++ bs "++" ++ rest) os).
    { intros os H. apply opener_cold; [exact Xn|exact Xo|exact Rp|]. intros o Io. rewrite forallb_forall in H. specialize (H _ Io). cbv beta in H. apply existsb_exists in H. destruct H as (o' & I' & E). apply bytes_eqb_eq in E. subst o'. exact I'. }
    destruct (instr_lines e w (bs "++" ++ rest) (bs "++" ++ rest) T Xn Rp Np) as (c0 & e1 & c2 & c3 & c4 & e5 & e6 & Em & D & K1 & K5 & K6).
    { intros e0 K. apply first_cold; [exact Hb|exact K|exact Xn|exact Rp|apply Cl; reflexivity]. } { exact Np. } { rewrite (app_length w). destruct Xn as (a & v & -> & _). cbn [length]. lia. } { apply Cl; reflexivity. } { apply Cl; reflexivity. } { apply Cl; reflexivity. }
    inversion D as [|? ? D0 D']; subst. inversion D' as [|? ? D2 D'']; subst. inversion D'' as [|? ? D3 D''']; subst. inversion D''' as [|? ? D4 _]; subst.
    apply (only_line channels Hc Hb e g _ [[ICont c0]; [ICont (PToken e1 [] one)]; [ICont c2]; [ICont c3]; [ICont c4]; [ICont (PToken e5 [] one)]] (PToken e6 [] one) []); [exact Nn|exact Em|exact G|exact Q| |constructor| |rewrite !app_length; cbn; lia].
    + constructor; [exact D0|]. constructor; [apply dead_one, decl_cold; [exact Hb|exact K1|exact Q|apply Cl; reflexivity]|]. constructor; [exact D2|]. constructor; [exact D3|]. constructor; [exact D4|]. constructor; [|constructor]. apply dead_one. eapply words_bad; [exact Hb|exact K5|exact Q|].
      intros n c I. apply (Cl [bs "break"; bs "continue"] eq_refl). destruct I as [I|[I|[]]]; injection I as <- <-; cbn; auto.
    + apply tok_gives; [exact Hb| |exact Q]. apply increment_picks; [exact Hb|exact K6|exact Xn|exact Rp|apply plus_calm|rewrite app_length; lia|]. intros e0 K. apply up_picks; assumption.
  - destruct X as [Xn Xo]. rewrite <- app_assoc. assert (Q := name_calm w (bs "--" ++ rest) Xn).
    assert (Rp : ends_class letters (bs "--" ++ rest)) by (intros b t' E; injection E as <- _; apply (misses_ok [x2d] letters); [reflexivity|left; reflexivity]).
    assert (Np : next (bs "--" ++ rest)) by (exists [], (bs "--" ++ rest); split; [reflexivity|]; split; [constructor|]; split; [right; exists x2d, (x2d :: rest); split; [reflexivity|apply in_or_app; right; right; left; reflexivity]|discriminate]).
    assert (Cl : forall os, forallb (fun o => existsb (bytes_eqb o) openers) os = true -> cold (w ++ bs "--" ++ rest) os).
    { intros os H. apply opener_cold; [exact Xn|exact Xo|exact Rp|]. intros o Io. rewrite forallb_forall in H. specialize (H _ Io). cbv beta in H. apply existsb_exists in H. destruct H as (o' & I' & E). apply bytes_eqb_eq in E. subst o'. exact I'. }
    destruct (instr_lines e w (bs "--" ++ rest) (bs "--" ++ rest) T Xn Rp Np) as (c0 & e1 & c2 & c3 & c4 & e5 & e6 & Em & D & K1 & K5 & K6).
    { intros e0 K. apply first_cold; [exact Hb|exact K|exact Xn|exact Rp|apply Cl; reflexivity]. } { exact Np. } { rewrite (app_length w). destruct Xn as (a & v & -> & _). cbn [length]. lia. } { apply Cl; reflexivity. } { apply Cl; reflexivity. } { apply Cl; reflexivity. }
    inversion D as [|? ? D0 D']; subst. inversion D' as [|? ? D2 D'']; subst. inversion D'' as [|? ? D3 D''']; subst. inversion D''' as [|? ? D4 _]; subst.
    apply (only_line channels Hc Hb e g _ [[ICont c0]; [ICont (PToken e1 [] one)]; [ICont c2]; [ICont c3]; [ICont c4]; [ICont (PToken e5 [] one)]] (PToken e6 [] one) []); [exact Nn|exact Em|exact G|exact Q| |constructor| |rewrite !app_length; cbn; lia].
    + constructor; [exact D0|]. constructor; [apply dead_one, decl_cold; [exact Hb|exact K1|exact Q|apply Cl; reflexivity]|]. constructor; [exact D2|]. constructor; [exact D3|]. constructor; [exact D4|]. constructor; [|constructor]. apply dead_one. eapply words_bad; [exact Hb|exact K5|exact Q|].
      intros n c I. apply (Cl [bs "break"; bs "continue"] eq_refl). destruct I as [I|[I|[]]]; injection I as <- <-; cbn; auto.
    + apply tok_gives; [exact Hb| |exact Q]. apply increment_picks; [exact Hb|exact K6|exact Xn|exact Rp|apply minus_calm|rewrite app_length; lia|]. intros e0 K. apply down_picks; assumption.
Qed.
End Read.
