(* ProgProofs3.v - proofs for ProgProps.v: reading instructions and programs. *)
From Coq Require Import Strings.String Strings.Byte Lia.
From Verif Require Import Go GoLemmas DomainModel DomainSpec CardModel CardSpec PatModel PatSpec PatProofs RuleModel RuleSpec PathModel PathSpec LexModel LexSpec OrdSpec OrdProofs2 PickSpec PickProofs2 LetterProofs ShapeProofs ProgSpec ShapeProofs2 ProgProofs ProgProofs2.
Open Scope list_scope.

(* ---- the trees of a program ---- *)
Definition by_tree (n : string) (i : nat) (c : string) : tree := Branch (bs "intIncrementValue") i [Text (bs n) (bs c); Text (bs n) (bs c)].
Definition stmt_tree (x : stmt) : nat * tree :=
  match x with
  | SDeclare t g w => (1, decl_tree t g w)
  | SBreak => (5, Branch (bs "direction") 0 [Text (bs "BREAK") (bs "break")])
  | SContinue => (5, Branch (bs "direction") 1 [Text (bs "CONTINUE") (bs "continue")])
  | SUp w => (6, Branch (bs "intIncrement") 0 [name_tree w; by_tree "PLUS" 0 "+"])
  | SDown w => (6, Branch (bs "intIncrement") 0 [name_tree w; by_tree "MINUS" 1 "-"])
  end.
Definition instr_tree (g : bytes) (x : stmt) : tree := Branch (bs "instruction") (fst (stmt_tree x)) (lead g ++ [snd (stmt_tree x)]).
(* the instructions, each with the gap before it *)
Definition instrs_tree (l : list (bytes * stmt)) : tree := Branch (bs "instructions") 0 (map (fun y => instr_tree (fst y) (snd y)) l).

(* what follows an instruction *)
Definition follows (rest : bytes) : Prop := rest = [] \/ exists g b s, rest = g ++ b :: s /\ is_gap g /\ In b lower.
Lemma lower_nexts b : In b lower -> In b nexts.
Proof. intros H. apply in_or_app. left. exact H. Qed.
Lemma follows_next rest : follows rest -> next rest.
Proof.
  intros [->|(g & b & s & -> & [_ G] & I)]; [exists [], []|exists g, (b :: s)].
  - repeat split; [constructor|left; reflexivity].
  - split; [reflexivity|]. split; [exact G|]. split; [right; exists b, s; split; [reflexivity|apply lower_nexts, I]|discriminate].
Qed.
Lemma gap_ends g s : is_gap g -> ends_class letters (g ++ s).
Proof. intros [N F] b t E. destruct g as [|a g]; [contradiction|]. cbn in E. injection E as <- _. inversion F as [|? ? I _]. apply (misses_ok spaces letters); [reflexivity|exact I]. Qed.
Lemma follows_ends rest : follows rest -> ends_class letters rest.
Proof. intros [->|(g & b & s & -> & G & _)]; [intros b t E; discriminate|apply gap_ends, G]. Qed.
Lemma name_cold w r os : is_name w -> ends_class letters r -> forallb (fun o => forallb (fun b => in_b b letters) o) os = true -> (forall o, In o os -> ~ exists v, w = o ++ v) -> cold (w ++ r) os.
Proof.
  intros _ R F N o Io [y E]. rewrite forallb_forall in F. specialize (F _ Io). cbv beta in F. rewrite forallb_forall in F. specialize (N _ Io). clear Io. revert w N E. induction o as [|a o IH]; intros w N E; [apply N; exists w; reflexivity|].
  destruct w as [|b w]; cbn in E.
  - apply (R a (o ++ y) E). apply in_b_ok, F. left. reflexivity.
  - injection E as <- E. apply (IH (fun x Hx => F x (or_intror Hx)) w); [|exact E]. intros [v ->]. apply N. exists v. reflexivity.
Qed.
Lemma opener_cold w r os : is_name w -> (forall o, In o openers -> ~ exists v, w = o ++ v) -> ends_class letters r -> (forall o, In o os -> In o openers) -> cold (w ++ r) os.
Proof.
  intros W N R I. intros o Io. assert (C := name_cold w r openers W R eq_refl N). apply C, I, Io.
Qed.

Section Read.
Variable channels : nat -> list path.
Hypothesis Hc : plain_channels channels.
Hypothesis Hb : blank_channels channels.
Notation quiet := (PickSpec.quiet channels).
Notation gives := (gives channels).
Notation bad := (bad channels).
Notation line_gives := (line_gives channels).
Notation line_bad := (line_bad channels).
Notation beaten := (beaten channels).
Notation picks := (picks channels).

Definition dead (s : bytes) (l : line) : Prop := exists c, l = [ICont c] /\ bad c true true s.
Lemma dead_beaten g s m ls : Forall (fun b => In b spaces) g -> calm s -> Forall (dead s) ls -> beaten m true (g ++ s) ls.
Proof. intros G Q F. induction F as [|l ls (c & -> & B) F IH]; [constructor|]. apply bt_bad; [|exact IH]. apply lb_here. apply lead_bad; assumption. Qed.
Lemma only_line e g s before c after t rest : el_not e = None -> el_must e = before ++ [ICont c] :: after -> Forall (fun b => In b spaces) g -> calm s -> Forall (dead s) before -> Forall (dead s) after ->
  gives c true true s [t] rest -> length rest < length s -> picks e true (g ++ s) (Branch (el_name e) (length before) (lead g ++ [t])) rest.
Proof.
  intros Nn Em G Q Fb Fa H Lt. apply (pk_line channels e true (g ++ s) before [ICont c] after); [exact Nn|exact Em|apply one_gives, lead_gives; assumption|rewrite app_length; lia|apply dead_beaten; assumption|apply dead_beaten; assumption].
Qed.
(* ++ and -- *)
Lemma by_bad e s : to sh_by e -> calm s -> ~ is_prefix (bs "+") s -> ~ is_prefix (bs "-") s -> bad (PToken e [] one) true true s.
Proof.
  intros (En & Nn & L) Q N1 N2. cbn [both] in L. destruct (el_must e) as [|[|i0 [|i1 [|? ?]]] [|[|i2 [|i3 [|? ?]]] [|? ?]]] eqn:Em; try tauto. destruct L as ((K0 & _) & (K2 & _) & _). destruct K0 as (r0 & -> & K0). destruct K2 as (r2 & -> & K2).
  apply tok_bad; [exact Hb|exact Nn| |exact Q]. rewrite Em. apply bt_bad; [|apply bt_bad; [|constructor]]; apply lb_here; eapply word_bad; eauto.
Qed.
Lemma by_follows e rest : to sh_by e -> follows rest -> bad (PToken e [] one) true true rest.
Proof.
  intros K [->|(g & b & s & -> & [_ G] & I)]; [eapply bd_end; reflexivity|]. assert (Q : calm (b :: s)) by (apply settled_calm, lower_nexts, I). apply lead_bad; [exact Hc|exact Hb|exact G|exact Q|]. apply by_bad; [exact K|exact Q| |]; intros [y E]; cbn in E; injection E as -> _.
  - apply (misses_ok [x2b] lower x2b); [reflexivity|left; reflexivity|exact I].
  - apply (misses_ok [x2d] lower x2d); [reflexivity|left; reflexivity|exact I].
Qed.
Lemma plus_calm s : calm (x2b :: s).
Proof. apply settled_calm. apply in_or_app. right. left. reflexivity. Qed.
Lemma minus_calm s : calm (x2d :: s).
Proof. apply settled_calm. apply in_or_app. right. right. left. reflexivity. Qed.
Lemma up_picks e rest : to sh_by e -> picks e true (bs "++" ++ rest) (by_tree "PLUS" 0 "+") rest.
Proof.
  intros (En & Nn & L). cbn [both] in L. destruct (el_must e) as [|[|i0 [|i1 [|? ?]]] [|[|i2 [|i3 [|? ?]]] [|? ?]]] eqn:Em; try tauto. destruct L as ((K0 & K1 & _) & (K2 & _) & _). destruct K0 as (r0 & -> & K0). destruct K1 as (r1 & -> & K1). destruct K2 as (r2 & -> & K2).
  unfold by_tree. rewrite <- En. apply (pk_line channels e true (bs "++" ++ rest) [] [ICont (PRule r0 one); ICont (PRule r1 one)] [[ICont (PRule r2 one); i3]]); [exact Nn|exact Em| |rewrite app_length; cbn; lia|constructor|].
  - apply (lg_more channels _ _ true true _ [Text (bs "PLUS") (bs "+")] (bs "+" ++ rest) [Text (bs "PLUS") (bs "+")]).
    + apply (word_gives channels Hb (bs "PLUS") (bs "+") r0 true true (bs "+" ++ rest)); [exact K0|intros _; apply plus_calm].
    + apply one_gives. apply (word_gives channels Hb (bs "PLUS") (bs "+") r1 true true rest); [exact K1|intros _; apply plus_calm].
  - apply bt_bad; [|constructor]. apply lb_here. eapply word_bad; [exact Hb|exact K2|apply plus_calm|]. intros [y E]. discriminate.
Qed.
Lemma down_picks e rest : to sh_by e -> picks e true (bs "--" ++ rest) (by_tree "MINUS" 1 "-") rest.
Proof.
  intros (En & Nn & L). cbn [both] in L. destruct (el_must e) as [|[|i0 [|i1 [|? ?]]] [|[|i2 [|i3 [|? ?]]] [|? ?]]] eqn:Em; try tauto. destruct L as ((K0 & K1 & _) & (K2 & K3 & _) & _). destruct K0 as (r0 & -> & K0). destruct K3 as (r3 & -> & K3). destruct K2 as (r2 & -> & K2).
  unfold by_tree. rewrite <- En. apply (pk_line channels e true (bs "--" ++ rest) [[ICont (PRule r0 one); i1]] [ICont (PRule r2 one); ICont (PRule r3 one)] []); [exact Nn|exact Em| |rewrite app_length; cbn; lia| |constructor].
  - apply (lg_more channels _ _ true true _ [Text (bs "MINUS") (bs "-")] (bs "-" ++ rest) [Text (bs "MINUS") (bs "-")]).
    + apply (word_gives channels Hb (bs "MINUS") (bs "-") r2 true true (bs "-" ++ rest)); [exact K2|intros _; apply minus_calm].
    + apply one_gives. apply (word_gives channels Hb (bs "MINUS") (bs "-") r3 true true rest); [exact K3|intros _; apply minus_calm].
  - apply bt_bad; [|constructor]. apply lb_here. eapply word_bad; [exact Hb|exact K0|apply minus_calm|]. intros [y E]. discriminate.
Qed.
Lemma increment_bad e w r0 : to sh_increment e -> is_name w -> ends_class letters r0 -> (forall e0, to sh_by e0 -> bad (PToken e0 [] one) true true r0) -> bad (PToken e [] one) true true (w ++ r0).
Proof.
  intros (En & Nn & L) W R B. cbn [both] in L. destruct (el_must e) as [|[|i0 [|i1 [|? ?]]] [|? ?]] eqn:Em; try tauto. destruct L as ((K0 & K1 & _) & _). apply has_tok in K0. destruct K0 as (e0 & -> & K0). apply has_tok in K1. destruct K1 as (e1 & -> & K1). assert (Q := name_calm w r0 W).
  apply tok_bad; [exact Hb|exact Nn| |exact Q]. rewrite Em. apply bt_bad; [|constructor]. eapply lb_later; [apply tok_gives; [exact Hb|apply name_picks; eassumption|exact Q]|]. apply lb_here, B, K1.
Qed.
Lemma increment_picks e w r0 rest t : to sh_increment e -> is_name w -> ends_class letters r0 -> calm r0 -> length rest <= length r0 -> (forall e0, to sh_by e0 -> picks e0 true r0 t rest) -> picks e true (w ++ r0) (Branch (bs "intIncrement") 0 [name_tree w; t]) rest.
Proof.
  intros (En & Nn & L) W R Q0 Lr P. cbn [both] in L. destruct (el_must e) as [|[|i0 [|i1 [|? ?]]] [|? ?]] eqn:Em; try tauto. destruct L as ((K0 & K1 & _) & _). apply has_tok in K0. destruct K0 as (e0 & -> & K0). apply has_tok in K1. destruct K1 as (e1 & -> & K1). assert (Q := name_calm w r0 W).
  rewrite <- En. apply (pk_line channels e true (w ++ r0) [] [ICont (PToken e0 [] one); ICont (PToken e1 [] one)] []); [exact Nn|exact Em| |rewrite app_length; destruct W as (a & v & -> & _); cbn; lia|constructor|constructor].
  apply (lg_more channels _ _ true true (w ++ r0) [name_tree w] r0 [t]); [apply tok_gives; [exact Hb|apply name_picks; eassumption|exact Q]|]. apply one_gives, tok_gives; [exact Hb|apply P, K1|exact Q0].
Qed.
Lemma first_cold e w r0 : to sh_first e -> is_name w -> ends_class letters r0 -> cold (w ++ r0) type_words -> exists t, picks e true (w ++ r0) t r0.
Proof.
  intros (En & Nn & L) W R C. cbn [both] in L. destruct (el_must e) as [|[|i0 [|? ?]] [|[|i1 [|? ?]] [|? ?]]] eqn:Em; try tauto. destruct L as ((K0 & _) & (K1 & _) & _). apply has_tok in K0. destruct K0 as (e0 & -> & K0). apply has_tok in K1. destruct K1 as (e1 & -> & K1). assert (Q := name_calm w r0 W). destruct (assignee_name_picks channels Hb e1 w r0 K1 W R) as (x & Px).
  eexists. apply (pk_line channels e true (w ++ r0) [[ICont (PToken e0 [] one)]] [ICont (PToken e1 [] one)] []); [exact Nn|exact Em|apply one_gives, tok_gives; [exact Hb|exact Px|exact Q]|rewrite app_length; destruct W as (a & v & -> & _); cbn; lia| |constructor].
  apply bt_bad; [|constructor]. apply lb_here. apply decl_cold; assumption.
Qed.
End Read.
