(* ShapeProofs.v - proofs for ProgProps.v: the shape of an element, what its text can start with. *)
From Coq Require Import Strings.String Strings.Byte Lia.
From Verif Require Import Go GoLemmas DomainModel DomainSpec DomainProofs CardModel CardSpec CardProofs PatModel PatSpec PatProofs RuleModel RuleSpec RuleProofs PathModel PathSpec PathProofs LexModel LexSpec LexProofs OrdSpec OrdProofs OrdProofs2 PickSpec PickProofs PickProofs2 LetterProofs.
Open Scope list_scope.

(* ---- rules ---- *)
Definition leaf_b (r : rule) : bool :=
  rule_ok r && match rl_content r with RPattern _ c => match snd (CardModel.delimiter c) with Some m => (m <? 2 ^ 63)%N | None => true end | RConstant c => non_empty c end.
Lemma leaf_ok r : leaf_b r = true -> leaf_rule r.
Proof.
  unfold leaf_b, leaf_rule, good_rule, RuleSpec.fits. intros H. apply andb_prop in H. destruct H as [H1 H2]. destruct (rl_content r) as [c|ps k]; [repeat split; [exact H1|intros ->; discriminate]|].
  assert (K : forall m, snd (CardModel.delimiter k) = Some m -> (m < 2 ^ 63)%N) by (intros m E; rewrite E in H2; apply N.ltb_lt; exact H2). split; [split; [exact H1|]|exact K].
  intros m E. apply K in E. eapply N.lt_trans; [exact E|reflexivity].
Qed.
Inductive want := WConst (n c : bytes) | WClass (n : bytes) (a : list byte) (top : option N) | WUntil (n : bytes) (q : byte).
Definition is_want (w : want) (r : rule) : Prop :=
  leaf_rule r /\
  match w with
  | WConst n c => rl_name r = n /\ rl_content r = RConstant c
  | WClass n a top => rl_name r = n /\ exists ps k, rl_content r = RPattern ps k /\ class_of ps = Some a /\ snd (CardModel.delimiter k) = top
  | WUntil n q => rl_name r = n /\ exists p k, rl_content r = RPattern [p] k /\ until_byte p = Some q /\ snd (CardModel.delimiter k) = None
  end.
Definition same_top (a b : option N) : bool := match a, b with Some x, Some y => N.eqb x y | None, None => true | _, _ => false end.
Definition want_b (w : want) (r : rule) : bool :=
  leaf_b r &&
  match w with
  | WConst n c => bytes_eqb (rl_name r) n && match rl_content r with RConstant d => bytes_eqb d c | _ => false end
  | WClass n a top => bytes_eqb (rl_name r) n && match rl_content r with RPattern ps k => match class_of ps with Some b => bytes_eqb b a | None => false end && same_top (snd (CardModel.delimiter k)) top | _ => false end
  | WUntil n q => bytes_eqb (rl_name r) n && match rl_content r with RPattern [p] k => match until_byte p with Some c => Byte.eqb c q | None => false end && same_top (snd (CardModel.delimiter k)) None | _ => false end
  end.
Lemma same_top_ok a b : same_top a b = true -> a = b.
Proof. destruct a, b; cbn; try discriminate; [|reflexivity]. intros H. apply N.eqb_eq in H. congruence. Qed.
Lemma want_ok w r : want_b w r = true -> is_want w r.
Proof.
  unfold want_b, is_want. intros H. apply andb_prop in H. destruct H as [H1 H]. split; [apply leaf_ok, H1|]. destruct w; apply andb_prop in H; destruct H as [H2 H]; apply bytes_eqb_eq in H2; (split; [exact H2|]).
  - destruct (rl_content r); [|discriminate]. apply bytes_eqb_eq in H. congruence.
  - destruct (rl_content r) as [|ps k]; [discriminate|]. apply andb_prop in H. destruct H as [Ha Ht]. exists ps, k. split; [reflexivity|]. destruct (class_of ps); [|discriminate]. apply bytes_eqb_eq in Ha. subst. split; [reflexivity|apply same_top_ok, Ht].
  - destruct (rl_content r) as [|[|p [|]] k]; try discriminate. apply andb_prop in H. destruct H as [Ha Ht]. exists p, k. split; [reflexivity|]. destruct (until_byte p); [|discriminate]. apply Byte.byte_dec_bl in Ha. subst. split; [reflexivity|apply same_top_ok, Ht].
Qed.

(* ---- what the text of a container can start with ---- *)
Section Heads.
Variable heads : pcontainer -> option (list bytes).
Fixpoint line_heads (l : line) : option (list bytes) := match l with [] => None | ISwitch :: r => line_heads r | ICont c :: _ => heads c end.
Fixpoint lines_heads (ls : list line) : option (list bytes) :=
  match ls with [] => Some [] | l :: r => match line_heads l, lines_heads r with Some a, Some b => Some (a ++ b) | _, _ => None end end.
End Heads.
Fixpoint heads (n : nat) (c : pcontainer) : option (list bytes) :=
  match n with
  | O => None
  | S n =>
    match c with
    | PRule r k => if is_valid k 0 then None else if leaf_b r then rule_heads r else None
    | PToken e [] k => if is_valid k 0 then None else match el_not e with None => lines_heads (heads n) (el_must e) | Some _ => None end
    | _ => None
    end
  end.
Section Cold.
Variable channels : nat -> list path.
Definition cold (s : bytes) (ws : list bytes) : Prop := forall w, In w ws -> ~ is_prefix w s.
Lemma cold_bad n : forall c ws s ch nx, heads n c = Some ws -> cold s ws -> PickSpec.quiet channels s -> s <> [] -> bad channels c ch nx s.
Proof.
  induction n as [|n IH]; intros c ws s ch nx H C Q N; [discriminate|]. cbn [heads] in H. destruct c as [e sp k|r k|nm sp k|ls]; try discriminate.
  - destruct sp; [|discriminate]. destruct (is_valid k 0) eqn:V; [discriminate|]. destruct (el_not e) eqn:En; [discriminate|].
    apply (bd_tokens channels e k ch nx s [] s); [exact N|intros _; left; exact Q| |exact V|exact V]. apply tk_none; [exact En|].
    revert ws H C. generalize (length s) at 1. intros m. induction (el_must e) as [|l ls IHl]; intros ws H C; [constructor|]. cbn [lines_heads] in H. destruct (line_heads (heads n) l) as [a|] eqn:Ea; [|discriminate]. destruct (lines_heads (heads n) ls) as [b|] eqn:Eb; [|discriminate]. injection H as <-.
    apply bt_bad; [|apply (IHl b eq_refl); intros w Hw; apply C, in_or_app; right; exact Hw]. assert (Ca : cold s a) by (intros w Hw; apply C, in_or_app; left; exact Hw). clear -IH Q N Ea Ca. generalize nx at 1 as ch. revert nx. induction l as [|i l IHi]; intros nx ch; [discriminate|]. destruct i as [|c]; cbn [line_heads] in Ea.
    + apply lb_switch. apply IHi. exact Ea.
    + apply lb_here. eapply IH; eauto.
  - destruct (is_valid k 0) eqn:V; [discriminate|]. destruct (leaf_b r) eqn:L; [|discriminate]. apply bd_rule; [apply leaf_ok, L|exact N|intros _; left; exact Q| |exact V].
    intros B. destruct (rule_heads_ok _ _ _ H B) as (w & Hw & _ & P). exact (C w Hw P).
Qed.
Lemma cold_lines n ls ws s nx m : lines_heads (heads n) ls = Some ws -> cold s ws -> PickSpec.quiet channels s -> s <> [] -> beaten channels m nx s ls.
Proof.
  intros H C Q N. revert ws H C. induction ls as [|l ls IHl]; intros ws H C; [constructor|]. cbn [lines_heads] in H. destruct (line_heads (heads n) l) as [a|] eqn:Ea; [|discriminate]. destruct (lines_heads (heads n) ls) as [b|] eqn:Eb; [|discriminate]. injection H as <-.
  apply bt_bad; [|apply (IHl b eq_refl); intros w Hw; apply C, in_or_app; right; exact Hw]. assert (Ca : cold s a) by (intros w Hw; apply C, in_or_app; left; exact Hw). clear -Q N Ea Ca. generalize nx at 1 as ch. revert nx. induction l as [|i l IHi]; intros nx ch; [discriminate|]. destruct i as [|c]; cbn [line_heads] in Ea.
  - apply lb_switch. apply IHi. exact Ea.
  - apply lb_here. eapply cold_bad; eauto.
Qed.
End Cold.

(* ---- shapes ---- *)
Inductive shape :=
| HSwitch
| HRule (w : want) (k : cardinality)
| HTok (name : bytes) (lines : list (list shape)) (k : cardinality)
(* an element that may not be absent, whose text can only start with these words *)
| HHeads (ws : list bytes)
| HRest
(* a recursive reference *)
| HRec (x : bytes).
Definition both {A B} (f : A -> B -> Prop) : list A -> list B -> Prop :=
  fix go l m := match l, m with [], [] => True | a :: l, b :: m => f a b /\ go l m | _, _ => False end.
Definition both_b {A B} (f : A -> B -> bool) : list A -> list B -> bool :=
  fix go l m := match l, m with [], [] => true | a :: l, b :: m => f a b && go l m | _, _ => false end.
Fixpoint has (s : shape) (i : instr) {struct s} : Prop :=
  match s with
  | HSwitch => i = ISwitch
  | HRule w k => exists r, i = ICont (PRule r k) /\ is_want w r
  | HTok n ls k => exists e, i = ICont (PToken e [] k) /\ el_name e = n /\ el_not e = None /\
      (fix lines l m := match l, m with
        | [], [] => True
        | a :: l, b :: m => (fix one l m := match l, m with [], [] => True | a :: l, b :: m => has a b /\ one l m | _, _ => False end) a b /\ lines l m
        | _, _ => False end) ls (el_must e)
  | HHeads ws => exists c k, i = ICont c /\ cont_card c = Ok k /\ is_valid k 0 = false /\ heads 20 c = Some ws
  | HRest => True
  | HRec x => i = ICont (PRec x [] CMandatory)
  end.
Definition card_eqb (a b : cardinality) : bool :=
  match a, b with
  | COptional, COptional | CMandatory, CMandatory | CNonZero, CNonZero | CZero, CZero => true
  | _, _ => false
  end.
Definition all_eqb (a b : list bytes) : bool := both_b bytes_eqb a b.
Fixpoint has_b (s : shape) (i : instr) {struct s} : bool :=
  match s with
  | HSwitch => match i with ISwitch => true | _ => false end
  | HRule w k => match i with ICont (PRule r k') => card_eqb k' k && want_b w r | _ => false end
  | HTok n ls k =>
      match i with
      | ICont (PToken e [] k') => card_eqb k' k && bytes_eqb (el_name e) n && match el_not e with None => true | _ => false end &&
        (fix lines l m := match l, m with
        | [], [] => true
        | a :: l, b :: m => (fix one l m := match l, m with [], [] => true | a :: l, b :: m => has_b a b && one l m | _, _ => false end) a b && lines l m
        | _, _ => false end) ls (el_must e)
      | _ => false
      end
  | HHeads ws => match i with ICont c => match cont_card c with Ok k => negb (is_valid k 0) | _ => false end && match heads 20 c with Some x => all_eqb x ws | None => false end | _ => false end
  | HRest => true
  | HRec x => match i with ICont (PRec y [] CMandatory) => bytes_eqb y x | _ => false end
  end.
Lemma card_eqb_ok a b : card_eqb a b = true -> a = b.
Proof. destruct a, b; cbn; congruence. Qed.
Lemma all_eqb_ok a : forall b, all_eqb a b = true -> a = b.
Proof. induction a as [|x a IH]; intros [|y b] H; try discriminate; [reflexivity|]. apply andb_prop in H. destruct H as [H1 H2]. apply bytes_eqb_eq in H1. apply IH in H2. congruence. Qed.
Fixpoint has_ok (s : shape) {struct s} : forall i, has_b s i = true -> has s i.
Proof.
  destruct s as [|w k|n ls k|ws| |x]; intros i H; cbn [has_b] in H; cbn [has].
  - destruct i; [reflexivity|discriminate].
  - destruct i as [|[e sp k'|r k'|? ? ?|?]]; try discriminate. apply andb_prop in H. destruct H as [H1 H2]. apply card_eqb_ok in H1. subst. exists r. split; [reflexivity|apply want_ok, H2].
  - destruct i as [|[e [|] k'|r k'|? ? ?|?]]; try discriminate. apply andb_prop in H. destruct H as [H H4]. apply andb_prop in H. destruct H as [H H3]. apply andb_prop in H. destruct H as [H1 H2]. apply card_eqb_ok in H1. apply bytes_eqb_eq in H2. subst. exists e. split; [reflexivity|]. split; [reflexivity|].
    split; [destruct (el_not e); [discriminate|reflexivity]|]. revert H4. generalize (el_must e). induction ls as [|l ls IHl]; intros [|m ms] H; try discriminate; [exact I|]. apply andb_prop in H. destruct H as [H1 H2]. split; [|apply IHl, H2]. clear -has_ok H1. revert m H1.
    induction l as [|a l IH]; intros [|b m] H; try discriminate; [exact I|]. apply andb_prop in H. destruct H as [H1 H2]. split; [apply has_ok, H1|apply IH, H2].
  - destruct i as [|c]; [discriminate|]. apply andb_prop in H. destruct H as [H1 H2]. destruct (cont_card c) as [k| | |] eqn:Ek; try discriminate. destruct (heads 20 c) as [x|] eqn:Ex; [|discriminate]. apply all_eqb_ok in H2. subst. exists c, k. repeat split; auto. destruct (is_valid k 0); [discriminate|reflexivity].
  - exact I.
  - destruct i as [|[? ? ?|? ?|y [|] [| | | |]|?]]; try discriminate. apply bytes_eqb_eq in H. subst. reflexivity.
Qed.
