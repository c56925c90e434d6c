(* ProgProofs.v - proofs for ProgProps.v: reading names, types and declarations. *)
From Coq Require Import Strings.String Strings.Byte Lia.
From Verif Require Import Go GoLemmas DomainModel DomainSpec CardModel CardSpec PatModel PatSpec PatProofs RuleModel RuleSpec PathModel PathSpec LexModel LexSpec OrdSpec OrdProofs2 PickSpec PickProofs2 LetterProofs ShapeProofs ProgSpec ShapeProofs2.
Open Scope list_scope.

(* ---- bytes ---- *)
Definition letters : list byte := lower ++ upper.
Fixpoint prefix_b (a b : bytes) : bool := match a, b with [], _ => true | x :: a, y :: b => Byte.eqb x y && prefix_b a b | _, [] => false end.
Lemma prefix_b_ok a : forall b, is_prefix a b -> prefix_b a b = true.
Proof. induction a as [|x a IH]; intros b [r E]; [reflexivity|]. subst b. cbn. rewrite Byte.byte_dec_lb by reflexivity. apply IH. exists r. reflexivity. Qed.
Lemma prefix_two a b s : is_prefix a (b ++ s) -> prefix_b a b = true \/ prefix_b b a = true.
Proof.
  revert b. induction a as [|x a IH]; intros b [r E]; [left; reflexivity|]. destruct b as [|y b]; [right; reflexivity|]. cbn in E. injection E as -> E. cbn. rewrite Byte.byte_dec_lb by reflexivity. apply IH. exists r. exact E.
Qed.
Definition apart_b (ws : list bytes) (b : bytes) : bool := forallb (fun a => negb (prefix_b a b) && negb (prefix_b b a)) ws.
Lemma apart_cold ws b s : apart_b ws b = true -> cold (b ++ s) ws.
Proof. intros H a Ia P. unfold apart_b in H. rewrite forallb_forall in H. specialize (H _ Ia). cbv beta in H. destruct (prefix_two _ _ _ P) as [X|X]; rewrite X in H; [discriminate|rewrite andb_false_r in H; discriminate]. Qed.
Definition in_b (b : byte) (l : list byte) : bool := existsb (Byte.eqb b) l.
Lemma in_b_ok b l : in_b b l = true <-> In b l.
Proof. unfold in_b. rewrite existsb_exists. split; [intros (x & I & E); apply Byte.byte_dec_bl in E; subst; exact I|intros I; exists b; split; [exact I|apply Byte.byte_dec_lb; reflexivity]]. Qed.
Definition misses (a l : list byte) : bool := forallb (fun b => negb (in_b b l)) a.
Lemma misses_ok a l b : misses a l = true -> In b a -> ~ In b l.
Proof. intros H I J. unfold misses in H. rewrite forallb_forall in H. specialize (H _ I). cbv beta in H. apply in_b_ok in J. rewrite J in H. discriminate. Qed.

Lemma both_cons {A B} (f : A -> B -> Prop) a l m : both f (a :: l) m -> exists b m', m = b :: m' /\ f a b /\ both f l m'.
Proof. destruct m as [|b m]; [intros []|]. intros [H K]. exists b, m. auto. Qed.
Lemma both_nil {A B} (f : A -> B -> Prop) m : both f [] m -> m = [].
Proof. destruct m; [reflexivity|intros []]. Qed.
Definition tok_is (n : bytes) (ls : list (list shape)) (e : element) : Prop := el_name e = n /\ el_not e = None /\ both (both has) ls (el_must e).
Lemma has_tok n ls k i : has (HTok n ls k) i -> exists e, i = ICont (PToken e [] k) /\ tok_is n ls e.
Proof. intros (e & E & N & M & L). exists e. split; [exact E|]. split; [exact N|]. split; [exact M|exact L]. Qed.
Definition to (s : shape) (e : element) : Prop := match s with HTok n ls _ => tok_is n ls e | _ => False end.
Ltac opens H := repeat match type of H with
  | both _ (_ :: _) _ => let b := fresh "i" in let m := fresh "m" in let E := fresh "E" in let K := fresh "K" in apply both_cons in H; destruct H as (b & m & E & K & H); first [subst m | rewrite E in *]; try opens K
  | both _ [] _ => apply both_nil in H; try subst
  end.

Section Read.
Variable channels : nat -> list path.
Hypothesis Hc : plain_channels channels.
Hypothesis Hb : blank_channels channels.
Notation quiet := (PickSpec.quiet channels).
Notation gives := (gives channels).
Notation bad := (bad channels).
Notation line_gives := (line_gives channels).
Notation line_bad := (line_bad channels).
Notation beaten := (beaten channels).
Notation picks := (picks channels).

(* the text has a first byte, which no channel reads *)
Definition calm (s : bytes) : Prop := exists b t, s = b :: t /\ ~ In b spaces /\ b <> x2f.
Lemma calm_quiet s : calm s -> quiet s.
Proof. intros (b & t & -> & N1 & N2). apply quiet_head; assumption. Qed.
Lemma calm_some s : calm s -> s <> [].
Proof. intros (b & t & -> & _). discriminate. Qed.
Lemma calm_ends s : calm s -> ends_class spaces s.
Proof. intros (b & t & -> & N & _) b' t' [= <- <-]. exact N. Qed.
Lemma calm_byte b t a : In b a -> misses a (x2f :: spaces) = true -> calm (b :: t).
Proof. intros I M. exists b, t. split; [reflexivity|]. assert (K := misses_ok _ _ _ M I). split; [intros H; apply K; right; exact H|intros ->; apply K; left; reflexivity]. Qed.

Lemma word_gives n c r ch nx s : is_want (WConst n c) r -> (ch = true -> calm (c ++ s)) -> gives (PRule r CMandatory) ch nx (c ++ s) [Text n c] s.
Proof.
  intros (L & <- & Ec) Q. apply gv_rule; [exact L|intros E; left; apply calm_quiet, Q, E|]. apply takes_once; [reflexivity|reflexivity|reflexivity|]. apply constant_takes; [exact Ec|]. destruct L as [_ L]. rewrite Ec in L. exact L.
Qed.
Lemma word_bad n c r ch nx s : is_want (WConst n c) r -> calm s -> ~ is_prefix c s -> bad (PRule r CMandatory) ch nx s.
Proof.
  intros (L & _ & Ec) Q N. apply bd_rule; [exact L|apply calm_some, Q|intros _; left; apply calm_quiet, Q| |reflexivity]. rewrite (constant_begins r c s Ec). intros [_ P]. contradiction.
Qed.
Lemma tok_gives e ch s t s1 : picks e true s t s1 -> calm s -> gives (PToken e [] CMandatory) ch true s [t] s1.
Proof. intros P Q. apply gv_tokens; [apply calm_some, Q|intros _; left; apply calm_quiet, Q| |reflexivity]. apply tk_last; [exact P|]. exists 1%N. split; [reflexivity|cbn; lia]. Qed.
Lemma tok_bad e ch s : el_not e = None -> beaten (length s) true s (el_must e) -> calm s -> bad (PToken e [] CMandatory) ch true s.
Proof. intros N P Q. apply bd_tokens with (ts := []) (s1 := s); [apply calm_some, Q|intros _; left; apply calm_quiet, Q| |reflexivity|reflexivity]. apply tk_none; assumption. Qed.
Definition lead (g : bytes) : list tree := match g with [] => [] | _ => [Text (bs "WHITESPACES") g] end.
Lemma lead_gives c g s out s1 : Forall (fun b => In b spaces) g -> calm s -> gives c true true s out s1 -> gives c true true (g ++ s) (lead g ++ out) s1.
Proof. intros F Q H. destruct g as [|a g]; [exact H|]. cbn [lead app]. apply gv_skip with (s1 := s); [reflexivity| |exact H]. exact (passes_spaces channels Hc Hb (a :: g) s ltac:(discriminate) F (calm_ends s Q)). Qed.
Lemma lead_bad c g s : Forall (fun b => In b spaces) g -> calm s -> bad c true true s -> bad c true true (g ++ s).
Proof. intros F Q H. destruct g as [|a g]; [exact H|]. apply bd_skip with (n := bs "WHITESPACES") (w := a :: g) (s1 := s); [reflexivity| |exact H]. exact (passes_spaces channels Hc Hb (a :: g) s ltac:(discriminate) F (calm_ends s Q)). Qed.
Lemma shape_mandatory s i : has s i -> match s with HTok _ _ k => k = CMandatory | HRule _ k => k = CMandatory | HHeads _ => True | _ => False end -> exists c k, i = ICont c /\ cont_card c = Ok k /\ is_valid k 0 = false.
Proof.
  destruct s as [|w k|n ls k|ws| |x]; intros H K; try contradiction.
  - destruct H as (r & -> & _). subst. exists (PRule r CMandatory), CMandatory. auto.
  - destruct H as (e & -> & _). subst. exists (PToken e [] CMandatory), CMandatory. auto.
  - destruct H as (c & k & -> & E & V & _). exists c, k. auto.
Qed.
Lemma end_bad s i : has s i -> match s with HTok _ _ k => k = CMandatory | HRule _ k => k = CMandatory | HHeads _ => True | _ => False end -> forall ch nx, exists c, i = ICont c /\ bad c ch nx [].
Proof. intros H K ch nx. destruct (shape_mandatory s i H K) as (c & k & -> & E & V). exists c. split; [reflexivity|]. eapply bd_end; eauto. Qed.
(* one line with one element *)
Lemma one_gives c s out s1 : gives c true true s out s1 -> line_gives [ICont c] true true s out s1.
Proof. intros H. rewrite <- (app_nil_r out). eapply lg_more; [exact H|constructor]. Qed.

(* ---- names ---- *)
Definition name_tree (w : bytes) : tree :=
  match w with a :: v => Branch (bs "variableName") 0 [Text (bs "FIRST_LETTER") [a]; Text (bs "MIN_MAJ_LETTERS") v] | [] => Text [] [] end.
Lemma name_calm w s : is_name w -> calm (w ++ s).
Proof. intros (a & v & -> & I & _). apply calm_byte with (a := lower); [exact I|reflexivity]. Qed.
Lemma name_picks e w rest : to sh_name e -> is_name w -> ends_class letters rest -> picks e true (w ++ rest) (name_tree w) rest.
Proof.
  intros (En & Nn & L) (a & v & -> & I & Nv & F) R. cbn [both] in L. destruct (el_must e) as [|l [|? ?]] eqn:Em; try tauto. destruct L as [L _]. destruct l as [|i0 [|i1 [|i2 [|? ?]]]]; try tauto. destruct L as (K0 & K1 & K2 & _). cbn [has] in K0, K1, K2. subst i0. destruct K1 as (r1 & -> & L1 & E1 & p1 & k1 & C1 & A1 & T1). destruct K2 as (r2 & -> & L2 & E2 & p2 & k2 & C2 & A2 & T2).
  cbn [name_tree app]. rewrite <- En. apply (pk_line channels e true (a :: v ++ rest) [] [ISwitch; ICont (PRule r1 one); ICont (PRule r2 one)] [] [Text (bs "FIRST_LETTER") [a]; Text (bs "MIN_MAJ_LETTERS") v] rest); [exact Nn|exact Em| |cbn; rewrite app_length; lia|constructor|constructor].
  apply lg_switch. cbn [negb]. rewrite <- E1, <- E2.
  apply (lg_more channels _ _ true false (a :: v ++ rest) [Text (rl_name r1) [a]] (v ++ rest)).
  - apply gv_rule; [exact L1|intros _; left; apply calm_quiet, calm_byte with (a := lower); [exact I|reflexivity]|]. apply takes_once; [reflexivity|reflexivity|reflexivity|]. eapply letter_takes; eauto.
  - rewrite <- (app_nil_r [Text (rl_name r2) v]). apply (lg_more channels _ _ false false (v ++ rest) [Text (rl_name r2) v] rest); [|constructor].
    apply gv_rule; [exact L2|discriminate|]. apply takes_once; [reflexivity|reflexivity|reflexivity|]. eapply letters_take; eauto.
Qed.
(* a type can be taken for a name *)
Lemma type_name t : is_name (type_text t).
Proof.
  assert (K : forall a v, in_b a lower = true -> v <> [] -> forallb (fun b => in_b b letters) v = true -> is_name (a :: v)).
  { intros a v I N F. exists a, v. split; [reflexivity|]. split; [apply in_b_ok, I|]. split; [exact N|]. apply Forall_forall. intros b Ib. rewrite forallb_forall in F. apply in_b_ok, (F _ Ib). }
  destruct t; apply K; try reflexivity; discriminate.
Qed.

(* ---- types ---- *)
Definition type_tree (t : stype) : tree :=
  let primitive i n := Branch (bs "declarativeType") 0 [Branch (bs "primitiveType") i [Text (bs n) (type_text t)]] in
  let computable i n := Branch (bs "declarativeType") 1 [Branch (bs "computableType") i [Text (bs n) (type_text t)]] in
  match t with SBool => primitive 0 "BOOL" | SString => primitive 1 "STRING" | SFloat => computable 0 "FLOAT" | SUint => computable 1 "UINT" | SInt => computable 2 "INT" end%string.
(* of several words, each a line, the one that is there *)
Definition word_lines (ws : list (string * string)) : list (list shape) := map (fun x => [word (fst x) (snd x) one]) ws.
Lemma lines_cold s k i : has k i -> calm s -> match k with HRule (WConst n c) kk => kk = CMandatory /\ ~ is_prefix c s | HHeads ws => cold s ws | _ => False end -> forall ch nx, exists c, i = ICont c /\ bad c ch nx s.
Proof.
  intros H Q K ch nx. destruct k as [|[n c| |] kk| |ws| |x]; try contradiction.
  - destruct K as [-> K]. destruct H as (r & -> & W). exists (PRule r CMandatory). split; [reflexivity|]. eapply word_bad; eauto.
  - destruct H as (c & k & -> & _ & _ & Hh). exists c. split; [reflexivity|]. eapply cold_bad; eauto using calm_quiet, calm_some.
Qed.
Lemma words_beaten ws : forall ls s m, both (both has) (word_lines ws) ls -> calm s -> (forall n c, In (n, c) ws -> ~ is_prefix (bs c) s) -> beaten m true s ls.
Proof.
  induction ws as [|[n c] ws IH]; intros ls s m L Q N; cbn [word_lines map both] in L; destruct ls as [|l ls]; try tauto; [constructor|]. destruct L as [L1 L]. destruct l as [|i [|? ?]]; try tauto. destruct L1 as [(r & -> & W) _].
  apply bt_bad; [apply lb_here; eapply word_bad; [exact W|exact Q|apply (N n c); left; reflexivity]|]. apply IH; [exact L|exact Q|intros n' c' I; apply (N n' c'); right; exact I].
Qed.
Lemma words_picks e before n c after s : el_not e = None -> both (both has) (word_lines (before ++ (n, c) :: after)) (el_must e) -> calm (bs c ++ s) -> bs c <> [] ->
  (forall n' c', In (n', c') (before ++ after) -> ~ is_prefix (bs c') (bs c ++ s)) -> picks e true (bs c ++ s) (Branch (el_name e) (length before) [Text (bs n) (bs c)]) s.
Proof.
  intros Nn L Q Nc N. assert (K : exists b r a, el_must e = b ++ [ICont (PRule r one)] :: a /\ is_want (WConst (bs n) (bs c)) r /\ both (both has) (word_lines before) b /\ both (both has) (word_lines after) a).
  { revert L. generalize (el_must e). clear. unfold word_lines. rewrite map_app. cbn [map fst snd]. induction before as [|x before IH]; intros ls L; cbn [map app both] in L; destruct ls as [|l ls]; try tauto.
    - destruct L as [L1 L]. destruct l as [|i [|? ?]]; try tauto. destruct L1 as [(r & -> & W) _]. exists [], r, ls. split; [reflexivity|]. split; [exact W|]. split; [exact I|exact L].
    - destruct L as [L1 L]. destruct (IH _ L) as (b & r & a & -> & W & Hb & Ha). exists (l :: b), r, a. split; [reflexivity|]. split; [exact W|]. split; [|exact Ha]. cbn [map both]. split; assumption. }
  destruct K as (b & r & a & Em & W & B & A). assert (Lb : length before = length b).
  { clear -B. revert b B. induction before as [|x l IH]; intros [|y b] B; cbn in B; try tauto. cbn. f_equal. apply IH, B. }
  rewrite Lb. apply (pk_line channels e true (bs c ++ s) b [ICont (PRule r one)] a); [exact Nn|exact Em|apply one_gives, word_gives; [exact W|intros _; exact Q]|rewrite app_length; destruct (bs c); [contradiction|cbn; lia]| |].
  - apply words_beaten with (ws := before); [exact B|exact Q|intros n' c' I; apply (N n' c'), in_or_app; left; exact I].
  - apply words_beaten with (ws := after); [exact A|exact Q|intros n' c' I; apply (N n' c'), in_or_app; right; exact I].
Qed.
Lemma type_calm t s : calm (type_text t ++ s).
Proof. apply name_calm, type_name. Qed.
End Read.
