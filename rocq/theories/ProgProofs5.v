(* ProgProofs5.v - proofs for ProgProps.v: reading header variables and programs. *)
From Coq Require Import Strings.String Strings.Byte Lia.
From Verif Require Import Go GoLemmas DomainModel DomainSpec CardModel CardSpec PatModel PatSpec PatProofs RuleModel RuleSpec PathModel PathSpec LexModel LexSpec OrdSpec OrdProofs2 PickSpec PickProofs2 LetterProofs ShapeProofs ProgSpec ShapeProofs2 ProgProofs ProgProofs2 ProgProofs3 ProgProofs4.
Open Scope list_scope.

(* ---- texts and trees ---- *)
(* instructions, each with the gap before it; header variables, each with the gap after it *)
Definition stmts_text (l : list (bytes * stmt)) : bytes := concat (map (fun y => fst y ++ stmt_text (snd y)) l).
Definition hdrs_text (l : list (hdr * bytes)) : bytes := concat (map (fun y => hdr_text (fst y) ++ snd y) l).
Definition way_tree (i : bool) : tree := Branch (bs "inputOutput") (if i then 0 else 1) [if i then Text (bs "RIGHT_ARROW") (bs "->") else Text (bs "LEFT_ARROW") (bs "<-")].
Definition hdr_tree (g : bytes) (h : hdr) (tr : bytes) : tree :=
  Branch (bs "headerVariable") 0 (lead g ++ [way_tree (h_input h)] ++ lead (h_gap h) ++ [decl_tree (h_type h) (h_space h) (h_name h)] ++ [Text (bs "COLON") (bs ":")] ++ [Text (bs "KEYNAME_PATTERN") (h_key h)] ++ (if h_optional h then [Text (bs "QUESTION_MARK") (bs "?")] else lead tr)).
(* the gap after a header variable belongs to it, unless it ends with a question mark *)
Fixpoint hdr_trees (g : bytes) (l : list (hdr * bytes)) : list tree :=
  match l with [] => [] | (h, a) :: l => hdr_tree g h a :: hdr_trees (if h_optional h then a else []) l end.
Fixpoint left_over (g : bytes) (l : list (hdr * bytes)) : bytes := match l with [] => g | (h, a) :: l => left_over (if h_optional h then a else []) l end.
Definition program_tree (hs : list (hdr * bytes)) (l : list (bytes * stmt)) : tree :=
  Branch (bs "program") 0 (match hs with [] => [] | _ => [Branch (bs "headerVariables") 0 (hdr_trees [] hs)] end ++ lead (left_over [] hs) ++ [instrs_tree l]).

Lemma stmt_head x s : good_stmt x -> exists b t, stmt_text x ++ s = b :: t /\ In b lower.
Proof.
  intros G. destruct x as [t g w| | |w|w]; cbn [stmt_text].
  - destruct (type_name t) as (a & v & E & I & _). rewrite E. exists a. eexists. split; [reflexivity|exact I].
  - exists x62. eexists. split; [reflexivity|]. apply in_b_ok. reflexivity.
  - exists x63. eexists. split; [reflexivity|]. apply in_b_ok. reflexivity.
  - destruct G as [(a & v & -> & I & _) _]. exists a. eexists. split; [reflexivity|exact I].
  - destruct G as [(a & v & -> & I & _) _]. exists a. eexists. split; [reflexivity|exact I].
Qed.
Definition gaps (l : list (bytes * stmt)) : Prop := Forall (fun y => is_gap (fst y) /\ good_stmt (snd y)) l.
Lemma gaps_follow l : gaps l -> follows (stmts_text l).
Proof.
  intros H. destruct l as [|[g x] l]; [left; reflexivity|]. inversion H as [|? ? [G X] H']; subst. right. unfold stmts_text. cbn [map concat fst snd]. rewrite <- app_assoc. destruct (stmt_head x (concat (map (fun y => fst y ++ stmt_text (snd y)) l)) X) as (b & t & E & I). rewrite E. exists g, b, t. auto.
Qed.

Section Read.
Variable channels : nat -> list path.
Hypothesis Hc : plain_channels channels.
Hypothesis Hb : blank_channels channels.
Notation quiet := (PickSpec.quiet channels).
Notation gives := (gives channels).
Notation bad := (bad channels).
Notation line_gives := (line_gives channels).
Notation line_bad := (line_bad channels).
Notation beaten := (beaten channels).
Notation picks := (picks channels).
Notation tokens := (tokens channels).

Definition mandatory (s : shape) : Prop := match s with HTok _ _ k => k = CMandatory | HRule _ k => k = CMandatory | HHeads _ => True | _ => False end.
Lemma end_beaten ls : forall ms m, Forall (fun l => exists s r, l = s :: r /\ mandatory s) ls -> both (both has) ls ms -> beaten m true [] ms.
Proof.
  induction ls as [|l ls IH]; intros [|k ms] m F L; cbn [both] in L; try tauto; [constructor|]. destruct L as [L1 L]. inversion F as [|? ? (s & r & -> & M) F']; subst. destruct k as [|i k]; cbn [both] in L1; try tauto. destruct L1 as [K _]. destruct (end_bad channels s i K M true true) as (c & -> & B). apply bt_bad; [apply lb_here, B|]. apply IH; assumption.
Qed.
Lemma instrs_tokens e l : tok_is (bs "instruction") sh_instruction e -> forall g x done, Forall (fun b => In b spaces) g -> good_stmt x -> gaps l ->
  tokens e true CNonZero done (g ++ stmt_text x ++ stmts_text l) (map (fun y => instr_tree (fst y) (snd y)) ((g, x) :: l)) [].
Proof.
  intros T. induction l as [|[g' x'] l IH]; intros g x done G X F; cbn [map fst snd].
  - eapply tk_more; [apply instr_picks; [exact Hc|exact Hb|exact T|exact G|exact X|left; reflexivity]|intros m E; discriminate E|]. apply tk_none; [apply T|]. destruct T as (_ & _ & L). eapply end_beaten; [|exact L]. unfold sh_instruction. repeat (constructor; [eexists _, _; split; [reflexivity|exact I || reflexivity]|]). constructor.
  - eapply tk_more; [apply instr_picks; [exact Hc|exact Hb|exact T|exact G|exact X|apply gaps_follow, F]|intros m E; discriminate E|]. inversion F as [|? ? [G' X'] F']; subst. cbn [fst snd] in *. unfold stmts_text. cbn [map concat fst snd]. rewrite <- app_assoc. apply (IH g' x' (S done) (proj2 G') X' F').
Qed.
Lemma stmt_calm x s : good_stmt x -> calm (stmt_text x ++ s).
Proof. intros X. destruct (stmt_head x s X) as (b & t & -> & I). apply settled_calm, lower_nexts, I. Qed.
Lemma instrs_picks e x l : to sh_instructions e -> good_stmt x -> gaps l -> picks e true (stmt_text x ++ stmts_text l) (instrs_tree (([], x) :: l)) [].
Proof.
  intros (En & Nn & L) X F. cbn [both] in L. destruct (el_must e) as [|[|i0 [|? ?]] [|? ?]] eqn:Em; try tauto. destruct L as ((K0 & _) & _). apply has_tok in K0. destruct K0 as (e0 & -> & K0). assert (Q := stmt_calm x (stmts_text l) X).
  unfold instrs_tree. rewrite <- En. apply (pk_line channels e true _ [] [ICont (PToken e0 [] CNonZero)] []); [exact Nn|exact Em| |apply calm_some in Q; cbn [length]; destruct (stmt_text x ++ stmts_text l); [contradiction|cbn; lia]|constructor|constructor].
  apply one_gives. apply gv_tokens; [apply calm_some, Q|intros _; left; apply calm_quiet; [exact Hb|exact Q]|exact (instrs_tokens e0 l K0 [] x 0 (Forall_nil _) X F)|]. cbn [map length]. unfold is_valid. cbn [CardModel.delimiter]. apply N.leb_le. lia.
Qed.

(* ---- header variables ---- *)
Definition ways := [("RIGHT_ARROW", "->"); ("LEFT_ARROW", "<-")]%string.
Lemma colon_calm s : calm (bs ":" ++ s).
Proof. apply (calm_byte x3a s [x3a]); [left; reflexivity|reflexivity]. Qed.
Lemma way_calm (i : bool) s : calm ((if i then bs "->" else bs "<-") ++ s).
Proof. destruct i; [apply minus_calm|]. apply (calm_byte x3c (x2d :: s) [x3c]); [left; reflexivity|reflexivity]. Qed.
Lemma way_picks e (i : bool) s : to sh_way e -> picks e true ((if i then bs "->" else bs "<-") ++ s) (way_tree i) s.
Proof.
  intros T. change (tok_is (bs "inputOutput") (word_lines ways) e) in T. assert (Q := way_calm i s). destruct i; cbn [way_tree].
  - eapply (words_there channels Hb _ ways e 0 [] ("RIGHT_ARROW", "->")%string); [exact T|reflexivity|reflexivity|exact Q|discriminate|reflexivity].
  - eapply (words_there channels Hb _ ways e 1 [("RIGHT_ARROW", "->")]%string ("LEFT_ARROW", "<-")%string); [exact T|reflexivity|reflexivity|exact Q|discriminate|reflexivity].
Qed.
(* a text that starts with an arrow or a small letter *)
Definition starts (s : bytes) : Prop := exists b t, s = b :: t /\ In b (x3c :: nexts).
Lemma starts_calm s : starts s -> calm s.
Proof. intros (b & t & -> & I). apply (calm_byte b t (x3c :: nexts)); [exact I|reflexivity]. Qed.
Lemma hdr_picks e g h a s : tok_is (bs "headerVariable") sh_header e -> Forall (fun b => In b spaces) g -> good_hdr h -> is_gap a -> starts s ->
  picks e true (g ++ hdr_text h ++ a ++ s) (hdr_tree g h a) ((if h_optional h then a else []) ++ s).
Proof.
  intros (En & Nn & L) G (Hg & Hs & Hn & _ & (Kn & Kf)) A S. unfold sh_header in L. cbn [both] in L. destruct (el_must e) as [|[|i0 [|i1 [|i2 [|i3 [|i4 [|? ?]]]]]] [|? ?]] eqn:Em; try tauto. destruct L as ((K0 & K1 & K2 & K3 & K4 & _) & _).
  apply has_tok in K0. destruct K0 as (e0 & -> & K0). apply has_tok in K1. destruct K1 as (e1 & -> & K1). destruct K2 as (r2 & -> & K2). destruct K3 as (r3 & -> & (L3 & E3 & p3 & k3 & C3 & A3 & T3)). destruct K4 as (r4 & -> & K4).
  unfold hdr_tree, hdr_text. rewrite <- !app_assoc. set (tl := (if h_optional h then bs "?" else []) ++ a ++ s).
  rewrite <- En. apply (pk_line channels e true _ [] [ICont (PToken e0 [] one); ICont (PToken e1 [] one); ICont (PRule r2 one); ICont (PRule r3 one); ICont (PRule r4 COptional)] []); [exact Nn|exact Em| | |constructor|constructor].
  - rewrite (app_assoc (lead g)). apply (lg_more channels _ _ true true _ (lead g ++ [way_tree (h_input h)]) (h_gap h ++ type_text (h_type h) ++ h_space h ++ h_name h ++ bs ":" ++ h_key h ++ tl)).
    { apply lead_gives; [exact Hc|exact Hb|exact G|apply way_calm|]. apply tok_gives; [exact Hb|apply way_picks, K0|apply way_calm]. }
    rewrite (app_assoc (lead (h_gap h))). apply (lg_more channels _ _ true true _ (lead (h_gap h) ++ [decl_tree (h_type h) (h_space h) (h_name h)]) (bs ":" ++ h_key h ++ tl)).
    { apply lead_gives; [exact Hc|exact Hb|exact Hg|apply type_calm|]. apply tok_gives; [exact Hb| |apply type_calm]. apply decl_picks; [exact Hc|exact Hb|exact K1|apply Hs|exact Hn|]. intros b t E. injection E as <- _. apply (misses_ok [x3a] letters); [reflexivity|left; reflexivity]. }
    apply (lg_more channels _ _ true true _ [Text (bs "COLON") (bs ":")] (h_key h ++ tl)).
    { apply (word_gives channels Hb (bs "COLON") (bs ":") r2 true true (h_key h ++ tl)); [exact K2|intros _; apply colon_calm]. }
    rewrite <- E3. apply (lg_more channels _ _ true true _ [Text (rl_name r3) (h_key h)] tl).
    { apply gv_rule; [exact L3| |].
      - intros _. left. apply calm_quiet; [exact Hb|]. destruct (h_key h) as [|b k] eqn:Ek; [contradiction|]. inversion Kf as [|? ? I _]; subst. apply (calm_byte b (k ++ tl) (lower ++ [x5f])); [exact I|reflexivity].
      - apply takes_once; [reflexivity|reflexivity|reflexivity|]. eapply letters_take; [exact C3|exact A3|exact T3|exact Kn|exact Kf|]. intros b t E. unfold tl in E. destruct (h_optional h); cbn in E.
        + injection E as <- _. apply (misses_ok [x3f] (lower ++ [x5f])); [reflexivity|left; reflexivity].
        + destruct A as [Na Fa]. destruct a as [|c a]; [contradiction|]. injection E as <- _. inversion Fa as [|? ? I _]. apply (misses_ok spaces (lower ++ [x5f])); [reflexivity|exact I]. }
    apply one_gives. unfold tl. destruct (h_optional h).
    + destruct K4 as (L4 & <- & C4). apply gv_rule; [exact L4| |].
      * intros _. left. apply calm_quiet; [exact Hb|]. apply (calm_byte x3f (a ++ s) [x3f]); [left; reflexivity|reflexivity].
      * apply takes_once; [reflexivity|reflexivity|reflexivity|]. apply constant_takes; [exact C4|discriminate].
    + cbn [app]. rewrite <- (app_nil_r (lead a)). apply lead_gives; [exact Hc|exact Hb|apply A|apply starts_calm, S|]. destruct K4 as (L4 & _ & C4). assert (Q := starts_calm s S).
      apply gv_no_rule; [exact L4|apply calm_some, Q|intros _; left; apply calm_quiet; [exact Hb|exact Q]| |reflexivity]. rewrite (constant_begins r4 (bs "?") s C4). intros [_ [y E]]. destruct S as (b & t & -> & I). cbn in E. injection E as -> _. revert I. apply (misses_ok [x3f] (x3c :: nexts)); [reflexivity|left; reflexivity].
  - unfold tl. rewrite !app_length. destruct (h_input h); cbn [length bs]; destruct (h_optional h); cbn; lia.
Qed.
Definition good_hdrs (l : list (hdr * bytes)) : Prop := Forall (fun y => good_hdr (fst y) /\ is_gap (snd y)) l.
Lemma hdrs_start l s : good_hdrs l -> (exists b t, s = b :: t /\ In b lower) -> starts (hdrs_text l ++ s).
Proof.
  intros H (b & t & -> & I). destruct l as [|[h a] l]; [exists b, t; split; [reflexivity|right; apply lower_nexts, I]|]. unfold hdrs_text. cbn [map concat fst snd]. unfold hdr_text. rewrite <- !app_assoc. destruct (h_input h).
  - exists x2d. eexists. split; [reflexivity|]. right. apply in_or_app. right. right. left. reflexivity.
  - exists x3c. eexists. split; [reflexivity|]. left. reflexivity.
Qed.
Lemma ways_bad e s : to sh_way e -> (exists b t, s = b :: t /\ In b lower) -> bad (PToken e [] one) true true s.
Proof.
  intros T (b & t & -> & I). change (tok_is (bs "inputOutput") (word_lines ways) e) in T. eapply words_bad; [exact Hb|exact T|apply settled_calm, lower_nexts, I|]. intros n c [X|[X|[]]]; injection X as <- <-; intros [y E]; cbn in E; injection E as -> _.
  - revert I. apply (misses_ok [x2d] lower); [reflexivity|left; reflexivity].
  - revert I. apply (misses_ok [x3c] lower); [reflexivity|left; reflexivity].
Qed.
Lemma hdr_beaten e g s m : tok_is (bs "headerVariable") sh_header e -> Forall (fun b => In b spaces) g -> (exists b t, s = b :: t /\ In b lower) -> beaten m true (g ++ s) (el_must e).
Proof.
  intros (En & Nn & L) G S. unfold sh_header in L. cbn [both] in L. destruct (el_must e) as [|[|i0 [|i1 [|i2 [|i3 [|i4 [|? ?]]]]]] [|? ?]] eqn:Em; try tauto. destruct L as ((K0 & _) & _). apply has_tok in K0. destruct K0 as (e0 & -> & K0).
  apply bt_bad; [|constructor]. apply lb_here. apply lead_bad; [exact Hc|exact Hb|exact G| |apply ways_bad; assumption]. destruct S as (b & t & -> & I). apply settled_calm, lower_nexts, I.
Qed.
Lemma hdrs_tokens e s : tok_is (bs "headerVariable") sh_header e -> (exists b t, s = b :: t /\ In b lower) -> forall l g done, Forall (fun b => In b spaces) g -> good_hdrs l ->
  tokens e true CNonZero done (g ++ hdrs_text l ++ s) (hdr_trees g l) (left_over g l ++ s).
Proof.
  intros T S. induction l as [|[h a] l IH]; intros g done G F; cbn [hdr_trees left_over].
  - apply tk_none; [apply T|]. apply hdr_beaten; assumption.
  - inversion F as [|? ? [H A] F']; subst. cbn [fst snd] in *. unfold hdrs_text. cbn [map concat fst snd]. rewrite <- !app_assoc. eapply tk_more; [apply hdr_picks; [exact T|exact G|exact H|exact A|apply (hdrs_start l s F' S)]|intros m E; discriminate E|]. apply IH; [|exact F']. destruct (h_optional h); [apply A|constructor].
Qed.
Lemma left_gap l : good_hdrs l -> forall g, Forall (fun b => In b spaces) g -> Forall (fun b => In b spaces) (left_over g l).
Proof. induction l as [|[h a] l IH]; intros F g G; [exact G|]. inversion F as [|? ? [_ A] F']; subst. cbn [left_over]. apply IH; [exact F'|]. destruct (h_optional h); [apply A|constructor]. Qed.
Lemma left_shorter l : forall g s, length (left_over g l ++ s) <= length (g ++ hdrs_text l ++ s).
Proof.
  induction l as [|[h a] l IH]; intros g s; [cbn; lia|]. cbn [left_over]. eapply Nat.le_trans; [apply IH|]. unfold hdrs_text. cbn [map concat fst snd]. rewrite !app_length. destruct (h_optional h); cbn [length]; lia.
Qed.

(* ---- programs ---- *)
Lemma program_picks e hs x l : to sh_program e -> good_hdrs hs -> good_stmt x -> gaps l -> picks e true (hdrs_text hs ++ stmt_text x ++ stmts_text l) (program_tree hs (([], x) :: l)) [].
Proof.
  intros (En & Nn & L) Fh X F. cbn [both] in L. destruct (el_must e) as [|[|i0 [|i1 [|? ?]]] [|? ?]] eqn:Em; try tauto. destruct L as ((K0 & K1 & _) & _). apply has_tok in K0. destruct K0 as (e0 & -> & (E0 & N0 & L0)). apply has_tok in K1. destruct K1 as (e1 & -> & K1).
  cbn [both] in L0. destruct (el_must e0) as [|[|j0 [|? ?]] [|? ?]] eqn:Ej; try tauto. destruct L0 as ((J0 & _) & _). apply has_tok in J0. destruct J0 as (f0 & -> & J0).
  assert (S := stmt_head x (stmts_text l) X). assert (Q := stmt_calm x (stmts_text l) X). set (body := stmt_text x ++ stmts_text l) in *. assert (St := hdrs_start hs body Fh S). assert (Qs := starts_calm _ St). assert (Lb : 0 < length body) by (destruct S as (b & t & -> & _); cbn; lia).
  unfold program_tree. rewrite <- En. apply (pk_line channels e true _ [] [ICont (PToken e0 [] COptional); ICont (PToken e1 [] one)] []); [exact Nn|exact Em| |rewrite app_length; cbn [length]; lia|constructor|constructor].
  apply (lg_more channels _ _ true true (hdrs_text hs ++ body) (match hs with [] => [] | _ => [Branch (bs "headerVariables") 0 (hdr_trees [] hs)] end) (left_over [] hs ++ body)).
  - apply gv_tokens; [apply calm_some, Qs|intros _; left; apply calm_quiet; [exact Hb|exact Qs]| |destruct hs; reflexivity]. destruct hs as [|h hs].
    + apply tk_none; [exact N0|]. rewrite Ej. apply bt_bad; [|constructor]. apply lb_here. cbn [hdrs_text map concat app left_over] in *. apply bd_tokens with (ts := []) (s1 := body); [apply calm_some, Q|intros _; left; apply calm_quiet; [exact Hb|exact Q]| |reflexivity|reflexivity]. apply tk_none; [apply J0|]. apply (hdr_beaten f0 [] body _ J0 (Forall_nil _) S).
    + apply tk_last; [|exists 1%N; split; [reflexivity|cbn; lia]]. rewrite <- E0. apply (pk_line channels e0 true _ [] [ICont (PToken f0 [] CNonZero)] []); [exact N0|exact Ej| | |constructor|constructor].
      * apply one_gives. apply gv_tokens; [apply calm_some, Qs|intros _; left; apply calm_quiet; [exact Hb|exact Qs]|exact (hdrs_tokens f0 body J0 S (h :: hs) [] 0 (Forall_nil _) Fh)|]. destruct h as [h a]. cbn [hdr_trees length]. unfold is_valid. cbn [CardModel.delimiter]. apply N.leb_le. lia.
      * destruct h as [h a]. cbn [left_over]. eapply Nat.le_lt_trans; [apply left_shorter|]. unfold hdrs_text. cbn [map concat fst snd]. unfold hdr_text. rewrite !app_length. destruct (h_input h), (h_optional h); cbn; lia.
  - apply one_gives. apply lead_gives; [exact Hc|exact Hb|apply left_gap; [exact Fh|constructor]|exact Q|]. apply tok_gives; [exact Hb|apply instrs_picks; assumption|exact Q].
Qed.
End Read.
