(* ProgProofs10.v - proofs for ProgProps.v: from the text of a program to what it means. *)
From Coq Require Import Strings.String Strings.Byte Sorting.Permutation Lia.
From Verif Require Import Go GoLemmas DomainModel DomainSpec CardModel CardSpec PatModel PatSpec RuleModel RuleSpec PathModel PathSpec LexModel LexSpec AstModel AstSpec TextModel SuiteModel AppModel AppSpec GramModel SuiteSpec RootModel BaseModel BaseSpec EvtModel EvtSpec EvtProofs EvtProps OrdSpec OrdProofs2 AdeqSpec AdeqProofs2 AdeqProofs8 AdeqConfProps EndProps PickSpec PickProofs2 PickProofs4 LitProofs LetterProofs ShapeProofs ProgSpec ShapeProofs2 ProgProofs ProgProofs2 ProgProofs3 ProgProofs5 ProgProofs6 ProgProofs7 ProgProofs8 ProgProofs9 RootSpec RootProofs RootProofs2.
Open Scope list_scope.

(* ---- whole ---- *)
Lemma whole_lead g l : Forall whole l -> Forall whole (lead g ++ l).
Proof. intros F. destruct g; [exact F|]. constructor; [split; discriminate|exact F]. Qed.
Lemma name_whole w : is_name w -> whole (name_tree w).
Proof. intros (a & v & -> & _ & N & _). repeat split; try discriminate. exact N. Qed.
Lemma type_whole t : whole (type_tree t).
Proof. destruct t; repeat split; discriminate. Qed.
Lemma decl_whole t g w : is_name w -> whole (decl_tree t g w).
Proof. intros W. apply whole_branch. split; [discriminate|]. split; [discriminate|]. constructor; [apply type_whole|]. apply whole_lead. constructor; [apply name_whole, W|constructor]. Qed.
Lemma stmt_whole x : good_stmt x -> whole (snd (stmt_tree x)).
Proof.
  destruct x as [t g w| | |w|w]; cbn [good_stmt stmt_tree snd]; intros G; [apply decl_whole, G|repeat split; discriminate|repeat split; discriminate| |]; (apply whole_branch; split; [discriminate|]; split; [discriminate|]; constructor; [apply name_whole, G|]; constructor; [repeat split; discriminate|constructor]).
Qed.
Lemma instrs_whole l : l <> [] -> Forall (fun y => good_stmt (snd y)) l -> whole (instrs_tree l).
Proof.
  intros N F. apply whole_branch. split; [discriminate|]. split; [intros Z; apply map_eq_nil in Z; contradiction|]. apply Forall_forall. intros t It. apply in_map_iff in It. destruct It as (y & <- & Iy). rewrite Forall_forall in F. apply whole_branch. split; [discriminate|]. split; [destruct (fst y); discriminate|]. apply whole_lead. constructor; [apply stmt_whole, (F y Iy)|constructor].
Qed.
Lemma hdr_whole g h tr : good_hdr h -> whole (hdr_tree g h tr).
Proof.
  intros (_ & _ & W & _ & (K & _)). apply whole_branch. split; [discriminate|]. split; [destruct g; discriminate|]. apply whole_lead. cbn [app]. constructor; [destruct (h_input h); repeat split; discriminate|]. apply whole_lead. cbn [app]. constructor; [apply decl_whole, W|]. constructor; [split; discriminate|]. constructor; [split; [discriminate|exact K]|]. destruct (h_optional h); [repeat constructor; discriminate|]. rewrite <- (app_nil_r (lead tr)). apply whole_lead. constructor.
Qed.
Lemma program_whole hs l : l <> [] -> good_hdrs hs -> Forall (fun y => good_stmt (snd y)) l -> whole (program_tree hs l).
Proof.
  intros N Gh F. apply whole_branch. split; [discriminate|]. split; [intros Z; apply app_eq_nil in Z; destruct Z as [_ Z]; apply app_eq_nil in Z; destruct Z as [_ Z]; discriminate|]. apply Forall_app. split; [|apply whole_lead; constructor; [apply instrs_whole; assumption|constructor]]. destruct hs as [|y hs]; [constructor|]. constructor; [|constructor].
  apply whole_branch. split; [discriminate|]. split; [destruct y; discriminate|]. assert (L := hdr_listed (y :: hs) [] (Forall_nil _) Gh). eapply Forall_impl; [|exact L]. cbn. intros t (g1 & h1 & t1 & -> & _ & H1 & _). apply hdr_whole, H1.
Qed.

(* ---- clear ---- *)
Definition free_of (n : bytes) (t : tree) : bool := negb (existsb (bytes_eqb n) (names t)).
Lemma same_clear n i m l : Forall (fun t => tree_name t = m /\ clear_b t = true) l -> clear_b (Branch n i l) = true.
Proof.
  intros F. rewrite Forall_forall in F. cbn [clear_b]. apply andb_true_intro. split; apply forallb_forall.
  - intros v Iv. destruct (seekable v); [|reflexivity]. apply forallb_forall. intros u Iu. destruct (F u Iu) as [-> _]. destruct (F v Iv) as [-> _]. rewrite (proj2 (bytes_eqb_eq _ _) eq_refl). reflexivity.
  - intros v Iv. apply (F v Iv).
Qed.
Lemma decl_clear t g w : is_name w -> clear_b (decl_tree t g w) = true.
Proof. intros (a & v & -> & _). destruct t, g; vm_compute; reflexivity. Qed.
Lemma stmt_clear g x : good_stmt x -> clear_b (instr_tree g x) = true.
Proof.
  destruct x as [t s w| | |w|w]; cbn [good_stmt]; intros G; [destruct G as (_ & (a & v & -> & _) & _); destruct t, s, g; vm_compute; reflexivity|destruct g; vm_compute; reflexivity|destruct g; vm_compute; reflexivity| |]; destruct G as ((a & v & -> & _) & _); destruct g; vm_compute; reflexivity.
Qed.
Lemma instrs_clear l : Forall (fun y => good_stmt (snd y)) l -> clear_b (instrs_tree l) = true.
Proof. intros F. apply same_clear with (m := bs "instruction"). apply Forall_forall. intros t It. apply in_map_iff in It. destruct It as (y & <- & Iy). rewrite Forall_forall in F. split; [reflexivity|apply stmt_clear, (F y Iy)]. Qed.
Lemma hdr_clear g h tr : good_hdr h -> clear_b (hdr_tree g h tr) = true /\ free_of (bs "instructions") (hdr_tree g h tr) = true.
Proof.
  destruct h as [i gp t sp n k o]. intros (_ & _ & (a & v & E & _) & _). cbn [h_name] in E. subst n. unfold hdr_tree. cbn [h_input h_gap h_type h_space h_name h_key h_optional]. destruct i, g, gp, t, sp, o, tr; split; vm_compute; reflexivity.
Qed.
Lemma names_apart n l : Forall (fun t => free_of n t = true) l -> existsb (bytes_eqb n) (concat (map names l)) = false.
Proof. induction 1 as [|t l H F IH]; [reflexivity|]. cbn [map concat]. rewrite existsb_app, IH. unfold free_of in H. destruct (existsb (bytes_eqb n) (names t)); [discriminate|reflexivity]. Qed.
Lemma instr_free g x : good_stmt x -> free_of (bs "headerVariables") (instr_tree g x) = true.
Proof.
  destruct x as [t s w| | |w|w]; cbn [good_stmt]; intros G; [destruct G as (_ & (a & v & -> & _) & _); destruct t, s, g; vm_compute; reflexivity|destruct g; vm_compute; reflexivity|destruct g; vm_compute; reflexivity| |]; destruct G as ((a & v & -> & _) & _); destruct g; vm_compute; reflexivity.
Qed.
Lemma two_clear n i h g l : clear_b h = true -> clear_b l = true -> seekable h = true -> seekable l = true -> free_of (tree_name l) h = true -> free_of (tree_name h) l = true ->
  tree_name h <> bs "WHITESPACES" -> tree_name l <> bs "WHITESPACES" -> clear_b (Branch n i (h :: lead g ++ [l])) = true.
Proof.
  intros Ch Cl Sh Sl Fh Fl Nh Nl. unfold free_of in Fh, Fl. assert (R : forall m, bytes_eqb m m = true) by (intros m; apply bytes_eqb_eq; reflexivity). assert (D : forall m, m <> bs "WHITESPACES" -> bytes_eqb (bs "WHITESPACES") m = false /\ bytes_eqb m (bs "WHITESPACES") = false).
  { intros m N. split; [destruct (bytes_eqb (bs "WHITESPACES") m) eqn:E|destruct (bytes_eqb m (bs "WHITESPACES")) eqn:E]; try reflexivity; apply bytes_eqb_eq in E; congruence. }
  destruct (D _ Nh) as [D1 D2]. destruct (D _ Nl) as [D3 D4]. assert (W : forall b s, seekable (Text (bs "WHITESPACES") (b :: s)) = false) by (intros b s; vm_compute; reflexivity).
  destruct g as [|b g]; cbn [lead app clear_b forallb]; rewrite ?W, Sh, Sl, Ch, Cl, !R, Fh, Fl; cbn [names tree_name existsb]; rewrite ?D1, ?D2, ?D3, ?D4; destruct (bytes_eqb (tree_name l) (tree_name h)), (bytes_eqb (tree_name h) (tree_name l)); reflexivity.
Qed.
Lemma program_clear hs l : l <> [] -> good_hdrs hs -> Forall (fun y => good_stmt (snd y)) l -> clear_b (program_tree hs l) = true.
Proof.
  intros N Gh F. assert (Ci := instrs_clear l F). unfold program_tree. destruct hs as [|y hs].
  - cbn [left_over lead app]. apply same_clear with (m := bs "instructions"). constructor; [split; [reflexivity|exact Ci]|constructor].
  - assert (L := hdr_listed (y :: hs) [] (Forall_nil _) Gh). cbn [app]. apply two_clear; [|exact Ci|reflexivity|reflexivity| | |discriminate|discriminate].
    + apply same_clear with (m := bs "headerVariable"). eapply Forall_impl; [|exact L]. cbn. intros t (g1 & h1 & t1 & -> & _ & H1 & _). split; [reflexivity|apply hdr_clear, H1].
    + unfold free_of. cbn [names tree_name instrs_tree existsb]. rewrite names_apart; [reflexivity|]. eapply Forall_impl; [|exact L]. cbn. intros t (g1 & h1 & t1 & -> & _ & H1 & _). apply hdr_clear, H1.
    + unfold free_of. cbn [names tree_name instrs_tree existsb]. rewrite names_apart; [reflexivity|]. apply Forall_forall. intros t It. apply in_map_iff in It. destruct It as (z & <- & Iz). rewrite Forall_forall in F. apply instr_free, (F z Iz).
Qed.

(* ---- texts ---- *)
Lemma written_stmts l : forall s, l <> [] -> written (map stmt_text l) s -> exists x l', map snd (([], x) :: l') = l /\ s = stmt_text x ++ stmts_text l' /\ Forall (fun y => is_gap (fst y)) l'.
Proof.
  induction l as [|x l IH]; intros s N W; [contradiction|]. destruct l as [|x' l].
  - cbn [map] in W. inversion W as [t E|t g k s' G W' E]; subst; [|inversion W']. exists x, []. split; [reflexivity|]. split; [symmetry; apply app_nil_r|constructor].
  - change (map stmt_text (x :: x' :: l)) with (stmt_text x :: map stmt_text (x' :: l)) in W. inversion W as [t E|t g k s' G W' E]; subst. destruct (IH s' ltac:(discriminate) W') as (x1 & l1 & E1 & -> & F). exists x, ((g, x1) :: l1). split; [cbn [map snd] in *; congruence|]. split; [unfold stmts_text; cbn [map concat fst snd]; rewrite <- app_assoc; reflexivity|constructor; [exact G|exact F]].
Qed.
Lemma written_program hs : forall l s, l <> [] -> written (map hdr_text hs ++ map stmt_text l) s ->
  exists hs' x l', map fst hs' = hs /\ map snd (([], x) :: l') = l /\ s = hdrs_text hs' ++ stmt_text x ++ stmts_text l' /\ Forall (fun y => is_gap (snd y)) hs' /\ Forall (fun y => is_gap (fst y)) l'.
Proof.
  induction hs as [|h hs IH]; intros l s N W; cbn [map app] in W.
  - destruct (written_stmts l s N W) as (x & l' & E & -> & F). exists [], x, l'. repeat split; auto.
  - assert (Nm : map hdr_text hs ++ map stmt_text l <> []) by (intros Z; apply app_eq_nil in Z; destruct Z as [_ Z]; apply map_eq_nil in Z; contradiction). remember (map hdr_text hs ++ map stmt_text l) as k eqn:Ek. destruct k as [|k0 k]; [contradiction|]. inversion W as [|t g k' s' G W']; subst.
    rewrite Ek in W'. destruct (IH l s' N W') as (hs' & x & l' & E & E2 & -> & F1 & F2). exists ((h, g) :: hs'), x, l'. split; [cbn; congruence|]. split; [exact E2|]. split; [unfold hdrs_text; cbn [map concat fst snd]; rewrite <- !app_assoc; reflexivity|]. split; [constructor; assumption|exact F2].
Qed.

Section Shipped.
Variables rules_file tokens_file : bytes -> option bytes.
Variable order : list path -> nat -> list path.
Hypothesis O : an_order order.
Variables lex_fuel fuel : nat.
Notation program_ast x := (fst (app_ast rules_file tokens_file order lex_fuel fuel [] {| rt_root := bs "program"; rt_rest := {| mu_container := base_texts; mu_channels := base_channels |} |} x)).
Lemma program_tidy u x a : shipped_tokens base_tokens = Ok u -> tx_prefix x = false -> program_ast x = Ok (ASuccess a) -> tidy a.
Proof.
  intros Hu Hx H. assert (K := C93_shipped_conforms rules_file tokens_file order O lex_fuel fuel u (bs "program") x a Hu Hx H). clear H. destruct K as [Cf _]. revert Cf. generalize (table_all (fst u)). intros ts Cf. exact (conforms_tidy ts _ _ a _ Cf).
Qed.
Lemma program_read hs l x : tx_prefix x = false -> (length (tx_content x) + 2) * 22 <= lex_fuel -> program_text hs l (tx_content x) ->
  exists hs' l' a, map fst hs' = hs /\ map snd l' = l /\ program_ast x = Ok (ASuccess a) /\ drawn a = program_tree hs' l' /\ at_discovery a = tx_content x /\ tidy a /\ own (drawn a) /\ whole (drawn a) /\ clear_b (drawn a) = true.
Proof.
  intros Hx Hf (W & Nl & Gh & Gs & Nr). destruct (written_program hs l _ Nl W) as (hs' & y & l' & E1 & E2 & Es & F1 & F2).
  destruct (holds_some _ _ program_check) as (u & Hu). destruct (holds_some _ _ base_channels_check) as (v & Hv).
  destruct (shape_checked u "program" sh_program (holds_ok _ _ u program_check Hu)) as (t & p & It & Nt & Hp & Sh).
  destruct (shipped_lexer rules_file tokens_file order O lex_fuel fuel u v t x Hu Hv Hx It) as (channels & p' & Hp' & Pp & Pc & Pq & Am & Ea). rewrite Hp in Hp'. injection Hp' as <-. rewrite Nt in Ea.
  assert (Hb : blank_channels channels). { apply (blank_channels_ok u v channels); [|exact Am]. assert (K := chans_check). rewrite Hu in K. cbn [AdeqProofs8.holds] in K. rewrite Hv in K. exact K. }
  assert (Gx : good_stmt y /\ gaps l'). { rewrite <- E2 in Gs. cbn [map snd] in Gs. inversion Gs as [|? ? G1 G2]; subst. split; [exact G1|]. unfold gaps. clear -F2 G2. induction F2 as [|z k H F IH]; [constructor|]. cbn [map] in G2. inversion G2; subst. constructor; [auto|apply IH; assumption]. }
  assert (Gh' : good_hdrs hs'). { rewrite <- E1 in Gh. unfold good_hdrs. clear -F1 Gh. induction F1 as [|z k H F IH]; [constructor|]. cbn [map] in Gh. inversion Gh; subst. constructor; [auto|apply IH; assumption]. }
  destruct Gx as [Gy Gl]. assert (Ny : ~ In (stmt_text y) (map stmt_text (map snd l'))) by (apply Nr; rewrite <- E2; reflexivity).
  assert (Gall : Forall (fun z => good_stmt (snd z)) (([], y) :: l')) by (constructor; [exact Gy|eapply Forall_impl; [|exact Gl]; cbn; tauto]).
  apply has_tok in Sh. destruct Sh as (e & Ee & T). injection Ee as Ee. rewrite <- Ee in T.
  assert (Pk := program_picks channels Pc Hb (pa_element p) hs' y l' T Gh' Gy Gl). rewrite <- Es in Pk.
  assert (De : is_declared (table_all (fst u)) (bs "program")) by (exists t; auto).
  destruct (C94_shipped_always_answers rules_file tokens_file order lex_fuel fuel u (bs "program") x O Hu De Hx Hf) as (r & Hr). assert (Hr' : program_ast x = Ok r) by exact Hr. apply (eq_trans (eq_sym Ea)) in Hr. clear Ea.
  destruct (read_by_picks channels Pc Pq p Pp lex_fuel (lst_init false) eq_refl _ _ _ _ Pk Hr) as (a & -> & Ed & Et). rewrite app_nil_r in Et.
  exists hs', (([], y) :: l'), a. split; [exact E1|]. split; [exact E2|]. split; [exact Hr'|]. split; [exact Ed|]. split; [symmetry; exact Et|]. rewrite Ed.
  split; [|split; [apply program_own; assumption|split; [apply program_whole; [discriminate|assumption|assumption]|apply program_clear; [discriminate|assumption|assumption]]]].
  exact (program_tidy u x a Hu Hx Hr').
Qed.
Lemma program_executes bitsize parse_float hs l x s : tx_prefix x = false -> (length (tx_content x) + 2) * 22 <= lex_fuel -> program_text hs l (tx_content x) ->
  exists a r, program_ast x = Ok (ASuccess a) /\ at_discovery a = tx_content x /\ fst (to_root a s) = Ok (Some r) /\
    forall o, app_execute (base_events bitsize parse_float) r o <-> o = Ok (VObj (OProgram (program_value hs l))).
Proof.
  intros Hx Hf P. destruct (program_read hs l x Hx Hf P) as (hs' & l' & a & E1 & E2 & Ha & Ed & Et & Ti & Ow & Wh & Cl). destruct (root_answers a s) as [R _]. destruct (R (whole_solid a Ti Wh)) as (r & Er & M). exists a, r. split; [exact Ha|]. split; [exact Et|]. split; [exact Er|].
  assert (Pi : pictures (drawn a) r) by (exists a; auto). apply C87_only_reading_when_clear with (n := "program"%string).
  - rewrite <- E1, <- E2. rewrite Ed in Pi, Ow. destruct P as (_ & Nl & Gh & Gs & _). apply (program_means bitsize parse_float hs' l' r); [intros ->; apply Nl; symmetry; exact E2| | |exact Ow|exact Pi].
    + rewrite <- E1 in Gh. clear -Gh. induction hs' as [|z k IH]; [constructor|]. cbn [map] in Gh. inversion Gh; subst. constructor; [assumption|apply IH; assumption].
    + rewrite <- E2 in Gs. clear -Gs. induction l' as [|z k IH]; [constructor|]. cbn [map] in Gs. inversion Gs; subst. constructor; [assumption|apply IH; assumption].
  - rewrite (mirrors_name _ _ M). destruct a as [n i ms]. rewrite drawn_entries in Ed. injection Ed as -> _ _. reflexivity.
  - exact (picture_clear _ _ Pi Ow Cl).
Qed.
End Shipped.
