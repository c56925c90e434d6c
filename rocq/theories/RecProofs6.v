(* RecProofs6.v - proofs for RecProps.v: what declarations with list types mean. *)
From Coq Require Import Strings.String Strings.Byte Lia.
From Verif Require Import Go GoLemmas DomainModel DomainSpec CardModel CardSpec PatModel PatSpec RuleModel RuleSpec PathModel PathSpec LexModel LexSpec AstModel AstSpec TextModel SuiteModel AppModel AppSpec GramModel SuiteSpec RootModel BaseModel BaseSpec EvtModel EvtSpec EvtProofs EvtProps OrdSpec OrdProofs2 AdeqSpec AdeqProofs2 AdeqProofs8 AdeqConfProps PickSpec PickProofs2 LetterProofs ShapeProofs ProgSpec ShapeProofs2 ProgProofs ProgProofs2 ProgProofs3 ProgProofs5 ProgProofs6 ProgProofs7 ProgProofs8 ProgProofs9 ProgProofs10 ListSpec RecProofs4 RecProofs5 RootSpec RootProofs RootProofs2.
Open Scope list_scope.

Definition dept (n : nat) : N := (N.of_nat n mod 2 ^ 64)%N.
Lemma dept_more n : ((dept n + 1) mod 2 ^ 64 = dept (S n))%N.
Proof. unfold dept. rewrite Nat2N.inj_succ, <- N.add_1_r, N.add_mod_idemp_l by discriminate. reflexivity. Qed.

Definition list_parts (g1 g2 : bytes) (x : tree) (g3 : bytes) : list tree := [Text (bs "LIST") (bs "list")] ++ gap_tree g1 ++ [Text (bs "LESS") (bs "<")] ++ gap_tree g2 ++ [x] ++ gap_tree g3 ++ [Text (bs "MORE") (bs ">")].
Lemma gap_lead g : gap_tree g = lead g. Proof. reflexivity. Qed.
Lemma ltype_branch t : exists i l, ltype_tree t = Branch (bs "declarativeType") i l.
Proof. destruct t as [[]|]; cbn [ltype_tree]; eauto. Qed.
Lemma ltype_blank t : blank_tree (ltype_tree t) = false.
Proof. destruct (ltype_branch t) as (i & l & ->). vm_compute. reflexivity. Qed.
Lemma list_filter g1 g2 x g3 : blank_tree x = false -> filter (fun t => negb (blank_tree t)) (list_parts g1 g2 x g3) = [Text (bs "LIST") (bs "list"); Text (bs "LESS") (bs "<"); x; Text (bs "MORE") (bs ">")].
Proof.
  intros B. unfold list_parts. rewrite !gap_lead. cbn [app]. assert (B1 : blank_tree (Text (bs "LIST") (bs "list")) = false) by (vm_compute; reflexivity). assert (B2 : blank_tree (Text (bs "LESS") (bs "<")) = false) by (vm_compute; reflexivity). assert (B3 : blank_tree (Text (bs "MORE") (bs ">")) = false) by (vm_compute; reflexivity).
  cbn [filter]. rewrite B1. cbn [negb]. rewrite lead_filter. cbn [filter]. rewrite B2. cbn [negb]. rewrite lead_filter. cbn [filter]. rewrite B. cbn [negb]. rewrite lead_filter. cbn [filter]. rewrite B3. reflexivity.
Qed.
Lemma list_blanks g1 g2 x g3 : blank_tree x = false -> Forall (fun t => blank_tree t = true -> subs t = []) (list_parts g1 g2 x g3).
Proof.
  intros B. unfold list_parts. rewrite !gap_lead. constructor; [reflexivity|]. apply lead_blanks. constructor; [reflexivity|]. apply lead_blanks. constructor; [congruence|]. apply lead_blanks. constructor; [reflexivity|constructor].
Qed.

(* ---- own, whole, clear ---- *)
Lemma list_own n i g1 g2 x g3 : own x -> own (Branch n i (list_parts g1 g2 x g3)).
Proof.
  intros O. apply own_solo; unfold list_parts; rewrite !gap_lead.
  - split; [intros N; contradiction N; reflexivity|]. apply solo_lead. split; [intros N; contradiction N; reflexivity|]. apply solo_lead. split; [|apply solo_lead; split; [intros N; contradiction N; reflexivity|exact I]].
    intros _ y z Iy Iz. exfalso. destruct g3 as [|b g3]; cbn [lead app] in Iy; [destruct Iy as [<-|[]]|destruct Iy as [<-|[<-|[]]]]; destruct Iz.
  - constructor; [exact I|]. apply own_lead. constructor; [exact I|]. apply own_lead. constructor; [exact O|]. apply own_lead. constructor; [exact I|constructor].
Qed.
Lemma ltype_own t : own (ltype_tree t).
Proof. induction t as [t|g1 g2 t IH g3]; [rewrite plain_tree; apply type_own|]. cbn [ltype_tree]. apply own_one. apply list_own, IH. Qed.
Lemma gap_text g : concat (map tree_text (gap_tree g)) = g.
Proof. destruct g; [reflexivity|]. cbn [gap_tree map concat tree_text]. apply app_nil_r. Qed.
Lemma ltype_tree_text t : tree_text (ltype_tree t) = ltype_text t.
Proof.
  induction t as [t|g1 g2 t IH g3]; [rewrite plain_tree; apply type_tree_text|]. cbn [ltype_tree tree_text map concat]. rewrite app_nil_r. rewrite !map_app, !concat_app, !gap_text. cbn [map concat tree_text]. rewrite IH, !app_nil_r. reflexivity.
Qed.
Lemma name_shape_is w : is_name w -> name_shape w = name_tree w.
Proof. intros (a & v & -> & _). reflexivity. Qed.
Lemma ldecl_own t g w : is_name w -> ltype_text t <> w -> own (ldecl_tree t g w).
Proof.
  intros W N. unfold ldecl_tree. rewrite (name_shape_is w W), gap_lead. apply own_solo.
  - split.
    + intros _ y z Iy Iz E. exfalso. destruct g as [|b g]; cbn [lead app] in Iy; (destruct Iy as [<-|Iy]; [|try (destruct Iy as [<-|Iy]; [|destruct Iy]); try destruct Iy]); try destruct Iz; try (apply (name_subs w z W) in Iz; subst z; rewrite (name_text w W), ltype_tree_text in E; apply N; congruence).
    + apply solo_lead. split; [intros _ y z []|exact I].
  - constructor; [apply ltype_own|]. apply own_lead. constructor; [apply name_own, W|constructor].
Qed.
Lemma ltype_whole t : whole (ltype_tree t).
Proof.
  induction t as [t|g1 g2 t IH g3]; [rewrite plain_tree; apply type_whole|]. cbn [ltype_tree]. apply whole_branch. split; [discriminate|]. split; [discriminate|]. constructor; [|constructor]. apply whole_branch. split; [discriminate|]. split; [discriminate|].
  rewrite !gap_lead. constructor; [split; discriminate|]. apply whole_lead. constructor; [split; discriminate|]. apply whole_lead. constructor; [exact IH|]. apply whole_lead. constructor; [split; discriminate|constructor].
Qed.
Lemma ldecl_whole t g w : is_name w -> whole (ldecl_tree t g w).
Proof. intros W. unfold ldecl_tree. rewrite (name_shape_is w W), gap_lead. apply whole_branch. split; [discriminate|]. split; [discriminate|]. constructor; [apply ltype_whole|]. apply whole_lead. constructor; [apply name_whole, W|constructor]. Qed.
Lemma gap_names g m : m <> bs "WHITESPACES" -> existsb (bytes_eqb m) (concat (map names (gap_tree g))) = false.
Proof. intros N. destruct g as [|b g]; [reflexivity|]. cbn [gap_tree map concat names tree_name app existsb]. destruct (bytes_eqb m (bs "WHITESPACES")) eqn:E; [apply bytes_eqb_eq in E; contradiction|reflexivity]. Qed.
Lemma ltype_names t : free_of (bs "variableName") (ltype_tree t) = true.
Proof.
  unfold free_of. apply negb_true_iff. induction t as [t|g1 g2 t IH g3]; [destruct t; vm_compute; reflexivity|]. cbn [ltype_tree]. cbn [names tree_name map concat]. rewrite app_nil_r. cbn [existsb]. rewrite !map_app, !concat_app, !existsb_app, !gap_names by discriminate. cbn [map concat]. rewrite !app_nil_r. rewrite IH. vm_compute. reflexivity.
Qed.
Lemma one_seek l v : (forall u, In u l -> seekable u = true -> u = v) -> (forall u, In u l -> u <> v -> existsb (bytes_eqb (tree_name v)) (names u) = false) -> forallb clear_b l = true -> (forall n i, clear_b (Branch n i l) = true).
Proof.
  intros S N C n i. cbn [clear_b]. rewrite C, andb_true_r. apply forallb_forall. intros x Ix. destruct (seekable x) eqn:E; [|reflexivity]. rewrite (S x Ix E) in *. apply forallb_forall. intros u Iu. destruct (bytes_eqb (tree_name u) (tree_name v)) eqn:Eu; [reflexivity|]. rewrite (N u Iu); [reflexivity|]. intros ->. rewrite (proj2 (bytes_eqb_eq _ _) eq_refl) in Eu. discriminate.
Qed.
Lemma list_in g1 g2 x g3 u : In u (list_parts g1 g2 x g3) -> u = x \/ exists n w, u = Text (bs n) w /\ In n ["LIST"; "LESS"; "MORE"; "WHITESPACES"]%string.
Proof.
  unfold list_parts. intros H. assert (G : forall g, In u (gap_tree g) -> exists n w, u = Text (bs n) w /\ In n ["LIST"; "LESS"; "MORE"; "WHITESPACES"]%string) by (intros [|b g]; [intros []|intros [<-|[]]; exists "WHITESPACES"%string, (b :: g); split; [reflexivity|cbn; auto]]).
  assert (T : forall n w, In n ["LIST"; "LESS"; "MORE"; "WHITESPACES"]%string -> In u [Text (bs n) w] -> exists n w, u = Text (bs n) w /\ In n ["LIST"; "LESS"; "MORE"; "WHITESPACES"]%string) by (intros n w I [<-|[]]; exists n, w; auto).
  repeat (apply in_app_or in H; destruct H as [H|H]); try (right; exact (G _ H)); try (right; eapply T; [|exact H]; cbn; tauto). destruct H as [->|[]]. left. reflexivity.
Qed.
Lemma ltype_clear t : clear_b (ltype_tree t) = true.
Proof.
  induction t as [t|g1 g2 t IH g3]; [destruct t; vm_compute; reflexivity|]. cbn [ltype_tree]. change ([Text (bs "LIST") (bs "list")] ++ gap_tree g1 ++ [Text (bs "LESS") (bs "<")] ++ gap_tree g2 ++ [ltype_tree t] ++ gap_tree g3 ++ [Text (bs "MORE") (bs ">")]) with (list_parts g1 g2 (ltype_tree t) g3).
  set (l := list_parts g1 g2 (ltype_tree t) g3). assert (C : clear_b (Branch (bs "listType") 0 l) = true).
  { apply one_seek with (v := ltype_tree t).
    - intros u Iu Su. apply list_in in Iu. destruct Iu as [->|(n & w & -> & I)]; [reflexivity|]. destruct I as [<-|[<-|[<-|[<-|[]]]]]; vm_compute in Su; discriminate.
    - intros u Iu Nu. apply list_in in Iu. destruct Iu as [->|(n & w & -> & I)]; [contradiction Nu; reflexivity|]. destruct (ltype_branch t) as (i & k & ->). destruct I as [<-|[<-|[<-|[<-|[]]]]]; vm_compute; reflexivity.
    - apply forallb_forall. intros u Iu. apply list_in in Iu. destruct Iu as [->|(n & w & -> & _)]; [exact IH|reflexivity]. }
  apply same_clear with (m := bs "listType"). constructor; [split; [reflexivity|exact C]|constructor].
Qed.
Lemma ldecl_clear t g w : is_name w -> clear_b (ldecl_tree t g w) = true.
Proof.
  intros W. unfold ldecl_tree. rewrite (name_shape_is w W), gap_lead. assert (F := ltype_names t). assert (C := ltype_clear t). destruct (ltype_branch t) as (i & l & E). rewrite E in *. destruct W as (a & v & -> & _).
  apply two_clear; [exact C|vm_compute; reflexivity|vm_compute; reflexivity|vm_compute; reflexivity|exact F|vm_compute; reflexivity|discriminate|discriminate].
Qed.

(* ---- meaning ---- *)
Section Means.
Variable bitsize : N.
Variable parse_float : bytes -> N -> option N.
Notation means := (EvtSpec.means bitsize parse_float).
Lemma ltype_means t : forall r, pictures (ltype_tree t) r -> means "declarativeType" r (OType (BType (dept (ltype_depth t)) (type_value (core t)))).
Proof.
  induction t as [t|g1 g2 t IH g3]; intros r P.
  - rewrite plain_tree in P. apply type_means; [apply type_own|exact P].
  - assert (O := ltype_own (LList g1 g2 t g3)). cbn [ltype_tree] in P, O. change ([Text (bs "LIST") (bs "list")] ++ gap_tree g1 ++ [Text (bs "LESS") (bs "<")] ++ gap_tree g2 ++ [ltype_tree t] ++ gap_tree g3 ++ [Text (bs "MORE") (bs ">")]) with (list_parts g1 g2 (ltype_tree t) g3) in P, O.
    destruct (one_token _ _ _ _ "listType" O P eq_refl eq_refl ltac:(cbn [channel_names In]; intuition discriminate)) as (q & Pq & Q). assert (Oq := own_list _ _ _ _ O (or_introl eq_refl)).
    cbn [ltype_depth core]. assert (M : means "listType" q (OType (BType (dept (ltype_depth t)) (type_value (core t))))).
    { assert (B := ltype_blank t). destruct (ltype_branch t) as (i & l & E).
      destruct (picture_parts _ _ _ _ [("LIST", [Text (bs "LIST") (bs "list")]); ("LESS", [Text (bs "LESS") (bs "<")]); ("declarativeType", [ltype_tree t]); ("MORE", [Text (bs "MORE") (bs ">")])]%string Q Oq) as (L & PL & FL); [rewrite list_filter by exact B; reflexivity|nodup| |apply list_blanks, B|].
      - constructor; [split; [discriminate|repeat (constructor; [reflexivity|]); constructor]|]. constructor; [split; [discriminate|repeat (constructor; [reflexivity|]); constructor]|]. constructor; [split; [discriminate|constructor; [rewrite E; reflexivity|constructor]]|]. constructor; [split; [discriminate|repeat (constructor; [reflexivity|]); constructor]|constructor].
      - groups FL. apply part_text in F. apply part_text in F0. apply part_token in F1; [|rewrite E; reflexivity]. apply part_text in F2. destruct F1 as (q' & -> & Q'). subst. eapply me_list_type; [exact PL|apply IH, Q']. }
    assert (K := me_type_list bitsize parse_float r q _ Pq M). cbn [ty_dept ty_flag] in K. rewrite dept_more in K. exact K.
Qed.
Lemma ldecl_means t g w r : is_name w -> ltype_text t <> w -> pictures (ldecl_tree t g w) r -> means "variableDeclaration" r (OVarDecl (VarDecl (BType (dept (ltype_depth t)) (type_value (core t))) w)).
Proof.
  intros W N P. assert (O := ldecl_own t g w W N). unfold ldecl_tree in P, O. rewrite (name_shape_is w W), gap_lead in P, O. destruct (name_token w W) as (N1 & N2 & N3). assert (B := ltype_blank t). destruct (ltype_branch t) as (i & l & E).
  assert (On : own (name_tree w)) by apply name_own, W.
  destruct (picture_parts _ _ _ _ [("declarativeType", [ltype_tree t]); ("variableName", [name_tree w])]%string P O) as (L & PL & FL); [|nodup| | |].
  - cbn [app filter]. rewrite B. cbn [negb]. rewrite lead_filter. cbn [filter]. rewrite N3. reflexivity.
  - constructor; [split; [discriminate|constructor; [rewrite E; reflexivity|constructor]]|]. constructor; [split; [discriminate|constructor; [exact N2|constructor]]|constructor].
  - constructor; [congruence|]. apply lead_blanks. constructor; [congruence|constructor].
  - groups FL. apply part_token in F; [|rewrite E; reflexivity]. apply part_token in F0; [|exact N1]. destruct F as (q & -> & Q). destruct F0 as (q' & -> & Q'). eapply me_declaration; [exact PL|apply ltype_means; assumption|apply name_means; assumption].
Qed.
End Means.

Section Shipped.
Variables rules_file tokens_file : bytes -> option bytes.
Variable order : list path -> nat -> list path.
Hypothesis O : an_order order.
Variables lex_fuel fuel : nat.
Notation decl_ast x := (fst (app_ast rules_file tokens_file order lex_fuel fuel [] {| rt_root := bs "variableDeclaration"; rt_rest := {| mu_container := base_texts; mu_channels := base_channels |} |} x)).
Lemma ldecl_executes bitsize parse_float t g w x rest s : good_ltype t -> blank g -> is_name w -> ltype_text t <> w -> ends_class letters rest -> tx_prefix x = false -> tx_content x = ldecl_text t g w ++ rest -> (length (tx_content x) + 2) * 22 <= lex_fuel ->
  exists a r, decl_ast x = Ok (ASuccess a) /\ fst (to_root a s) = Ok (Some r) /\
    forall o, app_execute (base_events bitsize parse_float) r o <-> o = Ok (VObj (OVarDecl (VarDecl (BType (dept (ltype_depth t)) (type_value (core t))) w))).
Proof.
  intros Gt G W N R Hx Es Hf. destruct (ldecl_shipped rules_file tokens_file order O lex_fuel fuel t g w x rest Gt G W R Hx Es Hf) as (a & Ha & Ed & _).
  destruct (holds_some _ _ ldecl_check) as (u & Hu). assert (Ti : tidy a).
  { assert (K := C93_shipped_conforms rules_file tokens_file order O lex_fuel fuel u (bs "variableDeclaration") x a Hu Hx Ha). destruct K as [Cf _]. revert Cf. generalize (table_all (fst u)). intros ts Cf. exact (conforms_tidy ts _ _ a _ Cf). }
  destruct (root_answers a s) as [Ra _]. destruct (Ra (whole_solid a Ti ltac:(rewrite Ed; apply ldecl_whole, W))) as (r & Er & M). exists a, r. split; [exact Ha|]. split; [exact Er|].
  assert (Pi : pictures (drawn a) r) by (exists a; auto). rewrite Ed in Pi. apply C87_only_reading_when_clear with (n := "variableDeclaration"%string).
  - apply (ldecl_means bitsize parse_float t g w r W N Pi).
  - rewrite (mirrors_name _ _ M). destruct a as [n i ms]. rewrite drawn_entries in Ed. injection Ed as -> _ _. reflexivity.
  - exact (picture_clear _ _ Pi (ldecl_own t g w W N) (ldecl_clear t g w W)).
Qed.
End Shipped.
