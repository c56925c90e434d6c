(* ProgProofs8.v - proofs for ProgProps.v: what the roots of the trees of a program mean. *)
From Coq Require Import Strings.String Strings.Byte Sorting.Permutation Lia.
From Verif Require Import Go GoLemmas DomainModel CardModel PatModel RuleModel PathModel PathSpec LexModel AstModel RootModel TextModel BaseModel BaseSpec EvtModel EvtSpec PickSpec PickProofs2 AdeqSpec AdeqProofs2 ProgSpec ProgProofs ProgProofs2 ProgProofs3 ProgProofs5 ProgProofs6 ProgProofs7 RootSpec RootProofs RootProofs2.
Open Scope list_scope.

Lemma part_text n w l : Forall2 part_is [Text n w] l -> l = [T w].
Proof. intros H. inversion H as [|? p ? k P F]; subst. inversion F; subst. destruct p; cbn in P; [congruence|contradiction]. Qed.
Lemma part_texts n w m v l : Forall2 part_is [Text n w; Text m v] l -> l = [T w; T v].
Proof. intros H. inversion H as [|? p ? k P F]; subst. apply part_text in F. destruct p; cbn in P; [congruence|contradiction]. Qed.
Lemma part_tokens ts : forall l, Forall (fun t => token_tree t = true) ts -> Forall2 part_is ts l -> exists qs, l = map K qs /\ Forall2 pictures ts qs.
Proof.
  intros l F H. revert F. induction H as [|t p ts l P H IH]; intros F; [exists []; split; [reflexivity|constructor]|]. inversion F as [|? ? Ft F']; subst. destruct (IH F') as (qs & -> & Q). destruct t as [n w|n i k]; [discriminate|]. destruct p as [v|q]; [contradiction|]. exists (q :: qs). split; [reflexivity|constructor; assumption].
Qed.
Lemma part_token t l : token_tree t = true -> Forall2 part_is [t] l -> exists q, l = [K q] /\ pictures t q.
Proof. intros E H. destruct (part_tokens [t] l (Forall_cons _ E (Forall_nil _)) H) as (qs & -> & F). inversion F as [|? q ? ? P F']; subst. inversion F'; subst. exists q. split; [reflexivity|exact P]. Qed.
Ltac groups FL :=
  match type of FL with
  | Forall2 _ [] _ => inversion FL; subst; clear FL
  | Forall2 _ (_ :: _) _ => let m := fresh "m" in let p := fresh "p" in let L := fresh "L" in let E := fresh "E" in let F := fresh "F" in let FL' := fresh "FL" in
      inversion FL as [|? [m p] ? L [E F] FL']; subst; clear FL; cbn [fst snd] in E, F; subst m; groups FL'
  end.
Ltac nodup := repeat (constructor; [cbn [In]; intuition discriminate|]); constructor.
Ltac somes := repeat (constructor; [split; [discriminate|repeat (constructor; [reflexivity|]); constructor]|]); constructor.
Ltac blanks := repeat (constructor; [first [reflexivity | intros X; vm_compute in X; discriminate X]|]); constructor.

Section Means.
Variable bitsize : N.
Variable parse_float : bytes -> N -> option N.
Notation means := (means bitsize parse_float).
Notation each := (each bitsize parse_float).
Lemma each_of n qs : forall xs, Forall2 (means n) qs xs -> each n qs xs.
Proof. induction 1; constructor; assumption. Qed.

Lemma name_means w r : is_name w -> own (name_tree w) -> pictures (name_tree w) r -> spells r w.
Proof.
  intros (a & v & -> & _ & _) O P. cbn [name_tree] in P, O. destruct (picture_parts _ _ _ _ [("FIRST_LETTER", [Text (bs "FIRST_LETTER") [a]]); ("MIN_MAJ_LETTERS", [Text (bs "MIN_MAJ_LETTERS") v])]%string P O) as (L & PL & FL); [reflexivity|nodup|somes|blanks|]. groups FL. apply part_text in F. apply part_text in F0. subst.
  apply (sp_name r [[a]] [v] (a :: v)); [exact PL|cbn; rewrite app_nil_r; reflexivity|discriminate].
Qed.
Lemma one_text r n i m w : own (Branch n i [Text (bs m) w]) -> pictures (Branch n i [Text (bs m) w]) r -> ~ In m channel_names -> parts r [(m, [T w])].
Proof.
  intros O P N. destruct (picture_parts _ _ _ _ [(m, [Text (bs m) w])] P O) as (L & PL & FL); [|constructor; [intros []|constructor]|somes| |].
  - cbn [filter map concat snd app]. assert (B : blank_tree (Text (bs m) w) = false).
    { unfold blank_tree. destruct (existsb _ channel_names) eqn:E; [|reflexivity]. exfalso. apply existsb_exists in E. destruct E as (k & Ik & E). apply bytes_eqb_eq in E. cbn in E. apply bs_inj in E. congruence. }
    rewrite B. reflexivity.
  - constructor; [reflexivity|constructor].
  - groups FL. apply part_text in F. subst. exact PL.
Qed.
Lemma one_token r n i t m : own (Branch n i [t]) -> pictures (Branch n i [t]) r -> token_tree t = true -> tree_name t = bs m -> ~ In m channel_names -> exists q, parts r [(m, [K q])] /\ pictures t q.
Proof.
  intros O P Tt Tn N. assert (B : blank_tree t = false).
  { unfold blank_tree. destruct (existsb _ channel_names) eqn:E; [|reflexivity]. exfalso. apply existsb_exists in E. destruct E as (k & Ik & E). apply bytes_eqb_eq in E. rewrite Tn in E. apply bs_inj in E. congruence. }
  destruct (picture_parts _ _ _ _ [(m, [t])] P O) as (L & PL & FL); [|constructor; [intros []|constructor]| | |].
  - cbn [filter map concat snd app]. rewrite B. reflexivity.
  - constructor; [split; [discriminate|constructor; [exact Tn|constructor]]|constructor].
  - constructor; [congruence|constructor].
  - groups FL. apply part_token in F; [|exact Tt]. destruct F as (q & -> & Q). eauto.
Qed.
Ltac unlisted := cbn [channel_names In]; intuition discriminate.
Lemma type_means t r : own (type_tree t) -> pictures (type_tree t) r -> means "declarativeType" r (OType (BType 0 (type_value t))).
Proof.
  intros O P.
  assert (Kp : forall n i j m, type_tree t = Branch (bs "declarativeType") i [Branch (bs n) j [Text (bs m) (type_text t)]] -> In n ["primitiveType"; "computableType"]%string -> ~ In m channel_names -> (forall q, parts q [(m, [T (type_text t)])] -> means n q (OUint8 (type_value t))) -> means "declarativeType" r (OType (BType 0 (type_value t)))).
  { intros n i j m E I N H. rewrite E in O, P. destruct (one_token _ _ _ _ n O P eq_refl eq_refl) as (q & Pq & Q); [destruct I as [<-|[<-|[]]]; unlisted|]. apply own_branch in O. destruct O as [_ O]. inversion O as [|? ? O1 _]; subst. apply me_type_plain with (n := n) (q := q); [exact I|exact Pq|]. apply H. eapply one_text; eassumption. }
  destruct t.
  - eapply (Kp "primitiveType" 0 0 "BOOL")%string; [reflexivity|left; reflexivity|unlisted|]. intros q. apply me_type_bool.
  - eapply (Kp "primitiveType" 0 1 "STRING")%string; [reflexivity|left; reflexivity|unlisted|]. intros q. apply me_type_string.
  - eapply (Kp "computableType" 1 0 "FLOAT")%string; [reflexivity|right; left; reflexivity|unlisted|]. intros q. apply me_type_float.
  - eapply (Kp "computableType" 1 1 "UINT")%string; [reflexivity|right; left; reflexivity|unlisted|]. intros q. apply me_type_uint.
  - eapply (Kp "computableType" 1 2 "INT")%string; [reflexivity|right; left; reflexivity|unlisted|]. intros q. apply me_type_int.
Qed.
Lemma type_token t : token_tree (type_tree t) = true /\ tree_name (type_tree t) = bs "declarativeType" /\ blank_tree (type_tree t) = false.
Proof. destruct t; split; try reflexivity; split; vm_compute; reflexivity. Qed.
Lemma name_token w : is_name w -> token_tree (name_tree w) = true /\ tree_name (name_tree w) = bs "variableName" /\ blank_tree (name_tree w) = false.
Proof. intros (a & v & -> & _). split; [reflexivity|]. split; [reflexivity|vm_compute; reflexivity]. Qed.
Lemma lead_filter g l : filter (fun t => negb (blank_tree t)) (lead g ++ l) = filter (fun t => negb (blank_tree t)) l.
Proof. destruct g as [|b g]; [reflexivity|]. cbn [lead app filter]. assert (B : blank_tree (Text (bs "WHITESPACES") (b :: g)) = true) by (vm_compute; reflexivity). rewrite B. reflexivity. Qed.
Lemma lead_blanks g l : Forall (fun t => blank_tree t = true -> subs t = []) l -> Forall (fun t => blank_tree t = true -> subs t = []) (lead g ++ l).
Proof. intros F. destruct g; [exact F|]. constructor; [reflexivity|exact F]. Qed.
Lemma own_list n i l t : own (Branch n i l) -> In t l -> own t.
Proof. intros O I. apply own_branch in O. destruct O as [_ F]. rewrite Forall_forall in F. exact (F t I). Qed.
Lemma decl_means t g w r : is_name w -> own (decl_tree t g w) -> pictures (decl_tree t g w) r -> means "variableDeclaration" r (OVarDecl (VarDecl (BType 0 (type_value t)) w)).
Proof.
  intros W O P. destruct (type_token t) as (T1 & T2 & T3). destruct (name_token w W) as (N1 & N2 & N3).
  assert (Ot : own (type_tree t)) by (eapply own_list; [exact O|left; reflexivity]). assert (On : own (name_tree w)) by (eapply own_list; [exact O|right; apply in_or_app; right; left; reflexivity]).
  destruct (picture_parts _ _ _ _ [("declarativeType", [type_tree t]); ("variableName", [name_tree w])]%string P O) as (L & PL & FL); [|nodup| | |].
  - cbn [filter]. rewrite T3. cbn [negb]. rewrite lead_filter. cbn [filter]. rewrite N3. reflexivity.
  - constructor; [split; [discriminate|constructor; [exact T2|constructor]]|]. constructor; [split; [discriminate|constructor; [exact N2|constructor]]|constructor].
  - constructor; [congruence|]. apply lead_blanks. constructor; [congruence|constructor].
  - groups FL. apply part_token in F; [|exact T1]. apply part_token in F0; [|exact N1]. destruct F as (q & -> & Q). destruct F0 as (q' & -> & Q'). eapply me_declaration; [exact PL|apply type_means; assumption|apply name_means; assumption].
Qed.
Lemma by_means (up : bool) r : let t := if up then by_tree "PLUS" 0 "+" else by_tree "MINUS" 1 "-" in own t -> pictures t r -> means "intIncrementValue" r (OValue (int_value (if up then 1 else -1)%Z)).
Proof.
  intros t O P. destruct up; unfold t, by_tree in O, P.
  - destruct (picture_parts _ _ _ _ [("PLUS", [Text (bs "PLUS") (bs "+"); Text (bs "PLUS") (bs "+")])]%string P O) as (L & PL & FL); [reflexivity|nodup|somes|blanks|]. groups FL. apply part_texts in F. subst. eapply me_up. exact PL.
  - destruct (picture_parts _ _ _ _ [("MINUS", [Text (bs "MINUS") (bs "-"); Text (bs "MINUS") (bs "-")])]%string P O) as (L & PL & FL); [reflexivity|nodup|somes|blanks|]. groups FL. apply part_texts in F. subst. eapply me_down. exact PL.
Qed.
Lemma increment_means (up : bool) w r : let t := Branch (bs "intIncrement") 0 [name_tree w; if up then by_tree "PLUS" 0 "+" else by_tree "MINUS" 1 "-"] in
  is_name w -> own t -> pictures t r -> means "intIncrement" r (OIncrement (Increment w (int_value (if up then 1 else -1)%Z))).
Proof.
  intros t W O P. destruct (name_token w W) as (N1 & N2 & N3). set (b := if up then by_tree "PLUS" 0 "+" else by_tree "MINUS" 1 "-") in *. assert (B : token_tree b = true /\ tree_name b = bs "intIncrementValue" /\ blank_tree b = false) by (destruct up; repeat split; vm_compute; reflexivity). destruct B as (B1 & B2 & B3).
  assert (On : own (name_tree w)) by (eapply own_list; [exact O|left; reflexivity]). assert (Ob : own b) by (eapply own_list; [exact O|right; left; reflexivity]).
  destruct (picture_parts _ _ _ _ [("variableName", [name_tree w]); ("intIncrementValue", [b])]%string P O) as (L & PL & FL); [|nodup| | |].
  - cbn [filter]. rewrite N3, B3. reflexivity.
  - constructor; [split; [discriminate|constructor; [exact N2|constructor]]|]. constructor; [split; [discriminate|constructor; [exact B2|constructor]]|constructor].
  - constructor; [congruence|]. constructor; [congruence|constructor].
  - groups FL. apply part_token in F; [|exact N1]. apply part_token in F0; [|exact B1]. destruct F as (q & -> & Q). destruct F0 as (q' & -> & Q'). eapply me_increment; [exact PL|apply name_means; assumption|]. exact (by_means up q' Ob Q').
Qed.
Lemma instr_means g x r : good_stmt x -> own (instr_tree g x) -> pictures (instr_tree g x) r -> means "instruction" r (OInstruction (stmt_value x)).
Proof.
  intros G O P.
  assert (K : forall n, tree_name (snd (stmt_tree x)) = bs n -> token_tree (snd (stmt_tree x)) = true -> ~ In n channel_names -> exists q, parts r [(n, [K q])] /\ pictures (snd (stmt_tree x)) q).
  { intros n Tn Tt N. assert (B : blank_tree (snd (stmt_tree x)) = false).
    { unfold blank_tree. destruct (existsb _ channel_names) eqn:E; [|reflexivity]. exfalso. apply existsb_exists in E. destruct E as (k & Ik & E). apply bytes_eqb_eq in E. rewrite Tn in E. apply bs_inj in E. congruence. }
    destruct (picture_parts _ _ _ _ [(n, [snd (stmt_tree x)])] P O) as (L & PL & FL); [|constructor; [intros []|constructor]| | |].
    - rewrite lead_filter. cbn [filter]. rewrite B. reflexivity.
    - constructor; [split; [discriminate|constructor; [exact Tn|constructor]]|constructor].
    - apply lead_blanks. constructor; [congruence|constructor].
    - groups FL. apply part_token in F; [|exact Tt]. destruct F as (q & -> & Q). eauto. }
  assert (Os : own (snd (stmt_tree x))) by (eapply own_list; [exact O|apply in_or_app; right; left; reflexivity]).
  destruct x as [t s w| | |w|w]; cbn [stmt_tree snd good_stmt] in *.
  - destruct (K "variableDeclaration"%string) as (q & PL & Q); [reflexivity|reflexivity|unlisted|]. eapply me_i_declaration; [exact PL|]. apply (decl_means t s w q (proj1 (proj2 G)) Os Q).
  - destruct (K "direction"%string) as (q & PL & Q); [reflexivity|reflexivity|unlisted|]. eapply me_i_direction; [exact PL|]. eapply me_break. eapply one_text; [exact Os|exact Q|unlisted].
  - destruct (K "direction"%string) as (q & PL & Q); [reflexivity|reflexivity|unlisted|]. eapply me_i_direction; [exact PL|]. eapply me_continue. eapply one_text; [exact Os|exact Q|unlisted].
  - destruct (K "intIncrement"%string) as (q & PL & Q); [reflexivity|reflexivity|unlisted|]. eapply me_i_increment; [exact PL|]. exact (increment_means true w q (proj1 G) Os Q).
  - destruct (K "intIncrement"%string) as (q & PL & Q); [reflexivity|reflexivity|unlisted|]. eapply me_i_increment; [exact PL|]. exact (increment_means false w q (proj1 G) Os Q).
Qed.
(* several of one kind *)
Lemma same_kind r n i m ts : ts <> [] -> Forall (fun t => token_tree t = true /\ tree_name t = bs m) ts -> ~ In m channel_names -> own (Branch n i ts) -> pictures (Branch n i ts) r ->
  exists qs, parts r [(m, map K qs)] /\ Forall2 pictures ts qs.
Proof.
  intros Ne F N O P. assert (B : forall t, In t ts -> blank_tree t = false).
  { intros t It. rewrite Forall_forall in F. destruct (F t It) as [_ Tn]. unfold blank_tree. destruct (existsb _ channel_names) eqn:E; [|reflexivity]. exfalso. apply existsb_exists in E. destruct E as (k & Ik & E). apply bytes_eqb_eq in E. rewrite Tn in E. apply bs_inj in E. congruence. }
  destruct (picture_parts _ _ _ _ [(m, ts)] P O) as (L & PL & FL); [|constructor; [intros []|constructor]| | |].
  - cbn [map concat snd]. rewrite app_nil_r. clear -B. induction ts as [|t ts IH]; [reflexivity|]. cbn [filter]. rewrite (B t (or_introl eq_refl)). cbn [negb]. f_equal. apply IH. intros u Iu. apply B. right. exact Iu.
  - constructor; [split; [exact Ne|eapply Forall_impl; [|exact F]; cbn; tauto]|constructor].
  - apply Forall_forall. intros t It X. rewrite (B t It) in X. discriminate.
  - groups FL. apply part_tokens in F0; [|eapply Forall_impl; [|exact F]; cbn; tauto]. destruct F0 as (qs & -> & Q). eauto.
Qed.
Lemma instrs_means l r : l <> [] -> Forall (fun y => good_stmt (snd y)) l -> own (instrs_tree l) -> pictures (instrs_tree l) r -> means "instructions" r (OInstructions (map (fun y => stmt_value (snd y)) l)).
Proof.
  intros N G O P. unfold instrs_tree in O, P. destruct (same_kind r (bs "instructions") 0 "instruction" (map (fun y => instr_tree (fst y) (snd y)) l)) as (qs & PL & Q); [intros Z; apply map_eq_nil in Z; contradiction|apply Forall_forall; intros t It; apply in_map_iff in It; destruct It as (y & <- & _); split; reflexivity|unlisted|exact O|exact P|].
  eapply me_instructions; [exact PL|intros ->; inversion Q; apply N; destruct l; [reflexivity|discriminate]|]. apply each_of. assert (Ol : Forall own (map (fun y => instr_tree (fst y) (snd y)) l)) by (apply own_branch in O; apply O). clear O P PL N. revert qs Q. induction l as [|y l IH]; intros qs Q; inversion Q as [|? q ? qs' Pq Q']; subst; [constructor|]. inversion G as [|? ? Gy Gl]; subst. inversion Ol as [|? ? Oy Ol']; subst. cbn [map]. constructor; [apply (instr_means (fst y)); assumption|apply IH; assumption].
Qed.

(* ---- header variables ---- *)
Lemma way_means i r : own (way_tree i) -> pictures (way_tree i) r -> means "inputOutput" r (OBool i).
Proof. intros O P. destruct i; [eapply me_input|eapply me_output]; (eapply one_text; [exact O|exact P|unlisted]). Qed.
Lemma hdr_means g h tr r : good_hdr h -> own (hdr_tree g h tr) -> pictures (hdr_tree g h tr) r -> means "headerVariable" r (OHeaderVariable (hdr_value h)).
Proof.
  intros (_ & _ & W & _ & (Nk & _)) O P. unfold hdr_value.
  assert (Ow : own (way_tree (h_input h))) by (eapply own_list; [exact O|apply in_or_app; right; left; reflexivity]). assert (Od : own (decl_tree (h_type h) (h_space h) (h_name h))) by (eapply own_list; [exact O|do 3 (apply in_or_app; right); apply in_or_app; left; left; reflexivity]).
  assert (B1 : blank_tree (way_tree (h_input h)) = false) by (unfold way_tree; vm_compute; reflexivity). assert (B2 : blank_tree (decl_tree (h_type h) (h_space h) (h_name h)) = false) by (unfold decl_tree; vm_compute; reflexivity).
  assert (B3 : blank_tree (Text (bs "COLON") (bs ":")) = false) by (vm_compute; reflexivity). assert (B4 : blank_tree (Text (bs "KEYNAME_PATTERN") (h_key h)) = false) by (vm_compute; reflexivity). assert (B5 : blank_tree (Text (bs "QUESTION_MARK") (bs "?")) = false) by (vm_compute; reflexivity).
  unfold hdr_tree in O, P. destruct (h_optional h).
  - destruct (picture_parts _ _ _ _ [("inputOutput", [way_tree (h_input h)]); ("variableDeclaration", [decl_tree (h_type h) (h_space h) (h_name h)]); ("COLON", [Text (bs "COLON") (bs ":")]); ("KEYNAME_PATTERN", [Text (bs "KEYNAME_PATTERN") (h_key h)]); ("QUESTION_MARK", [Text (bs "QUESTION_MARK") (bs "?")])]%string P O) as (L & PL & FL); [|nodup|somes| |].
    + rewrite lead_filter. cbn [app filter]. rewrite B1. cbn [negb]. rewrite lead_filter. cbn [app filter]. rewrite B2, B3, B4, B5. reflexivity.
    + apply lead_blanks. cbn [app]. constructor; [congruence|]. apply lead_blanks. repeat (constructor; [congruence|]). constructor.
    + groups FL. apply part_token in F; [|reflexivity]. apply part_token in F0; [|reflexivity]. apply part_text in F1. apply part_text in F2. apply part_text in F3. subst. destruct F as (q & -> & Q). destruct F0 as (q' & -> & Q'). eapply me_header_optional; [exact PL|exact Nk|apply way_means; assumption|eapply decl_means; eassumption].
  - destruct (picture_parts _ _ _ _ [("inputOutput", [way_tree (h_input h)]); ("variableDeclaration", [decl_tree (h_type h) (h_space h) (h_name h)]); ("COLON", [Text (bs "COLON") (bs ":")]); ("KEYNAME_PATTERN", [Text (bs "KEYNAME_PATTERN") (h_key h)])]%string P O) as (L & PL & FL); [|nodup|somes| |].
    + rewrite lead_filter. cbn [app filter]. rewrite B1. cbn [negb]. rewrite lead_filter. cbn [app filter]. rewrite B2, B3, B4. cbn [negb]. rewrite <- (app_nil_r (lead tr)), lead_filter. reflexivity.
    + apply lead_blanks. cbn [app]. constructor; [congruence|]. apply lead_blanks. repeat (constructor; [congruence|]). rewrite <- (app_nil_r (lead tr)). apply lead_blanks. constructor.
    + groups FL. apply part_token in F; [|reflexivity]. apply part_token in F0; [|reflexivity]. apply part_text in F1. apply part_text in F2. subst. destruct F as (q & -> & Q). destruct F0 as (q' & -> & Q'). eapply me_header; [exact PL|exact Nk|apply way_means; assumption|eapply decl_means; eassumption].
Qed.
Lemma hdrs_are hs : forall g qs, Forall (fun y => good_hdr (fst y)) hs -> Forall own (hdr_trees g hs) -> Forall2 pictures (hdr_trees g hs) qs -> Forall2 (means "headerVariable") qs (map OHeaderVariable (map (fun y => hdr_value (fst y)) hs)).
Proof.
  induction hs as [|[h a] hs IH]; intros g qs G O Q; cbn [hdr_trees] in O, Q; inversion Q as [|? q ? qs' Pq Q']; subst; [constructor|]. inversion G as [|? ? Gh Gl]; subst. inversion O as [|? ? Oh Ol]; subst. cbn [map fst] in *. constructor; [eapply hdr_means; eassumption|eapply IH; eassumption].
Qed.
Lemma hdr_tokens hs : forall g, Forall (fun t => token_tree t = true /\ tree_name t = bs "headerVariable") (hdr_trees g hs).
Proof. induction hs as [|[h a] hs IH]; intros g; [constructor|]. cbn [hdr_trees]. constructor; [split; reflexivity|apply IH]. Qed.
Lemma program_means hs l r : l <> [] -> Forall (fun y => good_hdr (fst y)) hs -> Forall (fun y => good_stmt (snd y)) l -> own (program_tree hs l) -> pictures (program_tree hs l) r ->
  means "program" r (OProgram (program_value (map fst hs) (map snd l))).
Proof.
  intros Nl Gh Gl O P. unfold program_value. rewrite !map_map. assert (Bi : blank_tree (instrs_tree l) = false) by (unfold instrs_tree; vm_compute; reflexivity).
  assert (Oi : own (instrs_tree l)) by (eapply own_list; [exact O|apply in_or_app; right; apply in_or_app; right; left; reflexivity]).
  destruct hs as [|y hs].
  - cbn [map]. unfold program_tree in O, P. cbn [left_over lead app] in O, P. destruct (one_token _ _ _ _ "instructions" O P eq_refl eq_refl ltac:(unlisted)) as (q & PL & Q). eapply me_program; [exact PL|apply instrs_means; assumption].
  - cbn [map]. set (hl := y :: hs) in *. set (ht := Branch (bs "headerVariables") 0 (hdr_trees [] hl)). assert (Bh : blank_tree ht = false) by (unfold ht; vm_compute; reflexivity). change (program_tree hl l) with (Branch (bs "program") 0 ([ht] ++ lead (left_over [] hl) ++ [instrs_tree l])) in O, P.
    assert (Oh : own ht) by (eapply own_list; [exact O|left; reflexivity]).
    destruct (picture_parts _ _ _ _ [("headerVariables", [ht]); ("instructions", [instrs_tree l])]%string P O) as (L & PL & FL); [|nodup|somes| |].
    + cbn [app filter]. rewrite Bh. cbn [negb]. rewrite lead_filter. cbn [filter]. rewrite Bi. reflexivity.
    + cbn [app]. constructor; [congruence|]. apply lead_blanks. constructor; [congruence|constructor].
    + groups FL. apply part_token in F; [|reflexivity]. apply part_token in F0; [|reflexivity]. destruct F as (q & -> & Q). destruct F0 as (q' & -> & Q'). eapply me_program_header; [exact PL| |apply instrs_means; assumption].
      assert (Ne : hdr_trees [] hl <> []) by (unfold hl; destruct y; discriminate). destruct (same_kind _ _ _ "headerVariable" _ Ne (hdr_tokens hl []) ltac:(unlisted) Oh Q) as (qs & PLh & Qs). eapply me_headers; [exact PLh|intros ->; inversion Qs as [E|]; apply Ne; symmetry; exact E|]. apply each_of.
      change (hdr_value (fst y) :: map (fun x => hdr_value (fst x)) hs) with (map (fun x => hdr_value (fst x)) hl). eapply hdrs_are; [exact Gh|apply own_branch in Oh; apply Oh|exact Qs].
Qed.
End Means.
