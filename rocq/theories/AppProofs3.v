(* AppProofs3.v - the properties of the calls of the lexer application. *)
From Coq Require Import Strings.String Strings.Byte Lia.
From Verif Require Import Go GoLemmas DomainModel DomainSpec DomainProofs CardModel PatModel RuleModel RuleProofs PathModel PathSpec PathProofs LexModel AstModel RootModel SuiteModel SuiteSpec SuiteProofs Regex TextModel TextSpec TextTokSpec TextRefSpec TextProofs TextProofs2 TextProofs3 TextProofs4 TextProofs5 TextTokProofs5 TextRefProofs2 TextRefProofs3 AppModel AppSpec AppProofs AppProofs2.
Open Scope list_scope.

Lemma refs_some text refs : means_references text refs -> (rf_references refs <> None -> has_refs refs = true) /\ (rf_references refs = None -> has_refs refs = false).
Proof.
  intros (ids & is & fds & fs & pds & ps & _ & _ & _ & _ & [[_ E]|[N E]] & _); unfold has_refs; rewrite E; cbn; split; intros H; try congruence; try reflexivity. destruct fs; [contradiction|reflexivity].
Qed.
Lemma mlookup_same {V} (m : gmap V) k v : mlookup (minsert m k v) k = Some v.
Proof. unfold minsert. cbn [mlookup]. rewrite bytes_eqb_refl. reflexivity. Qed.
Lemma mlookup_other {V} (m : gmap V) k v n : k <> n -> mlookup (minsert m k v) n = mlookup m n.
Proof. intros H. unfold minsert. cbn [mlookup]. destruct (bytes_eqb k n) eqn:E; [apply bytes_eqb_eq in E; contradiction|reflexivity]. Qed.
(* ---- plainly ---- *)
Lemma plainly_ok A B (made : res A) c m (k : A -> _ -> res B) y m' : plainly made c m k = (Ok y, m') ->
  exists x refs, made = Ok x /\ to_references (ct_tokens c) = Ok refs /\ has_refs refs = false /\ replace_all_paths c false (links_list (rf_replacements refs)) m = (Ok tt, m') /\ k x (replacing m') = Ok y.
Proof.
  unfold plainly. destruct made as [x| | |]; cbn [bind]; try discriminate. destruct (to_references (ct_tokens c)) as [refs| | |]; cbn [bind]; try discriminate.
  destruct (replace_all_paths c (has_refs refs) _ m) as [[[]| | |] m1] eqn:E; try discriminate. destruct (has_refs refs) eqn:R; [discriminate|]. intros [= K <-]. exists x, refs. auto.
Qed.
Lemma plainly_refs A B (made : res A) c m (k : A -> _ -> res B) refs : means_references (ct_tokens c) refs -> rf_references refs <> None -> forall y, fst (plainly made c m k) <> Ok y.
Proof.
  intros M N y. destruct (plainly made c m k) as [o m'] eqn:E. cbn [fst]. intros ->. apply plainly_ok in E. destruct E as (x & refs' & _ & R & H & _). apply to_references_exact in M. rewrite M in R. injection R as <-. apply to_references_exact in M. apply (refs_some _ _ M) in N. congruence.
Qed.
Lemma plainly_none A B (made : res A) c m (k : A -> _ -> res B) : no_replacements (ct_tokens c) ->
  plainly made c m k = ((let* x := made in let* refs := to_references (ct_tokens c) in if has_refs refs then Err else k x (replacing m)), m).
Proof.
  intros N. unfold plainly. destruct made as [x| | |]; cbn [bind]; try reflexivity. destruct (to_references (ct_tokens c)) as [refs| | |] eqn:E; cbn [bind]; try reflexivity.
  apply to_references_exact in E. rewrite (N _ E). cbn. reflexivity.
Qed.
(* ---- the replacements ---- *)
Lemma replaced_others c b l : forall m o m', replace_all_paths c b l m = (o, m') -> forall n, ~ In n (map lk_reference l) -> mlookup m' n = mlookup m n.
Proof.
  induction l as [|x l IH]; intros m o m' H n Hn; cbn [replace_all_paths] in H; [injection H as _ <-; reflexivity|].
  destruct (if bytes_eqb (lk_local x) [] then Err else local_path c b (lk_local x) m) as [p| | |]; try (injection H as _ <-; reflexivity).
  apply (IH _ _ _) with (n := n) in H; [|intros K; apply Hn; right; exact K]. rewrite H. apply mlookup_other. intros E. apply Hn. left. exact E.
Qed.
Lemma plainly_others A B (made : res A) c m (k : A -> _ -> res B) n : (forall refs, means_references (ct_tokens c) refs -> ~ In n (replaced_names refs)) -> mlookup (snd (plainly made c m k)) n = mlookup m n.
Proof.
  intros H. unfold plainly. destruct made as [x| | |]; cbn [bind]; try reflexivity. destruct (to_references (ct_tokens c)) as [refs| | |] eqn:E; cbn [bind]; try reflexivity.
  apply to_references_exact in E. specialize (H _ E). destruct (replace_all_paths c (has_refs refs) _ m) as [o m1] eqn:K. apply replaced_others with (n := n) in K; [|exact H]. destruct o; exact K.
Qed.
Lemma local_path_is c m name p : local_path c false name m = Ok p -> exists l T t, means_texts c l /\ table_for (map fst l) T /\ named t_name (map fst l) name t /\ path_for T none (replacing m) t = Ok p.
Proof.
  unfold local_path, create_root_token. intros H. apply bind_ok in H. destruct H as ([[t T] o] & H & K). cbn [fst snd] in K. apply bind_ok in H. destruct H as (x & H & J). apply bind_ok in J. destruct J as (t' & F & [= -> <- _]).
  destruct (create_answer _ _ _ H) as (l & k & (rs & R1 & R2 & _) & _ & A & _). exists l, (fst (fst x)), t. split; [exists rs; auto|]. split; [exact A|]. split; [apply A; exact F|exact K].
Qed.
Lemma replaced_exact c l : forall m m', replace_all_paths c false l m = (Ok tt, m') -> forall before x after, l = before ++ x :: after -> ~ In (lk_reference x) (map lk_reference after) ->
  exists m1 g T t p, means_texts c g /\ table_for (map fst g) T /\ named t_name (map fst g) (lk_local x) t /\ path_for T none (replacing m1) t = Ok p /\ mlookup m' (lk_reference x) = Some p /\
    (forall n, ~ In n (map lk_reference before) -> mlookup m1 n = mlookup m n).
Proof.
  induction l as [|y l IH]; intros m m' H before x after E N; [destruct before; discriminate|]. cbn [replace_all_paths] in H.
  destruct (bytes_eqb (lk_local y) []); [discriminate|]. destruct (local_path c false (lk_local y) m) as [p| | |] eqn:L; try discriminate.
  destruct before as [|b before]; injection E as -> ->.
  - destruct (local_path_is _ _ _ _ L) as (g & T & t & A & B & C & D). exists m, g, T, t, p. split; [exact A|]. split; [exact B|]. split; [exact C|]. split; [exact D|]. split; [|reflexivity]. rewrite (replaced_others _ _ _ _ _ _ H _ N). apply mlookup_same.
  - destruct (IH _ _ H before x after eq_refl N) as (m1 & g & T & t & q & A & B & C & D & F & G). exists m1, g, T, t, q. split; [exact A|]. split; [exact B|]. split; [exact C|]. split; [exact D|]. split; [exact F|].
    intros n Hn. cbn in Hn. rewrite G by tauto. apply mlookup_other. tauto.
Qed.
Lemma replaced_path_name c m g T t p name : means_texts c g -> table_for (map fst g) T -> named t_name (map fst g) name t -> path_for T none (replacing m) t = Ok p -> el_name (pa_element p) = name.
Proof.
  intros M TF [_ <-] P. unfold path_for, to_path in P. cbn [ps_deps pstate_init] in P. destruct (build_dependencies _ _ _ _ _) as [[d| | |] s1]; try discriminate.
  destruct (to_element _ _ _ _ t []) as [[[e ext]| | |] s2] eqn:E; try discriminate. cbn in P. injection P as <-. cbn [pa_element].
  unfold path_fuel in E. cbn [to_element] in E. unfold to_element_with, sbind, sret in E. destruct (process_lines _ _ _ _ _ _ _) as [[mm| | |] s3]; try discriminate.
  assert (N : forall a b e, new_element (t_name t) a b = Ok e -> el_name e = t_name t) by (intros a b e0; unfold new_element; repeat destruct (_ =? _); intros K; try discriminate; destruct (t_name t), a, b; try discriminate; injection K as <-; reflexivity).
  destruct (t_not t); [destruct (process_lines _ _ _ _ _ _ _) as [[nn| | |] s4]; try discriminate|]; injection E as E _; apply bind_ok in E; destruct E as (e' & E & [= <- _]); apply (N _ _ _ E).
Qed.

Section Calls.
Variable rules_file tokens_file : bytes -> option bytes.
Variable order : list path -> nat -> list path.
Variable test_order : bytes -> nat -> list path -> nat -> list path.
Variable lex_fuel n : nat.
Notation perform := (perform rules_file tokens_file order test_order lex_fuel (S n)).
Notation after := (after rules_file tokens_file order test_order lex_fuel (S n)).
(* a call is plainly something, seen through an injection that keeps success *)
Lemma perform_plain m c g : call_texts c = Some g -> exists A B (made : res A) (k : A -> _ -> res B) (f : res B -> reply),
  perform m c = (f (fst (plainly made g m k)), snd (plainly made g m k)) /\ (forall o, ok_reply (f o) -> exists y, o = Ok y).
Proof.
  destruct c as [c|t|r|r x|r x|r]; cbn [call_texts]; intros [= <-]; unfold perform; cbv zeta.
  - rewrite app_path_is. unfold call_path. eexists _, _, _, _, APath. split; [reflexivity|]. intros [y| | |] K; try contradiction; eauto.
  - rewrite app_ast_is. unfold call_ast. eexists _, _, _, _, AAst. split; [reflexivity|]. intros [y| | |] K; try contradiction; eauto.
  - unfold app_root. rewrite app_ast_is. unfold call_ast. cbv zeta.
    eexists _, _, _, _, (fun o => ARoot (let* a := o in match a with AMistake x => Ok (Some (RaMistake x)) | ASuccess t => let* x := fst (to_root t []) in Ok (option_map RaRoot x) end)).
    match goal with |- context [plainly ?a ?b ?c ?d] => destruct (plainly a b c d) as [o m'] eqn:E end. rewrite E. cbn [fst snd]. split; [reflexivity|]. intros [y| | |] K; try contradiction; eauto.
  - rewrite app_tests_is. unfold call_tests. eexists _, _, _, _, ATests. split; [reflexivity|]. intros [y| | |] K; try contradiction; eauto.
Qed.
Lemma perform_other m c : call_texts c = None -> snd (perform m c) = m.
Proof. destruct c; try discriminate; reflexivity. Qed.
Lemma references_unusable m c g refs : call_texts c = Some g -> means_references (ct_tokens g) refs -> rf_references refs <> None -> ~ ok_reply (fst (perform m c)).
Proof.
  intros G M N K. destruct (perform_plain m c g G) as (A & B & made & k & f & E & F). rewrite E in K. cbn [fst] in K. apply F in K. destruct K as (y & K). revert K. apply (plainly_refs _ _ _ _ _ _ _ M N).
Qed.
Lemma replacements_unchanged m c : (forall g, call_texts c = Some g -> no_replacements (ct_tokens g)) -> snd (perform m c) = m.
Proof.
  intros H. destruct (call_texts c) as [g|] eqn:G; [|apply perform_other; exact G]. destruct (perform_plain m c g G) as (A & B & made & k & f & E & _). rewrite E. rewrite plainly_none by auto. reflexivity.
Qed.
Lemma after_unchanged l m : (forall c g, In c l -> call_texts c = Some g -> no_replacements (ct_tokens g)) -> after m l = m.
Proof.
  unfold AppSpec.after. revert m. induction l as [|c l IH]; intros m H; [reflexivity|]. cbn [fold_left]. rewrite replacements_unchanged by (intros g; apply H; left; reflexivity). apply IH. intros c' g I. apply H. right. exact I.
Qed.
Lemma other_names m c name : (forall g refs, call_texts c = Some g -> means_references (ct_tokens g) refs -> ~ In name (replaced_names refs)) -> mlookup (snd (perform m c)) name = mlookup m name.
Proof.
  intros H. destruct (call_texts c) as [g|] eqn:G; [|rewrite perform_other by exact G; reflexivity]. destruct (perform_plain m c g G) as (A & B & made & k & f & E & _). rewrite E. apply plainly_others. intros refs. apply H. reflexivity.
Qed.
Lemma replaced_names_exact m c g refs l before x after : call_texts c = Some g -> ok_reply (fst (perform m c)) -> means_references (ct_tokens g) refs -> rf_replacements refs = Some l ->
  l = before ++ x :: after -> ~ In (lk_reference x) (map lk_reference after) ->
  exists m1 d T t p, means_texts g d /\ table_for (map fst d) T /\ named t_name (map fst d) (lk_local x) t /\ path_for T none (replacing m1) t = Ok p /\
    el_name (pa_element p) = lk_local x /\ mlookup (snd (perform m c)) (lk_reference x) = Some p /\
    (forall k, ~ In k (map lk_reference before) -> mlookup m1 k = mlookup m k).
Proof.
  intros G K M R -> N. destruct (perform_plain m c g G) as (A & B & made & k & f & E & F). rewrite E in *. cbn [fst snd] in *. apply F in K. destruct K as (y & K). destruct (plainly made g m k) as [o m'] eqn:P. cbn [fst snd] in *. subst o.
  apply plainly_ok in P. destruct P as (z & refs' & _ & R' & _ & P & _). apply to_references_exact in M. rewrite M in R'. injection R' as <-. rewrite R in P. cbn [links_list] in P.
  destruct (replaced_exact _ _ _ _ P before x after eq_refl N) as (m1 & d & T & t & p & H1 & H2 & H3 & H4 & H5 & H6). exists m1, d, T, t, p. rewrite (replaced_path_name g m1 d T t p _ H1 H2 H3 H4). auto 10.
Qed.
End Calls.

(* ---- AST, Root, Tests ---- *)
Section Lexer.
Variable rules_file tokens_file : bytes -> option bytes.
Variable order : list path -> nat -> list path.
Variable test_order : bytes -> nat -> list path -> nat -> list path.
Variable lex_fuel n : nat.
Notation app_ast := (app_ast rules_file tokens_file order lex_fuel n).
Notation app_root := (app_root rules_file tokens_file order lex_fuel n).
Notation app_tests := (app_tests rules_file tokens_file test_order lex_fuel n).

Lemma root_token_is name c ch l k t : means_grammar c ch l k -> named t_name (map fst l) name t ->
  exists T C, table_for (map fst l) T /\ channels_for k C /\ create_root_token name c ch = Ok (t, T, C).
Proof.
  intros M N. apply create_exact in M. destruct M as (T & C & E & A & B). exists T, C. split; [exact A|]. split; [exact B|]. unfold create_root_token. rewrite E. cbn [bind fst snd]. rewrite (proj2 (proj2 A _ _) N). reflexivity.
Qed.
Lemma root_token_unknown name c ch l k : means_grammar c ch l k -> (forall t, ~ named t_name (map fst l) name t) -> create_root_token name c ch = Err.
Proof.
  intros M N. apply create_exact in M. destruct M as (T & C & E & A & B). unfold create_root_token. rewrite E. cbn [bind fst snd]. unfold table_find. destruct (mlookup (snd T) name) as [t|] eqn:F; [|reflexivity]. exfalso. apply (N t), A. unfold table_find. rewrite F. reflexivity.
Qed.
Lemma no_links_refs text : means_references text no_links -> no_replacements text /\ (exists refs, to_references text = Ok refs /\ has_refs refs = false).
Proof. intros M. apply to_references_exact in M. split; [intros r R; apply to_references_exact in R; rewrite M in R; injection R as <-; reflexivity|]. exists no_links. split; [exact M|reflexivity]. Qed.
Lemma ast_is_the_lexer m r x l k t : means_grammar (mu_container (rt_rest r)) (mu_channels (rt_rest r)) l k -> means_references (ct_tokens (mu_container (rt_rest r))) no_links ->
  named t_name (map fst l) (rt_root r) t ->
  exists T C, table_for (map fst l) T /\ channels_for k C /\ app_ast m r x = (lexer_says T (replacing m) C order lex_fuel t x, m).
Proof.
  intros M R N. destruct (root_token_is _ _ _ _ _ _ M N) as (T & C & A & B & E). exists T, C. split; [exact A|]. split; [exact B|]. rewrite app_ast_is. unfold call_ast. cbv zeta. destruct (no_links_refs _ R) as (NR & refs & Er & Hr).
  rewrite plainly_none by exact NR. rewrite E. cbn [bind]. rewrite Er. cbn [bind]. rewrite Hr. reflexivity.
Qed.
Lemma ast_unknown_root m r x l k : means_grammar (mu_container (rt_rest r)) (mu_channels (rt_rest r)) l k -> (forall t, ~ named t_name (map fst l) (rt_root r) t) -> app_ast m r x = (Err, m).
Proof. intros M N. rewrite app_ast_is. unfold call_ast. cbv zeta. unfold plainly. rewrite (root_token_unknown _ _ _ _ _ M N). reflexivity. Qed.
Lemma ast_answers m r x a m' : app_ast m r x = (Ok a, m') ->
  exists l k T C t refs, means_grammar (mu_container (rt_rest r)) (mu_channels (rt_rest r)) l k /\ table_for (map fst l) T /\ channels_for k C /\ named t_name (map fst l) (rt_root r) t /\
    means_references (ct_tokens (mu_container (rt_rest r))) refs /\ rf_references refs = None /\ lexer_says T (replacing m') C order lex_fuel t x = Ok a.
Proof.
  rewrite app_ast_is. unfold call_ast. cbv zeta. intros H. apply plainly_ok in H. destruct H as ([[t T] C] & refs & E & R & Hr & _ & K). cbn [fst snd] in K. unfold create_root_token in E. apply bind_ok in E. destruct E as (y & E & F). apply bind_ok in F. destruct F as (t' & F & [= -> <- <-]).
  destruct (create_answer _ _ _ E) as (l & k & M & _ & A & B). exists l, k, (fst (fst y)), (snd y), t, refs. apply to_references_exact in R. destruct (refs_some _ _ R) as [R1 _]. split; [exact M|]. split; [exact A|]. split; [exact B|]. split; [apply A; exact F|]. split; [exact R|]. split; [|exact K].
  destruct (rf_references refs) eqn:Q; [|reflexivity]. rewrite R1 in Hr by discriminate. discriminate.
Qed.
Lemma suffix_ignored m r s b : app_ast m r {| tx_content := s; tx_prefix := b; tx_suffix := true |} = app_ast m r {| tx_content := s; tx_prefix := b; tx_suffix := false |}.
Proof. reflexivity. Qed.
Lemma root_of_ast m r x : snd (app_root m r x) = snd (app_ast m r x) /\
  forall y, fst (app_root m r x) = Ok y <->
    (exists e, fst (app_ast m r x) = Ok (AMistake e) /\ y = Some (RaMistake e)) \/
    (exists t o, fst (app_ast m r x) = Ok (ASuccess t) /\ fst (to_root t []) = Ok o /\ y = option_map RaRoot o).
Proof.
  unfold AppModel.app_root. destruct (app_ast m r x) as [[a| | |] m'] eqn:E; cbn [fst snd bind]; (split; [reflexivity|]); intros y.
  2-4: split; [discriminate|intros [(e & K & _)|(t & o & K & _)]; discriminate].
  destruct a as [e|t]; revgoals.
  - split.
    + intros K. apply bind_ok in K. destruct K as (o & K & [= <-]). right. exists t, o. auto.
    + intros [(e & [=] & _)|(t' & o & [= <-] & K & ->)]. rewrite K. reflexivity.
  - split; [intros [= <-]; left; exists e; auto|]. intros [(e' & [= <-] & ->)|(t' & o & [=] & _)]. reflexivity.
Qed.
(* a line of the tests is what AST says of its text *)
Lemma good_nodup T : good_table T -> NoDup (map t_name (table_all T)).
Proof. intros G. apply (good_find T G). Qed.
Lemma tests_of_in (l : declarations) t o : NoDup (map t_name (map fst l)) -> In (t, o) l -> tests_of (map (fun x => (t_name (fst x), snd x)) l) (t_name t) = o.
Proof.
  unfold tests_of. induction l as [|[t' o'] l IH]; cbn [map fst snd find]; intros N I; [destruct I|]. inversion N as [|? ? N1 N2]; subst. destruct I as [[= -> ->]|I].
  - rewrite bytes_eqb_refl. reflexivity.
  - destruct (bytes_eqb (t_name t') (t_name t)) eqn:E; [|apply IH; assumption]. exfalso. apply bytes_eqb_eq in E. apply N1. rewrite E, map_map. apply (in_map (fun x => t_name (fst x)) l (t, o)). exact I.
Qed.
End Lexer.
Lemma F2_in {A B} (R S : A -> B -> Prop) l r : (forall x y, In x l -> R x y -> S x y) -> Forall2 R l r -> Forall2 S l r.
Proof. intros Q F. induction F as [|x s l1 l2 H F IH]; constructor; [apply Q; [left; reflexivity|exact H]|]. apply IH. intros y z Iy. apply Q. right. exact Iy. Qed.
Section Tests.
Variable rules_file tokens_file : bytes -> option bytes.
Variable test_order : bytes -> nat -> list path -> nat -> list path.
Variable lex_fuel n : nat.
Notation app_tests := (app_tests rules_file tokens_file test_order lex_fuel n).
Lemma tested_is (l : declarations) T : table_for (map fst l) T -> good_table T -> tested T (tests_of (map (fun x => (t_name (fst x), snd x)) l)) = with_tests l.
Proof.
  intros [A _] G. assert (N := good_nodup _ G). unfold tested, with_tests. rewrite A in *. clear A G. f_equal.
  assert (K : forall l', incl l' l -> map (fun t => match tests_of (map (fun x => (t_name (fst x), snd x)) l) (t_name t) with Some ts => [(t, ts)] | None => [] end) (map fst l') = map (fun x => match snd x with Some ts => [(fst x, ts)] | None => [] end) l').
  { induction l' as [|[t o] l' IH]; intros I; [reflexivity|]. cbn [map fst snd]. rewrite (tests_of_in l t o N (I _ (or_introl eq_refl))). rewrite IH by (intros z Hz; apply I; right; exact Hz). reflexivity. }
  apply K. intros z Hz. exact Hz.
Qed.
Notation reported := (reported rules_file tokens_file test_order lex_fuel n).
Lemma tests_are_asts m r l k ss : means_grammar (mu_container r) (mu_channels r) l k -> means_references (ct_tokens (mu_container r)) no_links ->
  app_tests m r = (Ok ss, m) <-> Forall2 (reported r m) (with_tests l) ss.
Proof.
  intros M R. assert (M' := M). apply create_exact in M'. destruct M' as (T & C & E & A & B). destruct (no_links_refs _ R) as (NR & refs & Er & Hr). rewrite app_tests_is. unfold call_tests.
  rewrite plainly_none by exact NR. rewrite E. cbn [bind fst snd]. rewrite Er. cbn [bind]. rewrite Hr. destruct (create_good _ _ _ E) as (G & Gc & Gt). cbn [fst snd] in *.
  assert (S := suites_exact T (tests_of (map (fun x => (t_name (fst x), snd x)) l)) C none (replacing m) test_order lex_fuel ss G (fun n ts H => proj1 (Gt n ts H))).
  transitivity (execute_suites T (tests_of (map (fun x => (t_name (fst x), snd x)) l)) C none (replacing m) test_order lex_fuel = Ok ss); [split; [intros [= H]; exact H|intros ->; reflexivity]|].
  rewrite S. rewrite (tested_is l T A G).
  assert (Q : forall x s, In x (with_tests l) -> (reports T C none (replacing m) test_order lex_fuel x s <-> reported r m x s)).
  { intros [t ts] s I. unfold reports, AppSpec.reported. cbn [fst snd].
    assert (In t (map fst l)) as It by (unfold with_tests in I; apply in_concat in I; destruct I as (y & Iy & I); apply in_map_iff in Iy; destruct Iy as ([t' [o|]] & <- & Iy); cbn in I; [destruct I as [[= -> ->]|[]]|destruct I]; apply (in_map fst l (t, Some ts)); exact Iy).
    assert (Z : forall j text, answer T C none (replacing m) test_order lex_fuel t j text = fst (app_ast rules_file tokens_file (test_order (t_name t) j) lex_fuel n m {| rt_root := t_name t; rt_rest := r |} {| tx_content := text; tx_prefix := false; tx_suffix := false |}) /\
       snd (app_ast rules_file tokens_file (test_order (t_name t) j) lex_fuel n m {| rt_root := t_name t; rt_rest := r |} {| tx_content := text; tx_prefix := false; tx_suffix := false |}) = m).
    { intros j text. rewrite app_ast_is. unfold call_ast. cbv zeta. cbn [rt_root rt_rest]. rewrite plainly_none by exact NR. unfold create_root_token. rewrite E. cbn [bind fst snd].
      rewrite (proj2 (proj2 A (t_name t) t) (conj It eq_refl)). cbn [bind]. rewrite Er. cbn [bind]. rewrite Hr. split; [|reflexivity]. reflexivity. }
    split; intros (H1 & H2 & H3); (split; [exact H1|]; split; [exact H2|]); intros j text Hj; destruct (H3 j text Hj) as (ln & a & K1 & K2 & K3 & K4); exists ln, a; (split; [exact K1|]; split; [exact K2|]; split; [|exact K4]); destruct (Z j text) as [Z1 Z2].
    - match goal with |- ?e = _ => rewrite (surjective_pairing e) end. rewrite Z2, <- Z1, K3. reflexivity.
    - rewrite Z1, K3. reflexivity. }
  split; apply F2_in; intros x s I; apply Q; exact I.
Qed.
End Tests.
(* ---- failures ---- *)
Lemma root_token_tame name c ch : create_root_token name c ch <> NoFuel /\ (create_root_token name c ch = Panic -> crashing_texts c).
Proof.
  destruct (create_tame c ch) as [H1 H2]. unfold create_root_token. destruct (create_tokens c ch) as [x| | |]; cbn [bind].
  - unfold table_find. destruct (mlookup _ _); cbn [bind]; split; discriminate.
  - split; discriminate.
  - split; [discriminate|]. intros _. left. apply H2. reflexivity.
  - contradiction.
Qed.
Lemma root_token_good name c ch t T C : create_root_token name c ch = Ok (t, T, C) -> good_table T /\ good_channels C /\ token_ok t = true.
Proof.
  intros E. unfold create_root_token in E. apply bind_ok in E. destruct E as (y & E & F). apply bind_ok in F. destruct F as (t' & F & [= -> <- <-]). destruct (create_good _ _ _ E) as (G & Gc & _). split; [exact G|]. split; [exact Gc|].
  destruct (good_find _ G) as (A & _ & B). apply A in F. rewrite Forall_forall in B. apply B, F.
Qed.
Lemma path_for_tame T rp t : good_table T -> token_ok t = true -> path_for T none rp t <> Panic /\ path_for T none rp t <> NoFuel.
Proof. intros G H. assert (X := path_always_answers T none rp [] t G ltac:(constructor) H). cbv zeta in X. destruct X as [[X|[p X]] _]; unfold path_for; cbn in X; rewrite X; split; discriminate. Qed.
Lemma local_path_tame c b name m : local_path c b name m <> NoFuel /\ (local_path c b name m = Panic -> crashing_texts c).
Proof.
  unfold local_path. destruct (root_token_tame name c []) as [H1 H2]. destruct (create_root_token name c []) as [[[t T] C]| | |] eqn:E; cbn [bind fst snd].
  - destruct b; [split; discriminate|]. destruct (root_token_good _ _ _ _ _ _ E) as (G & _ & Ht). destruct (path_for_tame T (replacing m) t G Ht) as [P1 P2]. unfold path_for in *. split; [exact P2|contradiction].
  - split; discriminate.
  - split; [discriminate|intros _; apply H2; reflexivity].
  - contradiction.
Qed.
Lemma replace_all_tame c b l : forall m, fst (replace_all_paths c b l m) <> NoFuel /\ (fst (replace_all_paths c b l m) = Panic -> crashing_texts c).
Proof.
  induction l as [|x l IH]; intros m; cbn [replace_all_paths]; [split; discriminate|].
  destruct (bytes_eqb (lk_local x) []); [split; discriminate|]. destruct (local_path_tame c b (lk_local x) m) as [H1 H2]. destruct (local_path c b (lk_local x) m) as [p| | |]; cbn [fst]; [apply IH|split; discriminate|split; [discriminate|intros _; apply H2; reflexivity]|contradiction].
Qed.
Lemma plainly_tame A B (made : res A) c m (k : A -> _ -> res B) : made <> NoFuel -> (made = Panic -> crashing_texts c) ->
  (forall x rp, made = Ok x -> k x rp <> Panic) -> (fst (plainly made c m k) = Panic -> crashing_texts c).
Proof.
  intros H1 H2 H3. unfold plainly. destruct made as [x| | |]; cbn [bind fst]; [|discriminate|intros _; apply H2; reflexivity|contradiction].
  destruct (to_references (ct_tokens c)) as [refs| | |] eqn:E; cbn [bind fst]; [|discriminate|intros _; right; exact E|discriminate].
  destruct (replace_all_tame c (has_refs refs) (links_list (rf_replacements refs)) m) as [R1 R2]. destruct (replace_all_paths _ _ _ m) as [[u| | |] m']; cbn [fst] in *; [|discriminate|intros _; apply R2; reflexivity|contradiction].
  destruct (has_refs refs); [discriminate|]. intros K. exfalso. revert K. apply H3. reflexivity.
Qed.
Lemma plainly_ends A B (made : res A) c m (k : A -> _ -> res B) : made <> NoFuel -> (forall x rp, made = Ok x -> k x rp <> NoFuel) -> fst (plainly made c m k) <> NoFuel.
Proof.
  intros H1 H3. unfold plainly. destruct made as [x| | |]; cbn [bind fst]; [|discriminate|discriminate|contradiction].
  assert (RF := proj2 (to_references_panic (ct_tokens c))). destruct (to_references (ct_tokens c)) as [refs| | |] eqn:E; cbn [bind fst]; [|discriminate|discriminate|contradiction].
  destruct (replace_all_tame c (has_refs refs) (links_list (rf_replacements refs)) m) as [R1 R2]. destruct (replace_all_paths _ _ _ m) as [[u| | |] m']; cbn [fst] in *; [|discriminate|discriminate|contradiction].
  destruct (has_refs refs); [discriminate|]. apply H3. reflexivity.
Qed.
Lemma path_tame rf tf n m r : fst (app_path rf tf (S n) m r) <> NoFuel /\ (fst (app_path rf tf (S n) m r) = Panic -> crashing_texts (rt_rest r)).
Proof.
  rewrite app_path_is. unfold call_path. destruct (root_token_tame (rt_root r) (rt_rest r) []) as [H1 H2].
  assert (K : forall x rp, create_root_token (rt_root r) (rt_rest r) [] = Ok x -> fst (to_path (snd (fst x)) none rp pstate_init (fst (fst x))) <> Panic /\ fst (to_path (snd (fst x)) none rp pstate_init (fst (fst x))) <> NoFuel).
  { intros [[t T] C] rp E. destruct (root_token_good _ _ _ _ _ _ E) as (G & _ & Ht). apply (path_for_tame T rp t G Ht). }
  split; [apply plainly_ends; [exact H1|]|apply plainly_tame; [exact H1|exact H2|]]; intros x rp E; apply (K x rp E).
Qed.
