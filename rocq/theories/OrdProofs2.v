From Coq Require Import Strings.String Strings.Byte Sorting.Permutation Lia.
From Verif Require Import Go GoLemmas DomainModel DomainSpec DomainProofs CardModel CardSpec CardProofs PatModel PatSpec PatProofs RuleModel RuleSpec RuleProofs PathModel PathSpec PathProofs LexModel LexSpec LexProofs LexProofs2 LexProofs3 LexProofs4 AstModel RootModel SuiteModel TextModel TextProofs TextProofs2 TextProofs3 TextProofs4 TextProofs5 AppModel AppSpec AppProofs AppProofs2 GramModel OrdSpec OrdProofs.
Open Scope list_scope.

(* ---- the path of a declared channel ---- *)
Lemma channel_path T nf rp st t r p st' : rule_channel t r -> to_path T nf rp st t = (Ok p, st') -> el_name (pa_element p) = t_name t /\ simple_channel p r.
Proof.
  intros (G & Nn & k & Em & Kv) H. unfold to_path in H.
  destruct (match ps_deps st with Some d => (Ok d, ps_stack st) | None => build_dependencies T nf rp (table_all T) (ps_stack st) end) as [[d| | |] s1]; try discriminate.
  unfold path_fuel in H. cbn [to_element] in H. unfold to_element_with in H. rewrite Em, Nn in H.
  cbn [process_lines process_line process_instrs element_to_container te_content] in H. unfold process_line in H. cbn [process_instrs element_to_container te_content] in H. unfold sbind, sret in H. cbn [bind new_line fst snd] in H. unfold new_element in H.
  destruct (t_name t) as [|b n]; cbn [bind] in H; [discriminate|]. injection H as <- _. cbn [pa_element el_name]. split; [reflexivity|].
  split; [exact G|]. split; [discriminate|]. split; [reflexivity|]. eexists. split; [reflexivity|]. exact Kv.
Qed.
Lemma channel_map T nf rp : forall l st m m', channel_paths T nf rp l st m = Ok m' -> (forall t, In t l -> exists r, rule_channel t r) ->
  exists l', m' = l' ++ m /\ map fst l' = rev (map t_name l) /\ Forall (fun e => exists t r, In t l /\ fst e = t_name t /\ rule_channel t r /\ simple_channel (snd e) r /\ el_name (pa_element (snd e)) = t_name t) l'.
Proof.
  induction l as [|t l IH]; intros st m m' H Hl; cbn [channel_paths] in H.
  - injection H as <-. exists []. repeat split. constructor.
  - destruct (to_path T nf rp st t) as [[p| | |] st'] eqn:E; try discriminate. cbn [bind] in H. destruct (Hl t (or_introl eq_refl)) as (r & Hr). destruct (channel_path T nf rp st t r p st' Hr E) as (Hn & Hp).
    destruct (IH _ _ _ H (fun u Hu => Hl u (or_intror Hu))) as (l' & -> & Ek & F). exists (l' ++ [(t_name t, p)]). split; [rewrite <- app_assoc; reflexivity|]. split; [rewrite map_app, Ek; reflexivity|].
    apply Forall_app. split; [apply (Forall_impl _) with (2 := F); intros e (u & r' & Hi & K); exists u, r'; split; [right; exact Hi|exact K]|]. constructor; [|constructor]. exists t, r. cbn [fst snd]. auto 6 using in_eq.
Qed.
Lemma nodup_entry {A B} (m : list (A * B)) k x y : NoDup (map fst m) -> In (k, x) m -> In (k, y) m -> x = y.
Proof.
  induction m as [|[j z] m IH]; intros N Hx Hy; [destruct Hx|]. cbn [map fst] in N. inversion N as [|? ? Nj N']; subst. destruct Hx as [Hx|Hx], Hy as [Hy|Hy].
  - congruence.
  - inversion Hx; subst. destruct Nj. apply (in_map fst) in Hy. exact Hy.
  - inversion Hy; subst. destruct Nj. apply (in_map fst) in Hx. exact Hx.
  - apply IH; assumption.
Qed.
Lemma simple_rule p r r' : simple_channel p r -> simple_channel p r' -> r = r'.
Proof. intros (_ & _ & _ & k & E & _) (_ & _ & _ & k' & E' & _). congruence. Qed.
Lemma channels_ready T nf rp ts st m o o' (Q : Prop) : NoDup (map t_name ts) -> apart ts -> (Q -> only_patterns ts) -> an_order o -> an_order o' -> channel_paths T nf rp ts st [] = Ok m ->
  reordered (o (map snd m)) (o' (map snd m)) /\ (forall p, among (o (map snd m)) p -> exists r, simple_channel p r /\ (Q -> of_patterns r)) /\ never_together (among (o (map snd m))).
Proof.
  intros N (A1 & A2) Hq O O' H. destruct (channel_map _ _ _ _ _ _ _ H A1) as (l' & E & Ek & F). rewrite app_nil_r in E. subst l'. rewrite Forall_forall in F.
  assert (Nk : NoDup (map fst m)) by (rewrite Ek; apply NoDup_rev; exact N).
  assert (Hi : forall p, among (o (map snd m)) p -> exists e, In e m /\ snd e = p).
  { intros p (k & Hp). apply (Permutation_in p (Permutation_sym (O (map snd m) k))) in Hp. apply in_map_iff in Hp. destruct Hp as (e & Ee & He). exists e. auto. }
  split; [intros j k; apply (Permutation_trans (Permutation_sym (O _ j))), O'|]. split.
  - intros p Hp. destruct (Hi p Hp) as (e & He & <-). destruct (F e He) as (t & r & It & _ & Hr & Hs & _). exists r. split; [exact Hs|]. intros K. apply (Hq K t r It Hr).
  - intros p q r r' s Hp Hq' Sp Sq Bp Bq. destruct (Hi p Hp) as (e & He & <-). destruct (Hi q Hq') as (e' & He' & <-).
    destruct (F e He) as (t & r1 & It & Et & Hr & Hs & _). destruct (F e' He') as (u & r2 & Iu & Eu & Hr' & Hs' & _). rewrite (simple_rule _ _ _ Sp Hs) in Bp. rewrite (simple_rule _ _ _ Sq Hs') in Bq.
    assert (t = u) by (apply (A2 t u r1 r2 s); assumption). subst u. destruct e as [a p], e' as [a' p']. cbn [fst snd] in *. subst a a'. apply (nodup_entry m (t_name t)); assumption.
Qed.
Lemma to_ast_order c c' fuel root can script st (Q : Prop) : reordered c c' -> (forall p, among c p -> exists r, simple_channel p r /\ (Q -> of_patterns r)) -> never_together (among c) -> calm Q st ->
  to_ast c fuel root can script st = to_ast c' fuel root can script st.
Proof. intros R S N P. unfold to_ast. rewrite (order_irrelevant Q c c' R S N root fuel script st P). reflexivity. Qed.
Lemma no_channels o o' : an_order o -> an_order o' -> reordered (o []) (o' []) /\ (forall p, among (o []) p -> False).
Proof. intros O O'. split; [intros j k; apply (Permutation_trans (Permutation_sym (O [] j))), O'|]. intros p (k & Hp). apply (Permutation_in p (Permutation_sym (O [] k))) in Hp. destruct Hp. Qed.
Lemma lexer_order T nf rp t ch o o' fuel can text (Q : Prop) : (forall C, ch = Some C -> NoDup (map t_name (table_all C)) /\ apart (table_all C) /\ (Q -> only_patterns (table_all C))) -> an_order o -> an_order o' -> (can = false \/ Q) ->
  (let* lx := new_lexer T nf rp t ch in fst (to_ast (o (map snd (snd lx))) fuel (fst lx) can text (lst_init can))) =
  (let* lx := new_lexer T nf rp t ch in fst (to_ast (o' (map snd (snd lx))) fuel (fst lx) can text (lst_init can))).
Proof.
  intros H O O' K. unfold new_lexer. destruct (to_path T nf rp pstate_init t) as [[p| | |] st]; cbn [bind]; try reflexivity. destruct ch as [C|].
  - destruct (H C eq_refl) as (N & A & Hq). destruct (channel_paths T nf rp (table_all C) st []) as [m| | |] eqn:E; cbn [bind]; try reflexivity. cbn [fst snd].
    destruct (channels_ready _ _ _ _ _ _ _ _ Q N A Hq O O' E) as (R & S & Nt). f_equal. apply (to_ast_order _ _ _ _ _ _ _ Q R S Nt). exact K.
  - cbn [bind fst snd map]. destruct (no_channels o o' O O') as (R & S). f_equal. apply (to_ast_order _ _ _ _ _ _ _ Q R); [intros q Hq; destruct (S q Hq)|intros q q' r r' s Hq; destruct (S q Hq)|exact K].
Qed.
(* ---- the application ---- *)
Definition texts_apart (c : texts) (ch : bytes) (Q : Prop) : Prop := forall l ts, means_grammar c ch l (Some ts) -> apart ts /\ (Q -> only_patterns ts).
Lemma created_apart c ch Q x C : texts_apart c ch Q -> create_tokens c ch = Ok x -> snd x = Some C -> NoDup (map t_name (table_all C)) /\ apart (table_all C) /\ (Q -> only_patterns (table_all C)).
Proof.
  intros H E EC. destruct (create_answer _ _ _ E) as (l & k & M & _ & _ & Ck). rewrite EC in Ck. destruct k as [ts|]; [|destruct Ck]. cbn [channels_for] in Ck. destruct Ck as [Ea _]. destruct (H l ts M) as (H1 & H2). rewrite Ea. split; [|auto].
  unfold create_tokens in E. apply bind_ok in E. destruct E as (tp & _ & E). apply bind_ok in E. destruct E as (tr & _ & E). apply bind_ok in E. destruct E as (t & _ & E). destruct ch as [|b ch]; [injection E as <-; discriminate|].
  apply bind_ok in E. destruct E as (u & Eu & E). injection E as <-. injection EC as <-. unfold to_tokens in Eu. apply bind_ok in Eu. destruct Eu as (l0 & _ & Eu). apply bind_ok in Eu. destruct Eu as (t0 & Et & Eu). injection Eu as <-. cbn [fst] in *.
  apply unique_now_iff in Et. destruct Et as (_ & Nd & Et & _). rewrite <- Ea, Et. exact Nd.
Qed.
Lemma root_token_created root c ch t T C : create_root_token root c ch = Ok (t, T, C) -> exists x, create_tokens c ch = Ok x /\ snd x = C.
Proof. unfold create_root_token. intros H. apply bind_ok in H. destruct H as (x & E & H). apply bind_ok in H. destruct H as (t0 & _ & H). injection H as <- <- <-. eauto. Qed.
Lemma with_functions_same {A B} rf tf path (made : res A) c m (k k' : A -> (bytes -> option (element * list element)) -> (bytes -> option (element * list element)) -> res B) :
  (forall x nf rp, made = Ok x -> k x nf rp = k' x nf rp) -> with_functions rf tf path made c m k = with_functions rf tf path made c m k'.
Proof.
  intros H. unfold with_functions. destruct made as [x| | |]; cbn [bind]; try reflexivity. destruct (to_references (ct_tokens c)) as [refs| | |]; cbn [bind]; try reflexivity.
  destruct (create_functions _ _ _ _ _ _) as [[nf| | |] m']; try reflexivity. rewrite (H x _ _ eq_refl). reflexivity.
Qed.
Section App.
Variables rules_file tokens_file : bytes -> option bytes.
Variables o o' : list path -> nat -> list path.
Variables to to' : bytes -> nat -> list path -> nat -> list path.
Hypothesis O : an_order o.
Hypothesis O' : an_order o'.
Hypothesis TO : forall n j, an_order (to n j).
Hypothesis TO' : forall n j, an_order (to' n j).
Variables lex_fuel n : nat.
Variable Q : Prop.
Lemma app_ast_order m r x : texts_apart (mu_container (rt_rest r)) (mu_channels (rt_rest r)) Q -> (tx_prefix x = false \/ Q) ->
  app_ast rules_file tokens_file o lex_fuel n m r x = app_ast rules_file tokens_file o' lex_fuel n m r x.
Proof.
  intros H K. unfold app_ast. apply with_functions_same. intros [[t T] C] nf rp E. destruct (root_token_created _ _ _ _ _ _ E) as (y & Ey & <-).
  apply (lexer_order T nf rp t (snd y) o o' lex_fuel (tx_prefix x) (tx_content x) Q); auto. intros C EC. apply (created_apart _ _ _ _ _ H Ey EC).
Qed.
Lemma app_root_order m r x : texts_apart (mu_container (rt_rest r)) (mu_channels (rt_rest r)) Q -> (tx_prefix x = false \/ Q) ->
  app_root rules_file tokens_file o lex_fuel n m r x = app_root rules_file tokens_file o' lex_fuel n m r x.
Proof. intros H K. unfold app_root. rewrite (app_ast_order m r x H K). reflexivity. Qed.
Lemma app_tests_order m r : texts_apart (mu_container r) (mu_channels r) Q ->
  app_tests rules_file tokens_file to lex_fuel n m r = app_tests rules_file tokens_file to' lex_fuel n m r.
Proof.
  intros H. unfold app_tests. apply with_functions_same. intros x nf rp E. unfold execute_suites.
  assert (L : forall name j text, to_line (fst (fst x)) (snd x) nf rp to lex_fuel name j text = to_line (fst (fst x)) (snd x) nf rp to' lex_fuel name j text).
  { intros name j text. unfold to_line. destruct (table_find (fst (fst x)) name) as [root| | |]; cbn [bind]; try reflexivity.
    assert (K := lexer_order (fst (fst x)) nf rp root (snd x) (to name j) (to' name j) lex_fuel false text Q (fun C EC => created_apart _ _ _ _ _ H E EC) (TO name j) (TO' name j) (or_introl eq_refl)).
    destruct (new_lexer (fst (fst x)) nf rp root (snd x)) as [lx| | |]; cbn [bind] in *; try reflexivity. rewrite K. reflexivity. }
  assert (Ls : forall name ts j, to_lines (fst (fst x)) (snd x) nf rp to lex_fuel name j ts = to_lines (fst (fst x)) (snd x) nf rp to' lex_fuel name j ts).
  { intros name. induction ts as [|t ts IH]; intros j; [reflexivity|]. cbn [to_lines]. rewrite L, IH. reflexivity. }
  induction (table_all (fst (fst x))) as [|t l IH]; [reflexivity|]. cbn [run_suites]. destruct (tests_of _ _); [|exact IH]. unfold to_suite. rewrite Ls, IH. reflexivity.
Qed.
End App.

(* ---- a check ---- *)
(* the words a rule's text can start with, if that is a matter of words *)
Definition pattern_heads (p : pattern) : option (list bytes) :=
  match p_list p with
  | c :: _ => if ch_reverse c then None else match s_list (ch_serie c) with g :: _ => Some (g_list g) | [] => None end
  | [] => Some []
  end.
Fixpoint all_heads (ps : list pattern) : option (list bytes) :=
  match ps with
  | [] => Some []
  | p :: r => match pattern_heads p, all_heads r with Some a, Some b => Some (a ++ b) | _, _ => None end
  end.
Definition rule_heads (r : rule) : option (list bytes) :=
  match rl_content r with RConstant c => Some [c] | RPattern ps _ => all_heads ps end.
Lemma pattern_heads_ok p ws t : pattern_heads p = Some ws -> matches_here p t -> exists w, In w ws /\ w <> [] /\ is_prefix w t.
Proof.
  intros H (c & cs & x & rest & El & Hr). unfold pattern_heads in H. rewrite El in H. destruct Hr as [s t ws0 rest Hr|s g gs t w rest Es Hk Nw]; cbn [ch_reverse ch_serie] in H; [|discriminate].
  destruct (s_list s) as [|g gs]; [discriminate|]. injection H as <-. inversion Hr as [|g0 gs0 w t' ws1 rest0 Hw Hr']; subst. exists w. destruct Hw as (N & I & P & _). auto.
Qed.
Lemma all_heads_ok ps : forall ws t p, all_heads ps = Some ws -> In p ps -> matches_here p t -> exists w, In w ws /\ w <> [] /\ is_prefix w t.
Proof.
  induction ps as [|q ps IH]; intros ws t p H Hi M; [destruct Hi|]. cbn [all_heads] in H. destruct (pattern_heads q) as [a|] eqn:Ea; [|discriminate]. destruct (all_heads ps) as [b|] eqn:Eb; [|discriminate]. injection H as <-.
  destruct Hi as [->|Hi].
  - destruct (pattern_heads_ok _ _ _ Ea M) as (w & Hw & K). exists w. split; [apply in_or_app; left; exact Hw|exact K].
  - destruct (IH b t p eq_refl Hi M) as (w & Hw & K). exists w. split; [apply in_or_app; right; exact Hw|exact K].
Qed.
Lemma rule_heads_ok r ws t : rule_heads r = Some ws -> begins r t -> exists w, In w ws /\ w <> [] /\ is_prefix w t.
Proof.
  unfold rule_heads, begins. destruct (rl_content r) as [c|ps k]; intros H B.
  - injection H as <-. exists c. destruct B. split; [left; reflexivity|auto].
  - destruct B as (p & Hp & M). apply (all_heads_ok _ _ _ _ H Hp M).
Qed.
Definition words_apart (a b : list bytes) : bool := forallb (fun w => forallb (fun v => negb (has_prefix w v || has_prefix v w)) b) a.
Lemma words_apart_ok a b w v t : words_apart a b = true -> In w a -> In v b -> is_prefix w t -> is_prefix v t -> False.
Proof.
  intros H Hw Hv Pw Pv. unfold words_apart in H. rewrite forallb_forall in H. specialize (H w Hw). rewrite forallb_forall in H. specialize (H v Hv). apply negb_true_iff, orb_false_iff in H. destruct H as [H1 H2].
  destruct Pw as [x Ex], Pv as [y Ey]. rewrite Ex in Ey. assert (D : length w <= length v \/ length v <= length w) by lia. destruct D as [D|D].
  - assert (P : is_prefix w v). { exists (firstn (length v - length w) x). apply (f_equal (firstn (length v))) in Ey. rewrite firstn_app, (firstn_app _ v), firstn_all, Nat.sub_diag in Ey. cbn in Ey. rewrite app_nil_r in Ey. rewrite (firstn_all2 w) in Ey by lia. symmetry. exact Ey. }
    apply has_prefix_is_prefix in P. congruence.
  - assert (P : is_prefix v w). { exists (firstn (length w - length v) y). apply (f_equal (firstn (length w))) in Ey. rewrite firstn_app, (firstn_app _ v), firstn_all, Nat.sub_diag in Ey. cbn in Ey. rewrite app_nil_r in Ey. rewrite (firstn_all2 v) in Ey by lia. exact Ey. }
    apply has_prefix_is_prefix in P. congruence.
Qed.
(* one channel against the later ones *)
Definition channel_rule (t : token) : option rule :=
  match t_not t, t_must t with
  | None, [[TElem e]] => match te_content e with TRule r => if is_valid (eff_card e) 0 then None else Some r | TRef _ => None end
  | _, _ => None
  end.
Definition max_fits (r : rule) : bool := match rl_content r with RPattern _ c => match snd (delimiter c) with Some m => (m <? 2 ^ 64)%N | None => true end | RConstant _ => true end.
Definition channel_heads (t : token) : option (list bytes) :=
  match channel_rule t with Some r => if rule_ok r && max_fits r then rule_heads r else None | None => None end.
Fixpoint apart_check (ts : list token) : bool :=
  match ts with
  | [] => true
  | t :: r =>
    match channel_heads t with
    | Some a => forallb (fun u => match channel_heads u with Some b => words_apart a b && words_apart b a | None => false end) r && apart_check r
    | None => false
    end
  end.
Lemma channel_rule_ok t r : rule_channel t r -> channel_rule t = Some r.
Proof. intros (_ & Nn & k & Em & Kv). unfold channel_rule. rewrite Nn, Em. cbn [te_content]. unfold eff_card. cbn [te_card]. rewrite Kv. reflexivity. Qed.
Lemma channel_heads_ok t a : channel_heads t = Some a -> exists r, rule_channel t r /\ rule_heads r = Some a.
Proof.
  unfold channel_heads. destruct (channel_rule t) as [r|] eqn:E; [|discriminate]. destruct (rule_ok r && max_fits r) eqn:K; [|discriminate]. intros H. exists r. split; [|exact H]. apply andb_prop in K. destruct K as [K1 K2].
  unfold channel_rule in E. destruct (t_not t) eqn:En; [discriminate|]. destruct (t_must t) as [|[|[|e] [|]] [|]] eqn:Em; try discriminate. destruct e as [ct k]. cbn [te_content] in E. destruct ct as [|r0]; [discriminate|]. destruct (is_valid _ 0) eqn:Kv; [discriminate|]. injection E as ->.
  split; [split; [exact K1|]|split; [exact En|exists k; split; [exact Em|exact Kv]]]. unfold max_fits in K2. destruct (rl_content r); [exact I|]. intros m Ek. rewrite Ek in K2. apply N.ltb_lt. exact K2.
Qed.
Lemma apart_check_ok ts : apart_check ts = true -> apart ts.
Proof.
  intros H. assert (S : forall t, In t ts -> exists a, channel_heads t = Some a).
  { induction ts as [|t ts IH]; intros u Hu; [destruct Hu|]. cbn [apart_check] in H. destruct (channel_heads t) as [a|] eqn:E; [|discriminate]. apply andb_prop in H. destruct Hu as [<-|Hu]; [eauto|apply IH; [apply H|exact Hu]]. }
  split; [intros t Ht; destruct (S t Ht) as (a & Ea); destruct (channel_heads_ok _ _ Ea) as (r & K & _); eauto|].
  intros t u r r' s Ht Hu Rt Ru Bt Bu. destruct (S t Ht) as (a & Ea). destruct (S u Hu) as (b & Eb).
  destruct (channel_heads_ok _ _ Ea) as (r1 & K1 & H1). destruct (channel_heads_ok _ _ Eb) as (r2 & K2 & H2). apply channel_rule_ok in K1, K2, Rt, Ru. assert (r1 = r) by congruence. assert (r2 = r') by congruence. subst.
  destruct (rule_heads_ok _ _ _ H1 Bt) as (w & Iw & _ & Pw). destruct (rule_heads_ok _ _ _ H2 Bu) as (v & Iv & _ & Pv). clear S.
  induction ts as [|t0 ts IH]; [destruct Ht|]. cbn [apart_check] in H. destruct (channel_heads t0) as [c|] eqn:Ec; [|discriminate]. apply andb_prop in H. destruct H as [H H']. rewrite forallb_forall in H. destruct Ht as [->|Ht], Hu as [->|Hu].
  - reflexivity.
  - exfalso. specialize (H u Hu). rewrite Eb in H. rewrite Ea in Ec. injection Ec as <-. apply andb_prop in H. apply (words_apart_ok a b w v s); tauto.
  - exfalso. specialize (H t Ht). rewrite Ea in H. rewrite Eb in Ec. injection Ec as <-. apply andb_prop in H. apply (words_apart_ok b a v w s); tauto.
  - apply IH; assumption.
Qed.
Definition patterns_check (ts : list token) : bool := forallb (fun t => match channel_rule t with Some r => match rl_content r with RPattern _ _ => true | RConstant _ => false end | None => true end) ts.
Lemma patterns_check_ok ts : patterns_check ts = true -> only_patterns ts.
Proof. intros H t r Ht Hr. unfold patterns_check in H. rewrite forallb_forall in H. specialize (H t Ht). rewrite (channel_rule_ok t r Hr) in H. unfold of_patterns. destruct (rl_content r); [discriminate|eauto]. Qed.
Definition shipped_tokens (text : bytes) : res (table token * list (bytes * option (list bytes))) :=
  let* ps := to_patterns base_patterns in let* rs := to_rules base_rules (Some ps) in to_tokens rs text.
Lemma shipped_check : match shipped_tokens base_channels with Ok u => apart_check (table_all (fst u)) && patterns_check (table_all (fst u)) | _ => false end = true.
Proof. vm_compute. reflexivity. Qed.
Lemma shipped_apart m : shipped_channels m -> texts_apart (mu_container m) (mu_channels m) True.
Proof.
  intros (Ep & Er & Ec) l ts M. apply create_exact in M. destruct M as (T & C & E & _ & K). destruct C as [C|]; [|destruct K]. destruct K as [K _]. unfold create_tokens in E. rewrite Ep, Er, Ec in E.
  assert (S := shipped_check). unfold shipped_tokens in S. revert E S. generalize (to_patterns base_patterns) as a. intros [ps| | |]; cbn [bind]; [|intros E; discriminate E..].
  generalize (to_rules base_rules (Some ps)) as a. intros [rs| | |]; cbn [bind]; [|intros E; discriminate E..]. generalize (to_tokens rs (ct_tokens (mu_container m))) as a. intros [tk| | |]; cbn [bind]; [|intros E; discriminate E..].
  generalize base_channels as ch. intros [|b ch] E; [discriminate E|]. revert E. generalize (to_tokens rs (b :: ch)) as a. intros [u| | |]; cbn [bind]; [|intros E; discriminate E..]. intros E S. injection E as _ <-. rewrite K in S. apply andb_prop in S.
  split; [apply apart_check_ok, S|intros _; apply patterns_check_ok, S].
Qed.
