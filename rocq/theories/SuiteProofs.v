(* SuiteProofs.v - proofs about lexers made from tables and test suites. *)
From Coq Require Import Strings.String Strings.Byte Sorting.Permutation Lia.
From Verif Require Import Go GoLemmas DomainModel CardModel PatModel RuleModel RuleProofs PathModel PathSpec PathProofs LexModel LexSpec AstModel AstSpec AstProofs3 SuiteModel SuiteSpec.
Open Scope list_scope.

(* ---- the lexer of a token ---- *)
Lemma after_snoc T nf rp ts t : after_calls T nf rp (ts ++ [t]) = snd (to_path T nf rp (after_calls T nf rp ts) t).
Proof. unfold after_calls. rewrite fold_left_app. reflexivity. Qed.

Lemma channel_paths_spec T nf rp : good_table T -> forall l ts m, Forall (fun t => token_ok t = true) ts -> Forall (fun t => token_ok t = true) l ->
  (forall m', channel_paths T nf rp l (after_calls T nf rp ts) m = Ok m' <->
    exists ps, Forall2 (fun t p => path_for T nf rp t = Ok p) l ps /\ m' = rev (combine (map t_name l) ps) ++ m) /\
  (channel_paths T nf rp l (after_calls T nf rp ts) m = Err \/ exists m', channel_paths T nf rp l (after_calls T nf rp ts) m = Ok m').
Proof.
  intros G. induction l as [|t l IH]; intros ts m Ft Fl.
  - cbn. split; [|eauto]. intros m'. split; [intros [= <-]; exists []; split; [constructor|reflexivity]|intros (ps & F & ->); inversion F; reflexivity].
  - inversion Fl as [|? ? Ht Fl']; subst. cbn [channel_paths].
    assert (Hi := path_history_independent T nf rp ts t G Ft Ht). assert (Ha := path_always_answers T nf rp ts t G Ft Ht). cbv zeta in Ha. destruct Ha as [Ha _].
    assert (Hs := after_snoc T nf rp ts t). destruct (to_path T nf rp (after_calls T nf rp ts) t) as [o st'] eqn:E. cbn [fst snd] in *. subst st'.
    destruct Ha as [->|[p ->]]; cbn [bind].
    + split; [|auto]. intros m'. split; [discriminate|]. intros (ps & F & _). inversion F; subst. unfold path_for in *. congruence.
    + destruct (IH (ts ++ [t]) (minsert m (t_name t) p) ltac:(apply Forall_app; auto) Fl') as [I1 I2]. split; [|exact I2]. intros m'. rewrite I1. split.
      * intros (ps & F & ->). exists (p :: ps). split; [constructor; [symmetry; exact Hi|exact F]|]. cbn. rewrite <- app_assoc. reflexivity.
      * intros (ps & F & ->). inversion F as [|? p' ? ps' E1 F']; subst. unfold path_for in E1. rewrite <- Hi in E1. injection E1 as <-. exists ps'. split; [exact F'|]. cbn. rewrite <- app_assoc. reflexivity.
Qed.
Lemma good_all_ok T : good_table T -> Forall (fun t => token_ok t = true) (table_all T).
Proof. intros G. apply (good_find T G). Qed.
Lemma good_channels_ok c : good_channels c -> Forall (fun t => token_ok t = true) (channel_list c).
Proof. intros G. destruct c as [t|]; cbn; [apply good_all_ok, G; reflexivity|constructor]. Qed.

Lemma new_lexer_spec T nf rp root channels : good_table T -> good_channels channels -> token_ok root = true ->
  (forall p m, new_lexer T nf rp root channels = Ok (p, m) <->
    path_for T nf rp root = Ok p /\ exists ps, Forall2 (fun t q => path_for T nf rp t = Ok q) (channel_list channels) ps /\ m = rev (combine (map t_name (channel_list channels)) ps)) /\
  (new_lexer T nf rp root channels = Err \/ exists x, new_lexer T nf rp root channels = Ok x).
Proof.
  intros G Gc Hr. unfold new_lexer. assert (Hi := path_always_answers T nf rp [] root G ltac:(constructor) Hr). cbv zeta in Hi. destruct Hi as [Hi _].
  assert (Hs := after_snoc T nf rp [] root). unfold path_for. change (after_calls T nf rp []) with pstate_init in Hi, Hs. cbn [app] in Hs.
  destruct (to_path T nf rp pstate_init root) as [o st] eqn:E. cbn [fst snd] in *. subst st.
  destruct Hi as [->|[p ->]]; cbn [bind].
  - split; [|auto]. intros p m. split; [discriminate|intros [X _]; discriminate].
  - assert (Fc := good_channels_ok channels Gc). destruct channels as [c|]; cbn [channel_list] in *.
    + destruct (channel_paths_spec T nf rp G (table_all c) [root] [] ltac:(repeat constructor; exact Hr) Fc) as [I1 I2]. split.
      * intros p' m. destruct (channel_paths T nf rp (table_all c) (after_calls T nf rp [root]) []) as [m0| | |] eqn:Em; cbn [bind].
        -- split.
           ++ intros [= <- <-]. split; [reflexivity|]. destruct (proj1 (I1 m0) eq_refl) as (ps & F & ->). exists ps. split; [exact F|apply app_nil_r].
           ++ intros ([= <-] & ps & F & ->). assert (X : Ok m0 = Ok (rev (combine (map t_name (table_all c)) ps) ++ [])) by (apply I1; exists ps; auto). rewrite app_nil_r in X. congruence.
        -- split; [discriminate|]. intros (_ & ps & F & ->). assert (X : Err = Ok (rev (combine (map t_name (table_all c)) ps) ++ [])) by (apply I1; exists ps; auto). discriminate.
        -- destruct I2 as [X|[? X]]; discriminate.
        -- destruct I2 as [X|[? X]]; discriminate.
      * destruct I2 as [->|[m' ->]]; cbn [bind]; eauto.
    + split; [|eauto]. intros p' m. split; [intros [= <- <-]; split; [reflexivity|exists []; split; [constructor|reflexivity]]|].
      intros ([= <-] & ps & F & ->). inversion F; subst. reflexivity.
Qed.

Lemma combine_lookup {A B} (f : A -> bytes) (R : A -> B -> Prop) l ps : NoDup (map f l) -> Forall2 R l ps ->
  forall k v, mlookup (rev (combine (map f l) ps)) k = Some v <-> exists x, In x l /\ f x = k /\ exists i, nth_error l i = Some x /\ nth_error ps i = Some v.
Proof.
  intros N F.
  assert (L : forall (m1 m2 : gmap B) k, mlookup (m1 ++ m2) k = match mlookup m1 k with Some v => Some v | None => mlookup m2 k end).
  { induction m1 as [|[k' v'] m1 IH]; intros m2 k; cbn; [reflexivity|]. destruct (bytes_eqb k' k); auto. }
  revert N. induction F as [|a b l ps H F IH]; intros N k v; cbn [map combine rev].
  - cbn. split; [discriminate|intros (x & [] & _)].
  - cbn [map] in N. inversion N as [|? ? Na N']; subst. rewrite L. specialize (IH N'). cbn [mlookup].
    destruct (mlookup (rev (combine (map f l) ps)) k) as [w|] eqn:E.
    + assert (Hw : exists x, In x l /\ f x = k /\ exists i, nth_error l i = Some x /\ nth_error ps i = Some w) by (apply IH; exact E).
      split.
      * intros [= <-]. destruct Hw as (x & I & K & i & X1 & X2). exists x. split; [right; exact I|]. split; [exact K|]. exists (S i). auto.
      * intros (x & I & K & [|i] & X1 & X2); cbn in X1, X2.
        -- exfalso. injection X1 as <-. destruct Hw as (y & Iy & Ky & _). apply Na. rewrite K, <- Ky. apply in_map. exact Iy.
        -- rewrite <- E. apply IH. exists x. split; [eapply nth_error_In; eauto|]. split; [exact K|]. eauto.
    + destruct (bytes_eqb (f a) k) eqn:Bk.
      * apply bytes_eqb_eq in Bk. split.
        -- intros [= <-]. exists a. split; [left; reflexivity|]. split; [exact Bk|]. exists 0. auto.
        -- intros (x & I & K & [|i] & X1 & X2); cbn in X1, X2; [congruence|]. exfalso. apply Na. rewrite Bk, <- K. apply in_map. eapply nth_error_In; eauto.
      * split; [discriminate|]. intros (x & I & K & [|i] & X1 & X2); cbn in X1, X2.
        -- injection X1 as <-. rewrite K, bytes_eqb_refl in Bk. discriminate.
        -- assert (X : None = Some v) by (rewrite <- E; apply IH; exists x; split; [eapply nth_error_In; eauto|]; eauto). discriminate.
Qed.

Lemma forall2_nth {A B} (R : A -> B -> Prop) l m : Forall2 R l m -> forall i x y, nth_error l i = Some x -> nth_error m i = Some y -> R x y.
Proof. intros F. induction F; intros [|i] a b E1 E2; cbn in *; try discriminate; [congruence|eauto]. Qed.
Lemma forall2_in {A B} (R : A -> B -> Prop) l m : Forall2 R l m -> forall x, In x l -> exists i y, nth_error l i = Some x /\ nth_error m i = Some y /\ R x y.
Proof. intros F. induction F as [|a b l m H F IH]; intros x []; [subst; exists 0, b; auto|]. destruct (IH x H0) as (i & y & E1 & E2 & E3). exists (S i), y. auto. Qed.
Lemma forall2_ex {A B} (R : A -> B -> Prop) l : (forall x, In x l -> exists y, R x y) -> exists m, Forall2 R l m.
Proof. induction l as [|x l IH]; intros H; [exists []; constructor|]. destruct (H x (or_introl eq_refl)) as [y Hy]. destruct IH as [m F]; [intros z I; apply H; right; exact I|]. exists (y :: m). constructor; auto. Qed.

Lemma lexer_exact T nf rp root channels : good_table T -> good_channels channels -> token_ok root = true ->
  (new_lexer T nf rp root channels = Err \/ exists x, new_lexer T nf rp root channels = Ok x) /\
  (new_lexer T nf rp root channels = Err <-> path_for T nf rp root = Err \/ exists t, In t (channel_list channels) /\ path_for T nf rp t = Err).
Proof.
  intros G Gc Hr. destruct (new_lexer_spec T nf rp root channels G Gc Hr) as [S A]. split; [exact A|].
  assert (P : forall t, token_ok t = true -> path_for T nf rp t = Err \/ exists p, path_for T nf rp t = Ok p).
  { intros t Ht. assert (X := path_always_answers T nf rp [] t G ltac:(constructor) Ht). cbv zeta in X. apply X. }
  assert (Fc := good_channels_ok channels Gc). rewrite Forall_forall in Fc. split.
  - intros E. destruct (P root Hr) as [X|[p X]]; [left; exact X|right].
    assert (D : forall l, (forall t, In t l -> token_ok t = true) -> (exists t, In t l /\ path_for T nf rp t = Err) \/ forall t, In t l -> exists q, path_for T nf rp t = Ok q).
    { induction l as [|t l IH]; intros H; [right; intros t []|]. destruct (P t (H t (or_introl eq_refl))) as [Y|Y]; [left; exists t; split; [left|]; auto|].
      destruct IH as [(u & I & Z)|Z]; [intros u I; apply H; right; exact I|left; exists u; split; [right|]; auto|right; intros u [<-|I]; auto]. }
    destruct (D _ Fc) as [Y|Y]; [exact Y|]. exfalso. destruct (forall2_ex _ _ Y) as [ps F]. assert (Z := proj2 (S p _) (conj X (ex_intro _ ps (conj F eq_refl)))). congruence.
  - intros H. destruct A as [E|[[p m] E]]; [exact E|]. exfalso. assert (E' := E). apply S in E. destruct E as (E1 & ps & F & _). destruct H as [H|(t & I & H)]; [congruence|]. destruct (forall2_in _ _ _ F t I) as (i & y & _ & _ & X). congruence.
Qed.
Lemma lexer_contents T nf rp root channels p m : good_table T -> good_channels channels -> token_ok root = true -> new_lexer T nf rp root channels = Ok (p, m) ->
  path_for T nf rp root = Ok p /\
  (forall k q, mlookup m k = Some q <-> exists t, In t (channel_list channels) /\ t_name t = k /\ path_for T nf rp t = Ok q) /\
  exists qs, Forall2 (fun t q => path_for T nf rp t = Ok q) (channel_list channels) qs /\ Permutation (map snd m) qs.
Proof.
  intros G Gc Hr E. apply (new_lexer_spec T nf rp root channels G Gc Hr) in E. destruct E as (E & ps & F & ->). split; [exact E|].
  assert (N : NoDup (map t_name (channel_list channels))). { destruct channels as [c|]; cbn; [apply (good_find c (Gc c eq_refl))|constructor]. }
  split.
  - intros k q. rewrite (combine_lookup t_name _ _ _ N F). split.
    + intros (t & I & K & i & X1 & X2). exists t. split; [exact I|]. split; [exact K|]. exact (forall2_nth _ _ _ F i t q X1 X2).
    + intros (t & I & K & X). exists t. split; [exact I|]. split; [exact K|]. destruct (forall2_in _ _ _ F t I) as (i & y & Y1 & Y2 & Y3). exists i. split; [exact Y1|]. congruence.
  - exists ps. split; [exact F|]. assert (X : map snd (combine (map t_name (channel_list channels)) ps) = ps).
    { clear - F. induction F; cbn; congruence. }
    rewrite <- X at 2. apply Permutation_map, Permutation_sym, Permutation_rev.
Qed.

(* ---- the test suites ---- *)
Section Run.
Variable T : table token.
Variable tests : bytes -> option (list bytes).
Variable channels : option (table token).
Variable nf rp : bytes -> option (element * list element).
Variable order : bytes -> nat -> list path -> nat -> list path.
Variable fuel : nat.
Notation answer := (answer T channels nf rp order fuel).
Notation reports := (reports T channels nf rp order fuel).
Definition verdict (a : ast) : bool := match a with ASuccess _ => true | AMistake _ => false end.

Lemma to_line_answer t j text : good_table T -> In t (table_all T) ->
  to_line T channels nf rp order fuel (t_name t) j text = let* a := answer t j text in Ok {| sl_index := j; sl_success := verdict a |}.
Proof.
  intros G I. destruct (good_find T G) as (Hf & _). unfold to_line, SuiteSpec.answer. rewrite (proj2 (Hf (t_name t) t) (conj I eq_refl)). cbn [bind].
  destruct (new_lexer T nf rp t channels) as [[p m]| | |]; reflexivity.
Qed.
Definition good_lines t k texts lines := length lines = length texts /\
  forall j text, nth_error texts j = Some text -> exists ln a, nth_error lines j = Some ln /\ sl_index ln = k + j /\ answer t (k + j) text = Ok a /\ (sl_success ln = true <-> exists tree, a = ASuccess tree).
Definition line_jobs (t : token) (k : nat) (texts : list bytes) := combine (combine (repeat t (length texts)) (seq k (length texts))) texts.
(* a failure of one of the jobs, all before answer *)
Definition first_failure {A} (js : list (token * nat * bytes)) (r : res A) : Prop :=
  exists before t j text after, js = before ++ (t, j, text) :: after /\
    (forall t' j' text', In (t', j', text') before -> exists a, answer t' j' text' = Ok a) /\ fails_as (answer t j text) r.
Lemma verdict_iff a : verdict a = true <-> exists tree, a = ASuccess tree.
Proof. destruct a; cbn; split; try discriminate; eauto. intros [? X]; discriminate. Qed.

Lemma to_lines_spec t texts : good_table T -> In t (table_all T) -> forall k,
  match to_lines T channels nf rp order fuel (t_name t) k texts with
  | Ok lines => good_lines t k texts lines /\ (forall t' j' text', In (t', j', text') (line_jobs t k texts) -> exists a, answer t' j' text' = Ok a)
  | r => first_failure (line_jobs t k texts) r
  end.
Proof.
  intros G I. induction texts as [|x texts IH]; intros k; cbn [to_lines].
  - split; [split; [reflexivity|intros [|j] text E; discriminate]|]. intros ? ? ? [].
  - rewrite (to_line_answer t k x G I). unfold line_jobs. cbn [length repeat seq combine]. fold (line_jobs t (S k) texts).
    destruct (answer t k x) as [a| | |] eqn:Ea; cbn [bind].
    2,3,4: exists [], t, k, x, (line_jobs t (S k) texts); split; [reflexivity|]; split; [intros ? ? ? []|rewrite Ea; constructor].
    specialize (IH (S k)). destruct (to_lines T channels nf rp order fuel (t_name t) (S k) texts) as [ls| | |]; cbn [bind].
    + destruct IH as [[L H] H2]. split.
      * split; [cbn; congruence|]. intros [|j] text E; cbn in E.
        -- injection E as <-. exists {| sl_index := k; sl_success := verdict a |}, a. rewrite Nat.add_0_r. repeat split; try assumption; cbn; apply verdict_iff.
        -- destruct (H j text E) as (ln & b & X1 & X2 & X3). exists ln, b. rewrite Nat.add_succ_r. auto.
      * intros t' j' text' [[= <- <- <-]|J]; [eauto|eapply H2; exact J].
    + destruct IH as (b & t0 & j0 & x0 & af & -> & B & F). exists ((t, k, x) :: b), t0, j0, x0, af. split; [reflexivity|]. split; [intros ? ? ? [[= <- <- <-]|J]; eauto|exact F].
    + destruct IH as (b & t0 & j0 & x0 & af & -> & B & F). exists ((t, k, x) :: b), t0, j0, x0, af. split; [reflexivity|]. split; [intros ? ? ? [[= <- <- <-]|J]; eauto|exact F].
    + destruct IH as (b & t0 & j0 & x0 & af & -> & B & F). exists ((t, k, x) :: b), t0, j0, x0, af. split; [reflexivity|]. split; [intros ? ? ? [[= <- <- <-]|J]; eauto|exact F].
Qed.
Definition tested_of (l : list token) := concat (map (fun t => match tests (t_name t) with Some l => [(t, l)] | None => [] end) l).
Definition jobs_of (l : list token) : list (token * nat * bytes) := concat (map (fun x => line_jobs (fst x) 0 (snd x)) (tested_of l)).

Lemma run_suites_spec l : good_table T -> (forall n ts, tests n = Some ts -> ts <> []) -> incl l (table_all T) ->
  match run_suites T tests channels nf rp order fuel l with
  | Ok ss => Forall2 reports (tested_of l) ss /\ (forall t' j' text', In (t', j', text') (jobs_of l) -> exists a, answer t' j' text' = Ok a)
  | r => first_failure (jobs_of l) r
  end.
Proof.
  intros G Hne. induction l as [|t l IH]; intros Il; cbn [run_suites].
  - split; [constructor|intros ? ? ? []].
  - assert (It : In t (table_all T)) by (apply Il; left; reflexivity). specialize (IH ltac:(intros x I; apply Il; right; exact I)).
    unfold jobs_of, tested_of. cbn [map concat]. destruct (tests (t_name t)) as [texts|] eqn:Et; [|exact IH].
    cbn [app map concat fst snd]. fold (tested_of l). fold (jobs_of l).
    assert (Ht : t_name t <> []). { destruct (good_find T G) as (_ & _ & F). rewrite Forall_forall in F. specialize (F t It). unfold token_ok in F. destruct (t_name t); [discriminate|discriminate]. }
    assert (L := to_lines_spec t texts G It 0). unfold to_suite.
    destruct (to_lines T channels nf rp order fuel (t_name t) 0 texts) as [ls| | |] eqn:El; cbn [bind].
    + destruct L as [[L1 L2] L3]. assert (Hls : ls <> []) by (intros ->; apply (Hne _ _ Et); destruct texts; [reflexivity|discriminate]).
      assert (Eq : match t_name t with [] => Err | _ :: _ => match ls with [] => Err | _ :: _ => Ok {| su_name := t_name t; su_lines := ls |} end end = Ok {| su_name := t_name t; su_lines := ls |}).
      { destruct (t_name t); [contradiction|]. destruct ls; [contradiction|reflexivity]. }
      change (t_name t) with (t_name t) in Eq. rewrite Eq. cbn [bind].
      destruct (run_suites T tests channels nf rp order fuel l) as [ss| | |]; cbn [bind].
      * destruct IH as [I1 I2]. split.
        -- constructor; [|exact I1]. split; [reflexivity|]. split; [exact L1|]. intros j text E. apply (L2 j text E).
        -- intros t' j' text' J. apply in_app_or in J. destruct J as [J|J]; [eapply L3; exact J|eapply I2; exact J].
      * destruct IH as (b & t0 & j0 & x0 & af & -> & B & F). exists (line_jobs t 0 texts ++ b), t0, j0, x0, af. split; [rewrite <- app_assoc; reflexivity|]. split; [|exact F]. intros t' j' x' J. apply in_app_or in J. destruct J; [eapply L3|eapply B]; eassumption.
      * destruct IH as (b & t0 & j0 & x0 & af & -> & B & F). exists (line_jobs t 0 texts ++ b), t0, j0, x0, af. split; [rewrite <- app_assoc; reflexivity|]. split; [|exact F]. intros t' j' x' J. apply in_app_or in J. destruct J; [eapply L3|eapply B]; eassumption.
      * destruct IH as (b & t0 & j0 & x0 & af & -> & B & F). exists (line_jobs t 0 texts ++ b), t0, j0, x0, af. split; [rewrite <- app_assoc; reflexivity|]. split; [|exact F]. intros t' j' x' J. apply in_app_or in J. destruct J; [eapply L3|eapply B]; eassumption.
    + destruct L as (b & t0 & j0 & x0 & af & -> & B & F). exists b, t0, j0, x0, (af ++ jobs_of l). split; [rewrite <- app_assoc; reflexivity|]. split; [exact B|]. inversion F; constructor.
    + destruct L as (b & t0 & j0 & x0 & af & -> & B & F). exists b, t0, j0, x0, (af ++ jobs_of l). split; [rewrite <- app_assoc; reflexivity|]. split; [exact B|]. inversion F; constructor.
    + destruct L as (b & t0 & j0 & x0 & af & -> & B & F). exists b, t0, j0, x0, (af ++ jobs_of l). split; [rewrite <- app_assoc; reflexivity|]. split; [exact B|]. inversion F; constructor.
Qed.
End Run.

Lemma line_jobs_in t k texts j text : nth_error texts j = Some text -> In (t, k + j, text) (line_jobs t k texts).
Proof.
  revert k j. induction texts as [|x texts IH]; intros k [|j] E; cbn in E; try discriminate.
  - injection E as <-. rewrite Nat.add_0_r. left. reflexivity.
  - right. replace (k + S j) with (S k + j) by lia. apply IH. exact E.
Qed.
Lemma line_jobs_from t k texts t' j' text' : In (t', j', text') (line_jobs t k texts) -> t' = t /\ exists j, j' = k + j /\ nth_error texts j = Some text'.
Proof.
  revert k. induction texts as [|x texts IH]; intros k I; [destruct I|]. destruct I as [[= <- <- <-]|I].
  - split; [reflexivity|]. exists 0. split; [lia|reflexivity].
  - destruct (IH (S k) I) as (-> & j & -> & E). split; [reflexivity|]. exists (S j). split; [lia|exact E].
Qed.
Lemma jobs_iff T tests t j text : In (t, j, text) (jobs T tests) <-> exists texts, In t (table_all T) /\ tests (t_name t) = Some texts /\ nth_error texts j = Some text.
Proof.
  unfold jobs, tested. rewrite in_concat. split.
  - intros (l & I & J). apply in_map_iff in I. destruct I as ([u texts] & <- & I). apply in_concat in I. destruct I as (l' & I1 & I2). apply in_map_iff in I1. destruct I1 as (u' & <- & I1).
    destruct (tests (t_name u')) as [x|] eqn:E; [|destruct I2]. destruct I2 as [[= -> ->]|[]]. apply (line_jobs_from u 0) in J. destruct J as (-> & j' & -> & K). exists texts. auto.
  - intros (texts & I & E & K). exists (line_jobs t 0 texts). split; [|apply (line_jobs_in t 0); exact K]. apply in_map_iff. exists (t, texts). split; [reflexivity|]. apply in_concat. exists [(t, texts)]. split; [|left; reflexivity]. apply in_map_iff. exists t. rewrite E. auto.
Qed.
Lemma tested_iff T tests t texts : In (t, texts) (tested T tests) <-> In t (table_all T) /\ tests (t_name t) = Some texts.
Proof.
  unfold tested. rewrite in_concat. split.
  - intros (l' & I1 & I2). apply in_map_iff in I1. destruct I1 as (u' & <- & I1). destruct (tests (t_name u')) as [x|] eqn:E; [|destruct I2]. destruct I2 as [[= -> ->]|[]]. auto.
  - intros [I E]. exists [(t, texts)]. split; [|left; reflexivity]. apply in_map_iff. exists t. rewrite E. auto.
Qed.
Section Final.
Variable T : table token.
Variable tests : bytes -> option (list bytes).
Variable channels : option (table token).
Variable nf rp : bytes -> option (element * list element).
Variable order : bytes -> nat -> list path -> nat -> list path.
Variable fuel : nat.
Lemma reports_fun x s s' : reports T channels nf rp order fuel x s -> reports T channels nf rp order fuel x s' -> s = s'.
Proof.
  intros (N1 & L1 & H1) (N2 & L2 & H2). destruct s as [n l], s' as [n' l']; cbn in *. f_equal; [congruence|].
  assert (K : forall j, nth_error l j = nth_error l' j).
  { intros j. destruct (nth_error (snd x) j) as [text|] eqn:E.
    - destruct (H1 j text E) as ([i1 b1] & a & A1 & A2 & A3 & A4), (H2 j text E) as ([i2 b2] & a' & B1 & B2 & B3 & B4). rewrite A1, B1. cbn in *. assert (a' = a) by congruence. subst a'. assert (b1 = b2) by (destruct b1, b2; intuition congruence). congruence.
    - apply nth_error_None in E. rewrite (proj2 (nth_error_None l j)), (proj2 (nth_error_None l' j)) by lia. reflexivity. }
  clear - K. revert l' K. induction l as [|y l IH]; intros [|y' l'] K; [reflexivity|specialize (K 0); discriminate|specialize (K 0); discriminate|].
  f_equal; [specialize (K 0); cbn in K; congruence|]. apply IH. intros j. exact (K (S j)).
Qed.
Lemma suites_exact ss : good_table T -> (forall n ts, tests n = Some ts -> ts <> []) ->
  (execute_suites T tests channels nf rp order fuel = Ok ss <-> Forall2 (reports T channels nf rp order fuel) (tested T tests) ss).
Proof.
  intros G Hne. assert (H := run_suites_spec T tests channels nf rp order fuel (table_all T) G Hne (incl_refl _)). unfold execute_suites. change (tested_of tests (table_all T)) with (tested T tests) in H.
  split; intros E; [rewrite E in H; apply H|].
  assert (A : forall t j text, In (t, j, text) (jobs_of tests (table_all T)) -> exists a, answer T channels nf rp order fuel t j text = Ok a).
  { intros t j text I. apply (jobs_iff T tests) in I. destruct I as (texts & I & Et & K). assert (J : In (t, texts) (tested T tests)) by (apply tested_iff; auto).
    destruct (forall2_in _ _ _ E _ J) as (i & s & _ & _ & (_ & _ & R)). destruct (R j text K) as (_ & a & _ & _ & X & _). eauto. }
  destruct (run_suites T tests channels nf rp order fuel (table_all T)) as [ss'| | |].
  - f_equal. destruct H as [H _]. clear A. revert ss' H. induction E as [|x s l m R E IH]; intros ss' H; inversion H; subst; [reflexivity|]. f_equal; [eapply reports_fun; eauto|auto].
  - destruct H as (b & t & j & x & af & Ej & _ & F). destruct (A t j x) as [a Ea]; [rewrite Ej; apply in_or_app; right; left; reflexivity|]. rewrite Ea in F. inversion F.
  - destruct H as (b & t & j & x & af & Ej & _ & F). destruct (A t j x) as [a Ea]; [rewrite Ej; apply in_or_app; right; left; reflexivity|]. rewrite Ea in F. inversion F.
  - destruct H as (b & t & j & x & af & Ej & _ & F). destruct (A t j x) as [a Ea]; [rewrite Ej; apply in_or_app; right; left; reflexivity|]. rewrite Ea in F. inversion F.
Qed.
Lemma suites_first_failure : good_table T -> (forall n ts, tests n = Some ts -> ts <> []) ->
  (exists ss, execute_suites T tests channels nf rp order fuel = Ok ss) \/
  exists before t j text after, jobs T tests = before ++ (t, j, text) :: after /\
    (forall t' j' text', In (t', j', text') before -> exists a, answer T channels nf rp order fuel t' j' text' = Ok a) /\
    fails_as (answer T channels nf rp order fuel t j text) (execute_suites T tests channels nf rp order fuel).
Proof.
  intros G Hne. assert (H := run_suites_spec T tests channels nf rp order fuel (table_all T) G Hne (incl_refl _)). unfold execute_suites.
  destruct (run_suites T tests channels nf rp order fuel (table_all T)) as [ss'| | |]; [left; eauto|right; exact H|right; exact H|right; exact H].
Qed.
Lemma suites_all_or_nothing ss t j text : good_table T -> (forall n ts, tests n = Some ts -> ts <> []) ->
  execute_suites T tests channels nf rp order fuel = Ok ss -> In (t, j, text) (jobs T tests) -> exists a, answer T channels nf rp order fuel t j text = Ok a.
Proof.
  intros G Hne E J. apply (suites_exact ss G Hne) in E. apply jobs_iff in J. destruct J as (texts & I & Et & K). assert (J : In (t, texts) (tested T tests)) by (apply tested_iff; auto).
  destruct (forall2_in _ _ _ E _ J) as (i & s & _ & _ & (_ & _ & R)). destruct (R j text K) as (_ & a & _ & _ & X & _). eauto.
Qed.
End Final.

(* ---- closed simple grammars ---- *)
Lemma closed_path T channels t : closed_grammar T channels -> In t (table_all T) \/ In t (channel_list channels) -> exists p, path_for T none none t = Ok p /\ made p.
Proof.
  intros (G & Gc & H & A) I. destruct (H t I) as [St Ct]. assert (Ot : token_ok t = true) by apply St.
  assert (X := path_always_answers T none none [] t G ltac:(constructor) Ot). cbv zeta in X. destruct X as [[X|[p X]] _].
  - exfalso. apply (path_fails_exactly T [] t G ltac:(constructor) Ot) in X. destruct X as [(u & n & Hu & R & N)|(u & Iu & R)]; [|exact (A u Iu R)].
    apply N. destruct Hu as [->|Hu]; [apply Ct; exact R|]. apply (H u (or_introl Hu)). exact R.
  - exists p. split; [exact X|]. exists T, [], t. split; [exact G|]. split; [constructor|]. split; [exact St|]. split; [apply Forall_forall; intros u Iu; apply (H u (or_introl Iu))|exact X].
Qed.
Lemma closed_lexer T channels t : closed_grammar T channels -> In t (table_all T) -> exists p m, new_lexer T none none t channels = Ok (p, m) /\ made p /\ forall q, In q (map snd m) -> made q.
Proof.
  intros C I. assert (C' := C). destruct C' as (G & Gc & H & A). assert (Ot : token_ok t = true) by (apply (H t (or_introl I))).
  destruct (lexer_exact T none none t channels G Gc Ot) as [L1 L2]. destruct L1 as [E|[[p m] E]].
  - exfalso. apply L2 in E. destruct E as [E|(u & Iu & E)]; [destruct (closed_path T channels t C (or_introl I)) as (p & X & _)|destruct (closed_path T channels u C (or_intror Iu)) as (p & X & _)]; congruence.
  - exists p, m. split; [exact E|]. destruct (lexer_contents T none none t channels p m G Gc Ot E) as (X1 & X2 & qs & F & P). split.
    + destruct (closed_path T channels t C (or_introl I)) as (p' & Y & M). congruence.
    + intros q Iq. apply (Permutation_in _ P) in Iq. clear - C F Iq. assert (X : forall l, Forall2 (fun t q => path_for T none none t = Ok q) l qs -> incl l (channel_list channels) -> made q).
      { clear F. intros l F. revert Iq. induction F as [|u q' l qs' E F IH]; intros Iq Il; [destruct Iq|]. destruct Iq as [<-|Iq].
        - destruct (closed_path T channels u C (or_intror (Il u (or_introl eq_refl)))) as (p' & Y & M). congruence.
        - apply IH; [exact Iq|intros x Ix; apply Il; right; exact Ix]. }
      apply (X _ F (incl_refl _)).
Qed.
Lemma closed_line T channels order fuel t j text : closed_grammar T channels -> real_order order -> In t (table_all T) ->
  exists p m, new_lexer T none none t channels = Ok (p, m) /\
  (answer T channels none none order fuel t j text = NoFuel \/
   (exists x, answer T channels none none order fuel t j text = Ok (AMistake x)) \/
   (exists a rest, answer T channels none none order fuel t j text = Ok (ASuccess a) /\ text = at_discovery a ++ rest /\ at_discovery a <> [] /\
      el_reads (order (t_name t) j (map snd m)) True (pa_deps p) true (pa_element p) text rest)).
Proof.
  intros C O I. destruct (closed_lexer T channels t C I) as (p & m & E & Mp & Mc). exists p, m. split; [exact E|]. unfold answer. rewrite E.
  apply parser_end_to_end; [|exact Mp]. intros q (k & Hk). apply Mc. apply (Permutation_in _ (O (t_name t) j (map snd m) k)). exact Hk.
Qed.
Lemma closed_suites T tests channels order fuel : closed_grammar T channels -> real_order order -> (forall n ts, tests n = Some ts -> ts <> []) ->
  execute_suites T tests channels none none order fuel = NoFuel \/ exists ss, execute_suites T tests channels none none order fuel = Ok ss.
Proof.
  intros C O Hne. assert (G : good_table T) by exact (proj1 C).
  destruct (suites_first_failure T tests channels none none order fuel G Hne) as [X|(b & t & j & text & af & Ej & _ & F)]; [right; exact X|left].
  assert (J : In (t, j, text) (jobs T tests)) by (rewrite Ej; apply in_or_app; right; left; reflexivity). apply jobs_iff in J. destruct J as (_ & I & _).
  destruct (closed_line T channels order fuel t j text C O I) as (p & m & _ & [X|[[x X]|(a & rest & X & _)]]); rewrite X in F; inversion F. reflexivity.
Qed.
(* one undeclared reference anywhere in the table stops every run that has a test *)
Lemma undeclared_stops T tests channels order fuel u n : good_table T -> (forall n ts, tests n = Some ts -> ts <> []) -> good_channels channels ->
  In u (table_all T) -> refers u n -> ~ is_declared (table_all T) n -> jobs T tests <> [] ->
  execute_suites T tests channels none none order fuel = Err.
Proof.
  intros G Hne Gc I R N J.
  assert (A : forall t j text, In (t, j, text) (jobs T tests) -> answer T channels none none order fuel t j text = Err).
  { intros t j text Hj. apply jobs_iff in Hj. destruct Hj as (_ & It & _). assert (Ot : token_ok t = true) by (destruct (good_find T G) as (_ & _ & F); rewrite Forall_forall in F; auto).
    unfold answer. destruct (lexer_exact T none none t channels G Gc Ot) as [_ L]. rewrite (proj2 L); [reflexivity|]. left. apply (path_fails_exactly T [] t G ltac:(constructor) Ot). left. exists u, n. auto. }
  destruct (suites_first_failure T tests channels none none order fuel G Hne) as [[ss X]|(b & t & j & text & af & Ej & B & F)].
  - exfalso. destruct (jobs T tests) as [|[[t j] text] l] eqn:E; [contradiction|]. assert (Ij : In (t, j, text) (jobs T tests)) by (rewrite E; left; reflexivity). destruct (suites_all_or_nothing T tests channels none none order fuel ss t j text G Hne X Ij) as [a Ea]. rewrite (A t j text) in Ea by (left; reflexivity). discriminate.
  - rewrite A in F by (rewrite Ej; apply in_or_app; right; left; reflexivity). inversion F. reflexivity.
Qed.
Lemma closed_suites_answer depth T tests channels order fuel : closed_grammar T channels -> real_order order -> (forall n ts, tests n = Some ts -> ts <> []) ->
  (forall t p m, In t (table_all T) -> new_lexer T none none t channels = Ok (p, m) -> ends depth p /\ forall q, In q (map snd m) -> ends depth q /\ switch_free q) ->
  (forall t j text, In (t, j, text) (jobs T tests) -> (length text + 1) * (2 * depth + 4) <= fuel) ->
  exists ss, execute_suites T tests channels none none order fuel = Ok ss.
Proof.
  intros C O Hne He Hl. assert (G : good_table T) by exact (proj1 C).
  destruct (suites_first_failure T tests channels none none order fuel G Hne) as [X|(b & t & j & text & af & Ej & _ & F)]; [exact X|exfalso].
  assert (J : In (t, j, text) (jobs T tests)) by (rewrite Ej; apply in_or_app; right; left; reflexivity). assert (J' := J). apply jobs_iff in J'. destruct J' as (_ & I & _).
  destruct (closed_lexer T channels t C I) as (p & m & E & Mp & Mc). destruct (He t p m I E) as [E1 E2]. unfold answer in F. rewrite E in F. destruct (made_sane p Mp) as [P1 P2].
  destruct (parser_answers depth (order (t_name t) j (map snd m)) p text (lst_init false) fuel) as [a Ea]; [|exact P1|exact P2|exact E1|apply (Hl t j text J)|rewrite Ea in F; inversion F].
  intros q (k & Hk). apply (Permutation_in _ (O (t_name t) j (map snd m) k)) in Hk. destruct (made_sane q (Mc q Hk)). destruct (E2 q Hk). auto.
Qed.
