(* EndProofs5.v - all the paths of a table of tokens settle together. *)
From Coq Require Import Strings.String Strings.Byte Sorting.Permutation Lia.
From Verif Require Import Go GoLemmas DomainModel DomainSpec CardModel CardSpec PatModel PatSpec PatProofs RuleModel RuleSpec RuleProofs PathModel PathSpec PathProofs LexModel LexSpec LexProofs LexProofs2 LexProofs3 AstModel AstSpec AstProofs3 SuiteModel SuiteSpec SuiteProofs AppProofs3 OrdSpec OrdProofs EndSpec EndProofs EndProofs2 EndProofs3 EndProofs4.
Open Scope list_scope.

(* ---- only the lookups matter ---- *)
Lemma line_ok_ext still ok ok' l : (forall A c, ok A c = ok' A c) -> forall A, line_ok still ok A l = line_ok still ok' A l.
Proof. intros E. induction l as [|[|c] l IH]; intros A; cbn [line_ok]; [reflexivity|reflexivity|]. rewrite E. destruct (ok' A c); [|reflexivity]. destruct (absent_b c); [apply IH|reflexivity]. Qed.
Lemma lines_ok_ext still ok ok' ls : (forall A c, ok A c = ok' A c) -> forall A, lines_ok still ok A ls = lines_ok still ok' A ls.
Proof. intros E. induction ls as [|l ls IH]; intros A; cbn [lines_ok]; [reflexivity|]. rewrite (line_ok_ext still ok ok' l E). destruct (line_ok still ok' A l); [apply IH|reflexivity]. Qed.
Lemma start_ok_ext ok ok' l : (forall c, ok c = ok' c) -> start_ok ok l = start_ok ok' l.
Proof. intros E. induction l as [|[|c] l IH]; cbn [start_ok]; [reflexivity|reflexivity|]. rewrite E. destruct (ok' c); [|reflexivity]. destruct (absent_b c); [exact IH|reflexivity]. Qed.
Lemma forallb_ext' {A} (f g : A -> bool) l : (forall x, f x = g x) -> forallb f l = forallb g l.
Proof. intros E. induction l as [|x l IH]; [reflexivity|]. cbn. rewrite E, IH. reflexivity. Qed.
Section Ext.
Variables lk lk' : bytes -> option element.
Hypothesis E : forall n, lk n = lk' n.
Variable still : list bytes.
Lemma guarded_ext n : forall A c, guarded lk still n A c = guarded lk' still n A c.
Proof.
  induction n as [|n IH]; intros A [e sp k|r k|x sp k|ls]; cbn [guarded]; try reflexivity; [apply lines_ok_ext; exact IH|]. destruct (listed x A); [reflexivity|]. rewrite E. destruct (lk' x) as [e|]; [apply lines_ok_ext; exact IH|reflexivity].
Qed.
Lemma behind_ext n : forall c, behind lk n c = behind lk' n c.
Proof.
  induction n as [|n IH]; intros [e sp k|r k|x sp k|ls]; cbn [behind]; try reflexivity; rewrite ?E; try reflexivity.
  - destruct (absent_b (PToken e sp k)); [|reflexivity]. apply forallb_ext'. intros l. apply start_ok_ext. exact IH.
  - destruct (lk' x) as [e|]; [|reflexivity]. apply forallb_ext'. intros l. apply start_ok_ext. exact IH.
Qed.
Lemma settles_ext depth e : element_settles lk still depth e = element_settles lk' still depth e.
Proof.
  unfold element_settles. destruct (el_not e); [reflexivity|]. f_equal. apply forallb_ext'. intros l. rewrite (line_ok_ext still _ _ l (guarded_ext depth)), (start_ok_ext _ _ l (behind_ext depth)). reflexivity.
Qed.
End Ext.
Lemma first_rule_ext d d' : (forall n, mlookup d n = mlookup d' n) -> forall fuel n, first_rule fuel d n = first_rule fuel d' n.
Proof.
  intros E. induction fuel as [|f IH]; intros n; [reflexivity|]. cbn [first_rule]. unfold dep_fetch. rewrite E. destruct (mlookup d' n) as [e|]; [|reflexivity]. cbn [bind]. destruct (el_must e) as [|l ls]; [reflexivity|]. destruct (first_container l) as [[|r k| |]|]; try reflexivity; apply IH.
Qed.
Lemma build_next_ext d d' fuel c : (forall n, mlookup d n = mlookup d' n) -> build_next fuel c d = build_next fuel c d'.
Proof. intros E. destruct c; cbn [build_next]; rewrite ?(first_rule_ext d d' E); reflexivity. Qed.

(* ---- the elements of the tables, checked ---- *)
Section Tree.
Variable d : gmap element.
Variable still : list bytes.
Variable depth : nat.
Definition answers_b (c : pcontainer) : bool := match build_next depth c d with NoFuel => false | _ => true end.
Fixpoint tree (n : nat) (e : element) : bool :=
  match n with
  | O => false
  | S m => if element_settles (mlookup d) still depth e then
      forallb (forallb (fun i => match i with ISwitch => true | ICont c => if answers_b c then match c with PToken e' _ _ => tree m e' | PLines _ => false | _ => true end else false end)) (el_must e)
    else false
  end.
Lemma tree_own n e : tree n e = true -> element_settles (mlookup d) still depth e = true.
Proof. destruct n as [|n]; [discriminate|]. cbn [tree]. destruct (element_settles _ _ _ e); [reflexivity|discriminate]. Qed.
Lemma tree_direct n e c : tree n e = true -> directly e c -> (forall ls, c <> PLines ls) /\ build_next depth c d <> NoFuel /\ match c with PToken e' _ _ => exists m, tree m e' = true | _ => True end.
Proof.
  intros H D. assert (S := tree_own n e H). destruct n as [|n]; [discriminate|]. cbn [tree] in H. rewrite S in H. destruct D as [(l & Hl & Hc)|(ls & En & _)].
  - rewrite forallb_forall in H. specialize (H l Hl). rewrite forallb_forall in H. specialize (H _ Hc). cbn in H. unfold answers_b in H. destruct (build_next depth c d) eqn:B; try discriminate.
    all: (split; [intros ls ->; discriminate|]); (split; [discriminate|]); destruct c; try exact I; exists n; exact H.
  - unfold element_settles in S. rewrite En in S. discriminate.
Qed.
End Tree.
Lemma mlookup_in {V} (m : gmap V) n v : mlookup m n = Some v -> In v (map snd m).
Proof. induction m as [|[k w] m IH]; [discriminate|]. cbn [mlookup map snd]. destruct (bytes_eqb k n); [intros [= ->]; left; reflexivity|intros H; right; apply IH; exact H]. Qed.
Lemma tree_settles p d still depth k : (forall n, mlookup (pa_deps p) n = mlookup d n) -> plain p -> (exists n, mlookup d n = Some (pa_element p)) -> forallb (tree d still depth k) (map snd d) = true -> settles still depth p.
Proof.
  intros E [P1 P2] (n0 & R) H. rewrite forallb_forall in H.
  assert (Dp : forall n e, mlookup (pa_deps p) n = Some e -> tree d still depth k e = true) by (intros n e L; rewrite E in L; apply H; eapply mlookup_in; exact L).
  assert (Rt : tree d still depth k (pa_element p) = true) by (apply H; eapply mlookup_in; exact R).
  assert (Oc : forall c, occurs_in p c -> (forall ls, c <> PLines ls) /\ build_next depth c d <> NoFuel /\ match c with PToken e' _ _ => exists m, tree d still depth m e' = true | _ => True end).
  { intros c O. induction O as [c D|n e c L D|e sp kk c O IH D]; [exact (tree_direct d still depth k _ c Rt D)|exact (tree_direct d still depth k _ c (Dp n e L) D)|]. destruct IH as (_ & _ & m & T). exact (tree_direct d still depth m e c T D). }
  split; [|split].
  - intros e He. rewrite (settles_ext (mlookup (pa_deps p)) (mlookup d) E still depth e). destruct He as [->|[(n & L)|(sp & kk & O)]]; [apply (tree_own d still depth k); exact Rt|apply (tree_own d still depth k); exact (Dp n e L)|]. destruct (Oc _ O) as (_ & _ & m & T). apply (tree_own d still depth m). exact T.
  - intros r kk O. exact (P2 _ O).
  - intros c O. destruct (Oc c O) as (A & B & _). split; [exact A|]. rewrite (build_next_ext (pa_deps p) d depth c E). exact B.
Qed.

(* ---- the paths of a table have the same dependencies ---- *)
Lemma dep_lookup d n e : mlookup d n = Some e <-> dep_fetch d n = Ok e.
Proof. unfold dep_fetch. destruct (mlookup d n) as [x|]; split; intros H; inversion H; reflexivity. Qed.
Lemma own_dependency T t p : good_table T -> token_ok t = true -> path_for T none none t = Ok p -> mlookup (pa_deps p) (t_name t) = Some (pa_element p).
Proof. intros G Ot E. apply dep_lookup. apply (path_fetch T [] t p _ _ G ltac:(constructor) Ot E). left. auto. Qed.
Lemma one_of T t u : good_table T -> In t (table_all T) -> In u (table_all T) -> t_name t = t_name u -> t = u.
Proof.
  intros G It Iu E. destruct (good_find T G) as (Hf & _ & _). assert (A := proj2 (Hf (t_name u) t) (conj It E)). assert (B := proj2 (Hf (t_name u) u) (conj Iu eq_refl)). congruence.
Qed.
Lemma fetch_plain T t p n e : good_table T -> In t (table_all T) -> path_for T none none t = Ok p ->
  (mlookup (pa_deps p) n = Some e <-> exists u, In u (table_all T) /\ t_name u = n /\ unfolds (table_all T) none none [] u e []).
Proof.
  intros G It E. destruct (good_find T G) as (_ & _ & Hok). rewrite Forall_forall in Hok. assert (Ot := Hok t It). rewrite dep_lookup. rewrite (path_fetch T [] t p n e G ltac:(constructor) Ot E).
  destruct (path_element_exact T none none [] t p G ltac:(constructor) Ot E) as (ext & U). assert (X := unf_no_ext _ _ _ _ _ U). subst ext. split.
  - intros [[-> ->]|(_ & u & H)]; [exists t; auto|exists u; exact H].
  - intros (u & Iu & Nu & Uu). destruct (list_eq_dec byte_eq_dec n (t_name t)) as [->|N]; [|right; split; [exact N|exists u; auto]]. left. split; [reflexivity|]. assert (u = t) by (apply (one_of T); assumption). subst u. apply (unfolding_unique T none none t e (pa_element p) [] [] G Ot Uu U).
Qed.
Lemma same_dependencies T T' t u p q : good_table T -> good_table T' -> table_all T = table_all T' -> In t (table_all T) -> In u (table_all T') -> path_for T none none t = Ok p -> path_for T' none none u = Ok q -> forall n, mlookup (pa_deps p) n = mlookup (pa_deps q) n.
Proof.
  intros G G' ET It Iu Ep Eq n. assert (H2 := fun e => fetch_plain T' u q n e G' Iu Eq). rewrite <- ET in H2. assert (H := fun e => iff_trans (fetch_plain T t p n e G It Ep) (iff_sym (H2 e))).
  destruct (mlookup (pa_deps p) n) as [e|]; [symmetry; apply H; reflexivity|]. destruct (mlookup (pa_deps q) n) as [e|]; [|reflexivity]. apply H. reflexivity.
Qed.
Lemma table_settles T T0 t0 p0 still depth k : good_table T -> good_table T0 -> table_all T = table_all T0 -> Forall simple_token (table_all T) -> In t0 (table_all T0) -> path_for T0 none none t0 = Ok p0 -> forallb (tree (pa_deps p0) still depth k) (map snd (pa_deps p0)) = true ->
  forall t p, In t (table_all T) -> path_for T none none t = Ok p -> settles still depth p.
Proof.
  intros G G0 ET S I0 E0 H t p It Ep. rewrite Forall_forall in S. apply (tree_settles p (pa_deps p0) still depth k); [apply (same_dependencies T T0 t t0); assumption| | |exact H].
  - apply (made_sane p). exists T, [], t. split; [exact G|]. split; [constructor|]. split; [apply S; exact It|]. split; [apply Forall_forall; exact S|exact Ep].
  - exists (t_name t). rewrite <- (same_dependencies T T0 t t0 p p0 G G0 ET It I0 Ep E0). apply (own_dependency T); [exact G|apply (S t It)|exact Ep].
Qed.

(* ---- the parser answers ---- *)
Lemma settled_answers channels root still depth fuel script st : same_map channels -> (forall q, among channels q -> exists r, simple_channel q r) ->
  (forall q, among channels q -> plain q /\ resolved q) -> plain root -> resolved root -> settles still depth root ->
  ls_pre st = false -> (length script + 2) * (depth + 2) <= fuel -> exists a, fst (to_ast channels fuel root false script st) = Ok a.
Proof.
  intros Hm Hs Hc Hr Hv He E L. destruct (parser_never_fails channels root fuel script st Hc Hr Hv) as [N|A]; [exfalso|exact A].
  assert (T := settled_ends channels Hm Hs still depth root He script st fuel E L). destruct (to_token_safe channels Hc root fuel script st (conj Hr Hv)) as [X|(t & Et)]; [contradiction|].
  destruct (ast_decides channels root fuel script st t (fun p Hp => proj1 (Hc p Hp)) Hr Et) as [A1 A2]. destruct (tok_valid t); [destruct (A1 eq_refl) as (a & Ea & _)|destruct (A2 eq_refl) as (m & Em & _)]; congruence.
Qed.
