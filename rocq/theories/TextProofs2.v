(* TextProofs2.v - ToPatterns: exactly what a text of patterns means. *)
From Coq Require Import Strings.String Strings.Byte Lia.
From Verif Require Import Go GoLemmas DomainModel CardModel PatModel RuleModel RuleProofs PathModel SigProofs2 Regex RegexProofs TextModel TextBytes TextSpec TextProofs.
Open Scope list_scope.
Local Arguments in_class : simpl never.

(* ---- results ---- *)
Definition tame {A} (r : res A) : Prop := r <> Panic /\ r <> NoFuel.
Lemma tame_ok {A} (a : A) : tame (Ok a). Proof. split; discriminate. Qed.
Lemma tame_err {A} : tame (@Err A). Proof. split; discriminate. Qed.
Lemma tame_bind {A B} (r : res A) (f : A -> res B) : tame r -> (forall a, r = Ok a -> tame (f a)) -> tame (bind r f).
Proof. intros H K. destruct r; cbn; [apply K; reflexivity|apply tame_err|destruct H; contradiction|destruct H; contradiction]. Qed.
Lemma tame_mapM {A B} (f : A -> res B) l : (forall x, In x l -> tame (f x)) -> tame (mapM f l).
Proof. induction l as [|x l IH]; intros H; cbn [mapM]; [apply tame_ok|]. apply tame_bind; [apply H; left; reflexivity|]. intros a _. apply tame_bind; [apply IH; intros y Hy; apply H; right; exact Hy|]. intros. apply tame_ok. Qed.
Lemma mapM_iff {A B} (f : A -> res B) l ys : mapM f l = Ok ys <-> Forall2 (fun x y => f x = Ok y) l ys.
Proof.
  split; [apply mapM_inv|]. intros H. induction H as [|x y l ys Hx H IH]; [reflexivity|]. cbn [mapM]. rewrite Hx. cbn [bind]. rewrite IH. reflexivity.
Qed.
Lemma Forall2_iff {A B} (P Q : A -> B -> Prop) l m : (forall a b, In a l -> (P a b <-> Q a b)) -> (Forall2 P l m <-> Forall2 Q l m).
Proof.
  intros H. split; intros K; induction K as [|a b l m Hab K IH]; constructor; try (apply H; [left; reflexivity|exact Hab]); apply IH; intros a' b' Ha; apply H; right; exact Ha.
Qed.
Lemma Forall2_map_l {A B C} (f : A -> B) (P : B -> C -> Prop) l m : Forall2 P (map f l) m <-> Forall2 (fun a c => P (f a) c) l m.
Proof.
  split.
  - revert m. induction l as [|a l IH]; intros m H; inversion H; subst; constructor; auto.
  - intros H. induction H; constructor; auto.
Qed.
Lemma Forall2_fun {A B} (f : A -> B) l m : Forall2 (fun a b => b = f a) l m <-> m = map f l.
Proof.
  split.
  - intros H. induction H; [reflexivity|]. cbn. congruence.
  - intros ->. induction l; constructor; auto.
Qed.

(* ---- declarations ---- *)
Lemma cut_unique (text : bytes) secs tail secs' tail' : cut text secs tail -> cut text secs' tail' -> secs = secs' /\ tail = tail'.
Proof.
  intros (E & Hs & Ht) (E' & Hs' & Ht'). rewrite E in E'. clear E text. revert secs' E' Hs'. induction secs as [|s secs IH]; intros secs' E Hs'.
  - destruct secs' as [|s' secs']; [split; [reflexivity|exact E]|]. exfalso. apply Ht. change (tail = concat (map (fun s => s ++ [semi]) (s' :: secs')) ++ tail') in E. rewrite E. cbn. apply in_or_app. left. apply in_or_app. left. apply in_or_app. right. left. reflexivity.
  - inversion Hs; subst. destruct secs' as [|s' secs'].
    + exfalso. apply Ht'. change (concat (map (fun s => s ++ [semi]) (s :: secs)) ++ tail = tail') in E. rewrite <- E. cbn. apply in_or_app. left. apply in_or_app. left. apply in_or_app. right. left. reflexivity.
    + inversion Hs'; subst. cbn in E. rewrite <- !app_assoc in E. cbn [app] in E.
      assert (K : s = s' /\ concat (map (fun s => s ++ [semi]) secs) ++ tail = concat (map (fun s => s ++ [semi]) secs') ++ tail').
      { destruct (before_semi s (semi :: concat (map (fun s => s ++ [semi]) secs) ++ tail) s' _ E H1) as (b & -> & Eb). destruct b as [|b0 b]; cbn in Eb.
        - injection Eb as Eb. rewrite app_nil_r. split; [reflexivity|exact Eb].
        - injection Eb as X _. exfalso. apply H3. apply in_or_app. right. left. symmetry. exact X. }
      destruct K as [-> K]. destruct (IH H2 secs' K H4) as [-> ->]. split; reflexivity.
Qed.
Section Declared.
Context {X : Type} (P : bytes -> X -> Prop).
Hypothesis HP : forall u x x', ~ In semi u -> P u x -> P u x' -> x = x'.
Lemma declares_fun s x x' : ~ In semi s -> declares P s x -> declares P s x' -> x = x'.
Proof.
  intros Ns (a & u & E & H & M) (a' & u' & E' & H' & M'). assert (L : length a = length a').
  { destruct (Nat.lt_trichotomy (length a) (length a')) as [L|[L|L]]; [exfalso; apply (M' a u x E L H)|exact L|exfalso; apply (M a' u' x' E' L H')]. }
  assert (u = u'). { rewrite E' in E. clear - E L. revert a' E L. induction a as [|b a IH]; intros [|b' a'] E L; try discriminate; cbn in *; [congruence|]. injection E as _ E. apply (IH a' E). lia. }
  subst u'. apply (HP u x x'); [|exact H|exact H']. intros K. apply Ns. rewrite E. apply in_or_app. right. exact K.
Qed.
Lemma declared_fun secs xs xs' : Forall (fun s => ~ In semi s) secs -> declared P secs xs -> declared P secs xs' -> xs = xs'.
Proof.
  intros F H. revert xs'. induction H as [|s l xs N H IH|s l x xs D H IH]; intros xs' H'; inversion H'; subst; try reflexivity; inversion F; subst.
  - apply IH; assumption.
  - exfalso. destruct H2 as (a & u & E & Hu & _). exact (N a u x E Hu).
  - exfalso. destruct D as (a & u & E & Hu & _). exact (H2 a u x E Hu).
  - f_equal; [eapply declares_fun; eassumption|apply IH; assumption].
Qed.
Lemma declares_all_fun text xs xs' : declares_all P text xs -> declares_all P text xs' -> xs = xs'.
Proof. intros (s & t & C & D) (s' & t' & C' & D'). destruct (cut_unique _ _ _ _ _ C C') as [-> ->]. destruct C as (_ & Fs & _). exact (declared_fun _ _ _ Fs D D'). Qed.
(* the regular expression finds the declarations *)
Lemma find_declared (r : re) (mk : X -> caps) text :
  (forall sec rest m, ~ In semi sec -> (match_at r (sec ++ semi :: rest) = Some m <-> exists x, P sec x /\ m = {| m_text := sec ++ [semi]; m_caps := mk x |})) ->
  (forall s, ~ In semi s -> match_at r s = None) ->
  exists xs, declares_all P text xs /\ map m_caps (find_all r text) = map mk xs.
Proof.
  intros Hs Hn. destruct (cut_exists semi text) as (secs & tail & E & Fs & Ft).
  destruct (find_sections r P mk semi Hs Hn secs tail false Fs Ft) as (xs & R & F). exists xs. split.
  - exists secs, tail. split; [split; [exact E|split; assumption]|]. clear - R. induction R; [apply declared_nil|apply declared_skip; assumption|apply declared_take; assumption].
  - unfold find_all. rewrite E. exact F.
Qed.
End Declared.
Definition mk2 (x : bytes * bytes) : caps := [(2, snd x); (1, fst x)].
Lemma opens_iff (A B : bytes -> Prop) u x : (forall n, A n <-> B n) -> (opens A u x <-> opens B u x).
Proof. intros H. split; intros (w & E & Hn & Hw); exists w; (split; [exact E|split; [apply H; exact Hn|exact Hw]]). Qed.
Lemma opens_quoted_iff (A B : bytes -> Prop) u x : (forall n, A n <-> B n) -> (opens_quoted A u x <-> opens_quoted B u x).
Proof. intros H. split; intros (w & w2 & w3 & E & Hn & Hw); exists w, w2, w3; (split; [exact E|split; [apply H; exact Hn|exact Hw]]). Qed.
(* upper-case names do not contain the separators *)
Lemma upper_ws b : in_class c_upper_ b = true -> in_class c_ws b = false.
Proof. intros H. destruct (in_class c_ws b) eqn:E; [|reflexivity]. apply in_ws in E. destruct E as [->|[->|[->| ->]]]; discriminate. Qed.
Lemma lower_ws b : in_class c_lower_ b = true -> in_class c_ws b = false.
Proof. intros H. destruct (in_class c_ws b) eqn:E; [|reflexivity]. apply in_ws in E. destruct E as [->|[->|[->| ->]]]; discriminate. Qed.
Lemma fun_of_match {X} (r : re) (mk : X -> caps) (P : bytes -> X -> Prop) : (forall x y, mk x = mk y -> x = y) ->
  (forall sec rest m, ~ In semi sec -> (match_at r (sec ++ semi :: rest) = Some m <-> exists x, P sec x /\ m = {| m_text := sec ++ [semi]; m_caps := mk x |})) ->
  forall u x x', ~ In semi u -> P u x -> P u x' -> x = x'.
Proof.
  intros Hi H u x x' N Hx Hx'. assert (A := proj2 (H u [] _ N) (ex_intro _ x (conj Hx eq_refl))). assert (B := proj2 (H u [] _ N) (ex_intro _ x' (conj Hx' eq_refl))).
  rewrite A in B. injection B as B. apply Hi. exact B.
Qed.
Lemma mk2_inj x y : mk2 x = mk2 y -> x = y. Proof. destruct x, y. unfold mk2. cbn. congruence. Qed.

(* ---- the three kinds of declarations ---- *)
Lemma hs_group : in_class c_upper_ semi = false /\ Forall (fun h => in_class h semi = false) [lit "$"%byte; c_upper_]. Proof. split; [|repeat constructor]; reflexivity. Qed.
Lemma hs_serie : in_class c_upper_ semi = false /\ Forall (fun h => in_class h semi = false) [c_upper]. Proof. split; [|repeat constructor]; reflexivity. Qed.
Lemma hs_pattern : in_class c_lower_ semi = false /\ Forall (fun h => in_class h semi = false) [c_lower]. Proof. split; [|repeat constructor]; reflexivity. Qed.
Lemma c_group : compile group_text = quoted_re n_group. Proof. vm_compute. reflexivity. Qed.
Lemma c_serie : compile (declaration_text serie_name_text) = decl_re (n_run c_upper c_upper_). Proof. vm_compute. reflexivity. Qed.
Lemma c_pattern : compile (declaration_text pattern_name_text) = decl_re (n_run c_lower c_lower_). Proof. vm_compute. reflexivity. Qed.
Lemma group_decl_some sec rest m : ~ In semi sec ->
  (match_at (compile group_text) (sec ++ semi :: rest) = Some m <-> exists x, opens_quoted group_name sec x /\ m = {| m_text := sec ++ [semi]; m_caps := mk2 x |}).
Proof.
  intros N. rewrite c_group, (quoted_some n_group _ _ group_re upper_ws eq_refl hs_group sec rest m N).
  split; intros (x & H & ->); exists x; (split; [|reflexivity]); [apply (opens_quoted_iff _ _ sec x is_group_name)|apply (opens_quoted_iff _ _ sec x is_group_name)]; exact H.
Qed.
Lemma group_decl_none s : ~ In semi s -> match_at (compile group_text) s = None.
Proof. rewrite c_group. apply (quoted_none n_group _ _ group_re upper_ws eq_refl). Qed.
Lemma serie_decl_some sec rest m : ~ In semi sec ->
  (match_at (compile (declaration_text serie_name_text)) (sec ++ semi :: rest) = Some m <-> exists x, opens serie_name sec x /\ m = {| m_text := sec ++ [semi]; m_caps := mk2 x |}).
Proof.
  intros N. rewrite c_serie, (decl_some (n_run c_upper c_upper_) _ _ (run_re _ _) upper_ws eq_refl hs_serie sec rest m N).
  split; intros (x & H & ->); exists x; (split; [|reflexivity]); apply (opens_iff _ _ sec x is_serie_name); exact H.
Qed.
Lemma serie_decl_none s : ~ In semi s -> match_at (compile (declaration_text serie_name_text)) s = None.
Proof. rewrite c_serie. apply (decl_none _ _ _ (run_re _ _) upper_ws eq_refl). Qed.
Lemma pattern_decl_some sec rest m : ~ In semi sec ->
  (match_at (compile (declaration_text pattern_name_text)) (sec ++ semi :: rest) = Some m <-> exists x, opens pattern_name sec x /\ m = {| m_text := sec ++ [semi]; m_caps := mk2 x |}).
Proof.
  intros N. rewrite c_pattern, (decl_some (n_run c_lower c_lower_) _ _ (run_re _ _) lower_ws eq_refl hs_pattern sec rest m N).
  split; intros (x & H & ->); exists x; (split; [|reflexivity]); apply (opens_iff _ _ sec x is_pattern_name); exact H.
Qed.
Lemma pattern_decl_none s : ~ In semi s -> match_at (compile (declaration_text pattern_name_text)) s = None.
Proof. rewrite c_pattern. apply (decl_none _ _ _ (run_re _ _) lower_ws eq_refl). Qed.

(* ---- names inside of a text ---- *)
Section Names.
Variables (r : re) (is_name : bytes -> Prop) (goes_on : byte -> Prop).
Definition halts (u : bytes) : Prop := match u with b :: _ => ~ goes_on b | [] => True end.
Hypothesis Hsome : forall s m, match_at r s = Some m -> exists u, s = m_text m ++ u /\ is_name (m_text m) /\ halts u.
Hypothesis Hname : forall n u, is_name n -> halts u -> exists m, match_at r (n ++ u) = Some m /\ m_text m = n.
Hypothesis Hne : forall n, is_name n -> n <> [].
Hypothesis Hmore : forall n b, is_name n -> goes_on b -> is_name (n ++ [b]).
Hypothesis Hdec : forall b, goes_on b \/ ~ goes_on b.
Lemma extend u : forall n, is_name n -> exists w v, u = w ++ v /\ is_name (n ++ w) /\ halts v.
Proof.
  induction u as [|b u IH]; intros n Hn; [exists [], []; split; [reflexivity|]; split; [rewrite app_nil_r; exact Hn|exact I]|].
  destruct (Hdec b) as [G|G].
  - destruct (IH (n ++ [b]) (Hmore n b Hn G)) as (w & v & -> & H1 & H2). exists (b :: w), v. rewrite <- app_assoc in H1. auto.
  - exists [], (b :: u). split; [reflexivity|]. split; [rewrite app_nil_r; exact Hn|exact G].
Qed.
Lemma no_match s : match_at r s = None <-> forall n u, s = n ++ u -> ~ is_name n.
Proof.
  split.
  - intros H n u -> Hn. destruct (extend u n Hn) as (w & v & -> & H1 & H2). destruct (Hname _ _ H1 H2) as (m & Hm & _). rewrite <- app_assoc in Hm. congruence.
  - intros H. destruct (match_at r s) as [m|] eqn:E; [|reflexivity]. destruct (Hsome s m E) as (u & Es & Hn & _). exfalso. exact (H _ _ Es Hn).
Qed.
Lemma find_names : forall k s f, length s <= k -> names is_name goes_on s (map m_text (find_from r 0 f s)).
Proof.
  induction k as [|k IH]; intros s f L.
  - destruct s; [|cbn in L; lia]. cbn [find_from]. destruct (match_at r []) as [m|] eqn:E; [|constructor]. destruct (Hsome [] m E) as (u & Es & Hn & _). symmetry in Es. apply app_eq_nil in Es. destruct Es as [Es _]. exfalso. apply (Hne _ Hn). exact Es.
  - destruct s as [|b t]; [apply (IH [] f); cbn; lia|]. cbn [find_from]. destruct (match_at r (b :: t)) as [m|] eqn:E.
    + destruct (Hsome _ m E) as (u & Es & Hn & Hu). destruct (m_text m) as [|b' w] eqn:Em; [exfalso; apply (Hne _ Hn); reflexivity|].
      cbn in Es. injection Es as -> ->. cbn [map]. rewrite Em. rewrite (find_skip r). rewrite app_comm_cons. apply names_here; [exact Hn|exact Hu|]. apply IH. cbn in L. rewrite app_length in L. lia.
    + apply names_skip; [exact (proj1 (no_match _) E)|]. apply IH. cbn in L. lia.
Qed.
Lemma names_found s l : names is_name goes_on s l -> forall f, l = map m_text (find_from r 0 f s).
Proof.
  intros H. induction H as [|n t l Hn Hh H IH|b t l Hs H IH]; intros f.
  - cbn [find_from]. destruct (match_at r []) as [m|] eqn:E; [|reflexivity]. destruct (Hsome [] m E) as (u & Es & Hn & _). symmetry in Es. apply app_eq_nil in Es. destruct Es as [Es _]. exfalso. apply (Hne _ Hn). exact Es.
  - destruct (Hname n t Hn Hh) as (m & Hm & Em). destruct n as [|b n]; [exfalso; apply (Hne _ Hn); reflexivity|]. cbn [app] in Hm |- *. cbn [find_from]. rewrite Hm, Em. cbn [map]. rewrite Em, (find_skip r). f_equal. apply IH.
  - cbn [find_from]. rewrite (proj2 (no_match (b :: t)) Hs). apply IH.
Qed.
Lemma names_iff s l : names is_name goes_on s l <-> l = map m_text (find_all r s).
Proof. split; [intros H; exact (names_found s l H false)|intros ->; apply (find_names (length s)); lia]. Qed.
End Names.

(* ---- the names the code looks for ---- *)
Definition total_re (N : re) (hs : list cls) (c : cls) : Prop :=
  forall (A : Type) (k : bytes -> caps -> option A) s cs, total k -> exec N s cs k = match heads hs c s with Some (_, u) => k u cs | None => None end.
Lemma run_total a c : total_re (n_run a c) [a] c.
Proof.
  intros A k s cs T. unfold n_run. cbn [exec]. destruct s as [|b t]; cbn [heads]; [reflexivity|]. destruct (in_class a b); [|reflexivity].
  apply (star_greedy_all c (fun t => k t cs)). apply T.
Qed.
Lemma plus_total c : total_re (n_plus c) [c] c.
Proof.
  intros A k s cs T. unfold n_plus. cbn [exec]. destruct s as [|b t]; cbn [heads]; [reflexivity|]. destruct (in_class c b); [|reflexivity].
  apply (star_greedy_all c (fun t => k t cs)). apply T.
Qed.
Lemma group_total : total_re n_group [of_ranges [("$"%byte, "$"%byte)]; c_upper_] c_upper_.
Proof.
  intros A k s cs T.
  change (exec n_group s cs k) with (match s with b :: t => if in_class (of_ranges [("$"%byte, "$"%byte)]) b then exec (n_plus c_upper_) t cs k else None | [] => None end).
  destruct s as [|b t]; [reflexivity|]. cbn [heads]. destruct (in_class _ b); [|reflexivity]. rewrite (plus_total c_upper_ A k t cs T). cbn [heads]. destruct t as [|b' t]; [reflexivity|]. destruct (in_class c_upper_ b'); reflexivity.
Qed.
Lemma firstn_name (n u s : bytes) : s = n ++ u -> firstn (length s - length u) s = n.
Proof. intros ->. apply firstn_diff. Qed.
Lemma whole_total s : total (fun t cs => Some {| m_text := firstn (length s - length t) s; m_caps := cs |}).
Proof. intros t cs. discriminate. Qed.
Lemma upper_dec b : in_serie_name b \/ ~ in_serie_name b.
Proof. unfold in_serie_name. rewrite <- in_upper_. destruct (in_class c_upper_ b); [left; reflexivity|right; discriminate]. Qed.
Lemma stops_upper u : stops c_upper_ u <-> match u with b :: _ => ~ in_serie_name b | [] => True end.
Proof. destruct u as [|b u]; [reflexivity|]. cbn. unfold in_serie_name. rewrite <- in_upper_. destruct (in_class c_upper_ b); split; congruence. Qed.
Lemma group_name_more n b : group_name n -> in_serie_name b -> group_name (n ++ [b]).
Proof. intros (w & -> & N & F) H. exists (w ++ [b]). split; [reflexivity|]. split; [destruct w; discriminate|]. apply Forall_app. split; [exact F|constructor; [exact H|constructor]]. Qed.
Lemma serie_name_more n b : serie_name n -> in_serie_name b -> serie_name (n ++ [b]).
Proof. intros (x & w & -> & N & F) H. exists x, (w ++ [b]). split; [reflexivity|]. split; [exact N|]. apply Forall_app. split; [exact F|constructor; [exact H|constructor]]. Qed.
Lemma c_group_name : compile group_name_text = n_group. Proof. vm_compute. reflexivity. Qed.
Lemma group_names_iff s l : names group_name in_serie_name s l <-> l = map m_text (find_all (compile group_name_text) s).
Proof.
  rewrite c_group_name. apply names_iff.
  - intros t m H. unfold match_at in H. rewrite (group_total _ _ t [] (whole_total t)) in H. destruct (heads _ _ t) as [[n u]|] eqn:E; [|discriminate]. apply heads_some in E. destruct E as (E & Hn & Hs).
    injection H as <-. cbn [m_text]. rewrite (firstn_name n u t E). exists u. split; [exact E|]. split; [apply is_group_name; exact Hn|apply stops_upper; exact Hs].
  - intros n u Hn Hh. unfold match_at. rewrite (group_total _ _ (n ++ u) [] (whole_total (n ++ u))). rewrite (proj2 (heads_some _ _ (n ++ u) n u)).
    + eexists. split; [reflexivity|]. cbn [m_text]. apply firstn_name. reflexivity.
    + split; [reflexivity|]. split; [apply is_group_name; exact Hn|apply stops_upper; exact Hh].
  - intros n (w & -> & _). discriminate.
  - exact group_name_more.
  - exact upper_dec.
Qed.
Definition c_at : cls := of_ranges [("@"%byte, "@"%byte)].
Definition n_choice : re := RSeq (ROpt (RCap 1 (RSeq (ROne c_at) REps))) (n_run c_upper c_upper_).
Lemma c_choice : compile choice_text = n_choice. Proof. vm_compute. reflexivity. Qed.
(* @ is not a letter *)
Lemma choice_at s : match_at n_choice s =
  match s with
  | b :: t =>
    if Byte.eqb b "@"%byte then match heads [c_upper] c_upper_ t with Some (n, u) => Some {| m_text := b :: n; m_caps := [(1, [b])] |} | None => None end
    else match heads [c_upper] c_upper_ s with Some (n, u) => Some {| m_text := n; m_caps := [] |} | None => None end
  | [] => None
  end.
Proof.
  destruct s as [|b t]; [reflexivity|]. set (s := b :: t).
  change (match_at n_choice s) with
    (match exec (ROne c_at) s [] (fun t cs' => exec (n_run c_upper c_upper_) t ((1, firstn (length s - length t) s) :: cs') (fun t cs => Some {| m_text := firstn (length s - length t) s; m_caps := cs |})) with
     | Some x => Some x
     | None => exec (n_run c_upper c_upper_) s [] (fun t cs => Some {| m_text := firstn (length s - length t) s; m_caps := cs |})
     end).
  rewrite (run_total c_upper c_upper_ _ _ s [] (whole_total s)). unfold c_at. rewrite one_lit. unfold s at 1. destruct (Byte.eqb b "@"%byte) eqn:E.
  - apply Byte.byte_dec_bl in E. subst b. rewrite (run_total c_upper c_upper_ _ _ t _ (whole_total s)).
    assert (H0 : heads [c_upper] c_upper_ s = None) by reflexivity. rewrite H0. destruct (heads [c_upper] c_upper_ t) as [[n u]|] eqn:H; [|reflexivity].
    apply heads_some in H. destruct H as (-> & _). unfold s. rewrite (firstn_name ["@"%byte] (n ++ u)) by reflexivity. rewrite (firstn_name ("@"%byte :: n) u) by reflexivity. reflexivity.
  - destruct (heads [c_upper] c_upper_ s) as [[n u]|] eqn:H; [|reflexivity]. apply heads_some in H. destruct H as (Es & _). rewrite (firstn_name n u s Es). reflexivity.
Qed.
Lemma not_at n : serie_name n -> match n with b :: _ => Byte.eqb b "@"%byte = false | [] => False end.
Proof. intros (b & w & -> & U & _). apply eqb_ne. intros ->. unfold upper in U. cbn in U. lia. Qed.
Lemma choice_names_iff s l : names choice_name in_serie_name s l <-> l = map m_text (find_all (compile choice_text) s).
Proof.
  rewrite c_choice. apply names_iff.
  - intros t m H. rewrite choice_at in H. destruct t as [|b t]; [discriminate|]. destruct (Byte.eqb b "@"%byte) eqn:Eb.
    + apply Byte.byte_dec_bl in Eb. subst b. destruct (heads [c_upper] c_upper_ t) as [[n u]|] eqn:E; [|discriminate]. apply heads_some in E. destruct E as (E & Hn & Hs).
      injection H as <-. cbn [m_text]. exists u. split; [exact (f_equal (cons "@"%byte) E)|]. split; [right; exists n; split; [reflexivity|apply is_serie_name; exact Hn]|apply stops_upper; exact Hs].
    + destruct (heads [c_upper] c_upper_ (b :: t)) as [[n u]|] eqn:E; [|discriminate]. apply heads_some in E. destruct E as (E & Hn & Hs).
      injection H as <-. cbn [m_text]. exists u. split; [exact E|]. split; [left; apply is_serie_name; exact Hn|apply stops_upper; exact Hs].
  - intros n u Hn Hh. destruct Hn as [Hn|(m & -> & Hn)].
    + rewrite choice_at. assert (N := not_at n Hn). destruct n as [|b w]; [contradiction|]. cbn [app]. rewrite N. change (b :: w ++ u) with ((b :: w) ++ u).
      rewrite (proj2 (heads_some [c_upper] c_upper_ ((b :: w) ++ u) (b :: w) u)); [eexists; split; reflexivity|]. split; [reflexivity|]. split; [apply is_serie_name; exact Hn|apply stops_upper; exact Hh].
    + rewrite choice_at. cbn [app]. rewrite eqb_refl.
      rewrite (proj2 (heads_some [c_upper] c_upper_ (m ++ u) m u)); [eexists; split; reflexivity|]. split; [reflexivity|]. split; [apply is_serie_name; exact Hn|apply stops_upper; exact Hh].
  - intros n [(b & w & -> & _)|(m & -> & _)]; discriminate.
  - intros n b [H|(m & -> & H)] Hb; [left; apply serie_name_more; assumption|right; exists (m ++ [b]); split; [reflexivity|apply serie_name_more; assumption]].
  - exact upper_dec.
Qed.
