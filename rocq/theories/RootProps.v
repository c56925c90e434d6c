(* RootProps.v - property theorems C45, C47, C66: roots and Scan.
   A call of ToRoot is [to_root t s], s being what the adapter kept of earlier calls.
   RootSpec.v defines mirrors / truly_mirrors (what the root of a syntax tree is), solid
   (nothing empty in a tree), distinct_texts, node_in and container_in.  A call of
   Nodes.Scan is [scan_nodes name nodes outcome]: related to every outcome that some
   order of Go's map iteration gives (RootModel.v). *)
From Coq Require Import Strings.String Strings.Byte Sorting.Permutation.
From Verif Require Import Go GoLemmas DomainModel DomainSpec CardModel CardSpec PatModel PatSpec RuleModel RuleSpec PathModel PathSpec LexModel LexSpec LexProps AstModel AstSpec AstProofs3 AstProps RootModel RootSpec RootProofs RootProofs2.
Open Scope list_scope.

(* ---- C45: roots ---- *)
(* also: what earlier calls left in the adapter does not matter *)
Theorem C45_answers_exactly :
  forall t s,
  (solid t -> exists r, fst (to_root t s) = Ok (Some r) /\ mirrors t r) /\ (at_matches t = [] -> fst (to_root t s) = Ok None) /\ (at_matches t <> [] -> ~ solid t -> fst (to_root t s) = Err).
Proof. exact @root_answers. Qed.
Print Assumptions C45_answers_exactly.

Theorem C45_root_mirrors_the_tree :
  forall t s r,
  fst (to_root t s) = Ok (Some r) -> mirrors t r.
Proof. exact @root_mirrors. Qed.
Print Assumptions C45_root_mirrors_the_tree.

(* at any depth *)
Theorem C45_container_root_has_its_text :
  forall t s r c r',
  fst (to_root t s) = Ok (Some r) -> container_in c (ro_nodes r) -> co_root c = Some r' -> ro_content r' = co_content c.
Proof. exact @root_container_text. Qed.
Print Assumptions C45_container_root_has_its_text.

Theorem C45_own_roots_when_texts_are_distinct :
  forall t s r,
  fst (to_root t s) = Ok (Some r) -> distinct_texts t -> truly_mirrors t r.
Proof. exact @root_distinct. Qed.
Print Assumptions C45_own_roots_when_texts_are_distinct.

Definition ex_ar (n : string) (w : string) : amatch := AMRule (bs n) {| ar_input := bs w; ar_disc := [{| d_index := 0; d_content := bs w; d_container := PatModel.CGroup {| g_name := bs n; g_list := [bs w] |} |}]; ar_prefix := []; ar_suffix := [] |}.
Definition ex_at (n : string) (l : list amatch) : atoken := AToken (bs n) 0 l.
Definition ex_group (n : string) (l : list atoken) : amatch := AMToken (bs n) l.
(* r: a{.X} b{c{.Y} .Z} a{.W} *)
Definition ex_tree : atoken := ex_at "r" [ex_group "a" [ex_at "a" [ex_ar "X" "x"]]; ex_group "b" [ex_at "b" [ex_group "c" [ex_at "c" [ex_ar "Y" "y"]]; ex_ar "Z" "z"]]; ex_group "a" [ex_at "a" [ex_ar "W" "w"]]].
Example C45_example :
  distinct_texts ex_tree /\ exists r, fst (to_root ex_tree []) = Ok (Some r) /\ map no_name (ro_nodes r) = [bs "a"; bs "b"] /\ map no_content (ro_nodes r) = [bs "xw"; bs "yz"].
Proof.
  split; [|eexists; split; [vm_compute; reflexivity|split; vm_compute; reflexivity]].
  assert (Q : forall n w, distinct_texts (ex_at n [ex_ar n w]) /\ forall k, distinct_texts (ex_at n [ex_ar k w])).
  { assert (Q' : forall n k w, distinct_texts (ex_at n [ex_ar k w])); [|split; auto]. intros n k w. constructor; [intros a m x b m' y z E; cbn in E|intros m x I; cbn in I].
    - destruct a as [|e [|e' a]]; discriminate.
    - destruct I as [I|[]]. discriminate. }
  constructor.
  - intros a n x b m y z E Iy Iz. cbn in E. destruct a as [|e0 [|e1 [|e2 [|e3 a]]]]; cbn in E; inversion E; subst; cbn in Iy;
      repeat (destruct Iy as [Iy|Iy]; [inversion Iy; subst; cbn in Iz; repeat (destruct Iz as [<-|Iz]; [vm_compute; discriminate|]); destruct Iz|]); destruct Iy.
  - intros n x I. cbn in I. repeat (destruct I as [I|I]; [inversion I; subst; clear I|]); try destruct I; try apply Q.
    constructor.
    + intros a n x b m y z E Iy Iz. cbn in E. destruct a as [|e0 [|e1 [|e2 a]]]; cbn in E; inversion E; subst; cbn in Iy; repeat (destruct Iy as [Iy|Iy]; [discriminate|]); destruct Iy.
    + intros n x I. cbn in I. destruct I as [I|[I|[]]]; inversion I; subst. apply Q.
Qed.
(* two tokens with equal texts: the container of the first gets the root of the second *)
Theorem C45_own_roots_refuted :
  exists t r c r', solid t /\ fst (to_root t []) = Ok (Some r) /\ container_in c (ro_nodes r) /\ co_root c = Some r' /\ co_name c = bs "a" /\ ro_name r' = bs "b" /\ map no_name (ro_nodes r') = [bs "Y"].
Proof.
  exists (ex_at "r" [ex_group "a" [ex_at "a" [ex_ar "X" "x"]]; ex_group "b" [ex_at "b" [ex_ar "Y" "x"]]]). eexists _, _, _. split; [|split; [vm_compute; reflexivity|]].
  - assert (S : forall n k, bs n <> [] -> bs k <> [] -> solid (ex_at n [ex_ar k "x"])).
    { intros n k Hn Hk. constructor; [exact Hn|discriminate|intros e [<-|[]]; split; [exact Hk|discriminate]|intros m x [I|[]]; discriminate]. }
    constructor; [discriminate|discriminate|intros e [<-|[<-|[]]]; split; discriminate|]. intros n x [I|[I|[]]]; inversion I; subst; apply S; discriminate.
  - split; [eexists; split; [apply ni_here; left; reflexivity|left; reflexivity]|]. split; [reflexivity|]. repeat split.
Qed.
Print Assumptions C45_own_roots_refuted.

(* ---- C66: every syntax tree of the parser has a root ---- *)
Theorem C66_syntax_trees_have_roots :
  forall channels root fuel script st a s, (forall p, among channels p -> plain p) -> plain root ->
  fst (to_ast channels fuel root false script st) = Ok (ASuccess a) ->
  exists r, fst (to_root a s) = Ok (Some r) /\ ro_name r = el_name (pa_element root) /\ exists rest, script = ro_content r ++ rest.
Proof.
  intros channels root fuel script st a s Hc Hr H. destruct (ast_success_text channels root fuel script st a Hc Hr H) as (rest & Es & _).
  destruct (fst (to_token channels fuel root script st)) as [t| | |] eqn:E; [|unfold to_ast in H; destruct (to_token _ _ _ _ _) as [q s']; cbn in E; subst q; discriminate..].
  destruct (ast_decides channels root fuel script st t Hc Hr E) as [A1 A2]. destruct (tok_valid t) eqn:V; [|destruct (A2 eq_refl) as (m & Em & _); congruence].
  destruct (A1 eq_refl) as (a' & Ea & _ & Nm & _ & So). rewrite H in Ea. inversion Ea; subst a'. destruct (root_answers a s) as [R _]. destruct (R So) as (r & Er & M). exists r. split; [exact Er|]. inversion M; subst. cbn [ro_name ro_content at_name] in *. split; [exact Nm|]. exists rest. reflexivity.
Qed.
Print Assumptions C66_syntax_trees_have_roots.
Example C66_example :
  plain ex_word /\ exists a r, fst (to_ast (always [ex_space]) 20 ex_word false (bs "x  bb c rest") (lst_init false)) = Ok (ASuccess a) /\ fst (to_root a []) = Ok (Some r) /\ map no_name (ro_nodes r) = [bs "x"; bs " "; bs "b"] /\ ro_content r = bs "x  bb c ".
Proof. split; [exact ex_word_plain|]. eexists _, _. split; [vm_compute; reflexivity|]. split; [vm_compute; reflexivity|]. split; vm_compute; reflexivity. Qed.
(* with a not-block: r: .X --- .Y reads nothing and has no root (nil without an error) *)
Theorem C66_not_block_refuted :
  exists root fuel script t a, good_path root /\ fst (to_token (always []) fuel root script (lst_init false)) = Ok t /\ tok_valid t = true /\ ast_tok t = Ok a /\ fst (to_root a []) = Ok None.
Proof.
  exists (ex_path (Element (bs "r") [[ex_one "x"]] (Some [[ex_one "y"]])) []), 9, (bs "z"). eexists _, _. split; [|split; [vm_compute; reflexivity|split; [vm_compute; reflexivity|split; vm_compute; reflexivity]]].
  split; [|intros n e H; discriminate]. intros c Hc r Hr. cbn in Hc. destruct Hc as [(l & [<-|[]] & [Hc|[]])|(ls & [= <-] & l & [<-|[]] & [Hc|[]])]; inversion Hc; subst; inversion Hr; subst; apply ex_good_rule; discriminate.
Qed.
Print Assumptions C66_not_block_refuted.

(* ---- C47: Scan ---- *)
(* in_nodes is spelled out *)
Theorem C47_finds_only_what_is_asked_for :
  forall name l x, scan_nodes name l (SFound x) ->
  match x with FRoot _ => False | FNode n => node_in n l /\ no_name n = name | FContainer c => container_in c l /\ co_name c = name end.
Proof. exact @scan_sound. Qed.
Print Assumptions C47_finds_only_what_is_asked_for.

Theorem C47_fails_only_if_absent :
  forall name l o,
  scan_nodes name l o -> (exists x, o = SFound x) \/ (o = SError /\ (forall n, node_in n l -> no_name n <> name) /\ (forall c, container_in c l -> co_name c <> name)).
Proof. exact @scan_complete. Qed.
Print Assumptions C47_fails_only_if_absent.

Theorem C47_every_order_answers :
  forall name r order, Permutation (ro_nodes r) order -> exists o, scan_node_list name order o.
Proof. exact @scan_total. Qed.
Print Assumptions C47_every_order_answers.

Theorem C47_roots_of_trees_find_nodes_only :
  forall t s r name o,
  fst (to_root t s) = Ok (Some r) -> scan_nodes name (ro_nodes r) o ->
  (exists n, o = SFound (FNode n) /\ node_in n (ro_nodes r) /\ no_name n = name) \/ (o = SError /\ forall n, node_in n (ro_nodes r) -> no_name n <> name).
Proof. exact @scan_made. Qed.
Print Assumptions C47_roots_of_trees_find_nodes_only.

Theorem C47_root_scan :
  forall name r x, scan_root name r (SFound x) ->
  match x with
  | FRoot r' => r' = r /\ ro_name r = name
  | FNode n => ro_name r <> name /\ node_in n (ro_nodes r) /\ no_name n = name
  | FContainer c => ro_name r <> name /\ container_in c (ro_nodes r) /\ co_name c = name
  end.
Proof. intros name r x H. apply scan_root_sound in H. destruct x; exact H. Qed.
Print Assumptions C47_root_scan.
Definition ex_root : root := match fst (to_root ex_tree []) with Ok (Some r) => r | _ => Root [] [] [] end.
Example C47_example : exists n, scan_nodes (bs "c") (ro_nodes ex_root) (SFound (FNode n)) /\ no_content n = bs "y".
Proof.
  eexists. split.
  - eapply sn_order; [apply Permutation_refl|]. vm_compute. eapply snl_next; [apply sd_in; [discriminate|]; eapply sc_next; [apply sk_root; [discriminate|]; eapply sn_order; [apply Permutation_refl|]; cbn; eapply snl_next; [apply sd_in; [discriminate|]; eapply sc_next; [apply sk_no_root; discriminate|discriminate|constructor]|discriminate|constructor]|discriminate|]; eapply sc_next; [apply sk_root; [discriminate|]; eapply sn_order; [apply Permutation_refl|]; cbn; eapply snl_next; [apply sd_in; [discriminate|]; eapply sc_next; [apply sk_no_root; discriminate|discriminate|constructor]|discriminate|constructor]|discriminate|constructor]|discriminate|].
    apply snl_found. apply sd_in; [discriminate|]. apply sc_found. apply sk_root; [discriminate|]. eapply sn_order; [apply Permutation_refl|]. cbn. apply snl_found. apply (sd_here (bs "c")).
  - reflexivity.
Qed.
(* which node is found can depend on Go's map iteration: r: a{b{.X}} b{.Y} *)
Theorem C47_deterministic_refuted :
  exists t r x y, solid t /\ fst (to_root t []) = Ok (Some r) /\ scan_nodes (bs "b") (ro_nodes r) (SFound x) /\ scan_nodes (bs "b") (ro_nodes r) (SFound y) /\ x <> y.
Proof.
  exists (ex_at "r" [ex_group "a" [ex_at "a" [ex_group "b" [ex_at "b" [ex_ar "X" "x"]]]]; ex_group "b" [ex_at "b" [ex_ar "Y" "y"]]]).
  assert (S : forall n k w, bs n <> [] -> bs k <> [] -> bs w <> [] -> solid (ex_at n [ex_ar k w])).
  { intros n k w Hn Hk Hw. constructor; [exact Hn|discriminate|intros e [<-|[]]; split; [exact Hk|cbn; exact Hw]|intros m x [I|[]]; discriminate]. }
  eexists _, _, _. split; [|split; [vm_compute; reflexivity|split; [|split]]].
  - constructor; [discriminate|discriminate|intros e [<-|[<-|[]]]; split; discriminate|]. intros n x [I|[I|[]]]; inversion I; subst; [|apply S; discriminate]. constructor; [discriminate|discriminate|intros e [<-|[]]; split; discriminate|]. intros m y [J|[]]; inversion J; subst. apply S; discriminate.
  - eapply sn_order; [apply Permutation_refl|]. apply snl_found. apply sd_in; [discriminate|]. apply sc_found. apply sk_root; [discriminate|]. eapply sn_order; [apply Permutation_refl|]. cbn. apply snl_found. apply (sd_here (bs "b")).
  - eapply sn_order; [apply perm_swap|]. apply snl_found. apply (sd_here (bs "b")).
  - discriminate.
Qed.
Print Assumptions C47_deterministic_refuted.
