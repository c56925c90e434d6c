(* EvtProofs6.v - no syntax tree of the base language makes the events fail, in any order. *)
From Coq Require Import Strings.String Strings.Byte Sorting.Permutation Lia.
From Verif Require Import Go GoLemmas RuleModel RootModel RootSpec RootProofs RootProofs2 ParseModel ParseSpec ParseProofs BaseModel BaseSpec EvtModel EvtSpec EvtProofs EvtProofs2 EvtProofs3 EvtProofs4 EvtProofs5.
Open Scope string_scope.
Open Scope list_scope.

Section Main.
Variable bitsize : N.
Variable parse_float : bytes -> N -> option N.
Notation base := (base_events bitsize parse_float).
Notation means := (means bitsize parse_float).
Notation each := (each bitsize parse_float).

Definition tree (n : string) (r : root) : Prop := (exists x, means n r x) \/ (n = "variableName" /\ exists w, spells r w).
Definition token (n : string) : bool := existsb (String.eqb n) (map fst (bodies bitsize parse_float)).
Definition single (n : string) : bool := negb (existsb (String.eqb n) ["headerVariable"; "instruction"; "commaAssigneeFirst"; "commaAssigneeName"; "commaAssignable"; "commaVariableDeclaration"; "indexValue"]).
Definition fine (n : string) (ps : list part) : Prop :=
  (forall q, In (K q) ps -> tree n q) /\ (forall w, In (T w) ps -> token n = false /\ (n = "KEYNAME_PATTERN" -> w <> [])) /\ (token n = true \/ n = "KEYNAME_PATTERN" -> ps <> []) /\ (token n = true -> single n = true -> length ps = 1).
Definition good (k : node) : Prop := exists n ps, k = part_node (n, ps) /\ fine n ps.
Definition goods (r : root) : Prop := forall k, node_in k (ro_nodes r) -> good k.

Lemma token_not_blank n : token n = true -> blank_name n = false.
Proof.
  intros H. destruct (blank_name n) eqn:E; [|reflexivity]. exfalso. unfold blank_name in E. apply existsb_exists in E. destruct E as (x & I & E). apply String.eqb_eq in E. subst x.
  cbn in I. repeat (destruct I as [<-|I]; [vm_compute in H; discriminate|]). destruct I.
Qed.
Lemma blank_fine n ps : blank (n, ps) -> fine n ps.
Proof.
  intros (B & ws & E). cbn in B, E. subst ps. assert (X : token n = false /\ n <> "KEYNAME_PATTERN").
  { repeat (destruct B as [<-|B]; [split; [reflexivity|discriminate]|]). destruct B. }
  destruct X as [X Nk]. split; [|split; [|split]].
  - intros q I. apply in_map_iff in I. destruct I as (p & Y & _). discriminate.
  - intros w _. split; [exact X|intros; congruence].
  - intros [Y|Y]; congruence.
  - congruence.
Qed.
Lemma goods_parts r l : parts r l -> (forall n ps, In (n, ps) l -> fine n ps /\ forall q, In (K q) ps -> goods q) -> goods r.
Proof.
  intros P H k Hk. inversion Hk as [? ? I|? y c q ? I Hc Eq Hn]; subst; destruct (parts_names _ _ _ P I) as (n & ps & J & ->).
  - exists n, ps. split; [reflexivity|]. destruct J as [J|J]; [apply H; exact J|apply blank_fine; exact J].
  - cbn [no_list part_node fst snd] in Hc. apply in_map_iff in Hc. destruct Hc as ([w|q'] & <- & Hp); [discriminate|]. cbn in Eq. injection Eq as ->. destruct J as [J|J]; [|destruct (blank_no_root _ _ _ J Hp)]. apply (proj2 (H n ps J) q Hp). exact Hn.
Qed.
Lemma spells_goods q w : spells q w -> goods q.
Proof.
  intros H. inversion H as [r a b w' P E Ne]; subst. apply (goods_parts _ _ P). intros n ps I.
  assert (X : exists l, ps = map T l /\ token n = false /\ n <> "KEYNAME_PATTERN") by (destruct I as [I|[I|[]]]; injection I as <- <-; eexists; (split; [reflexivity|split; [reflexivity|discriminate]])).
  destruct X as (l & -> & Tk & Nk). split; [|intros p Hp; apply in_map_iff in Hp; destruct Hp as (? & ? & _); discriminate]. split; [|split; [|split]].
  - intros p Hp. apply in_map_iff in Hp. destruct Hp as (? & ? & _). discriminate.
  - intros u _. split; [exact Tk|intros; congruence].
  - intros [X|X]; congruence.
  - intros X. congruence.
Qed.
Lemma fine_tokens n l : l <> [] -> (single n = true -> length l = 1) -> (forall q, In q l -> tree n q) -> fine n (map K l).
Proof.
  intros Ne Sg H. split; [|split; [|split]].
  - intros q I. apply in_map_iff in I. destruct I as (p & E & I). injection E as <-. apply H. exact I.
  - intros w I. apply in_map_iff in I. destruct I as (p & E & _). discriminate.
  - intros _. destruct l; [congruence|discriminate].
  - intros _ X. rewrite map_length. auto.
Qed.
Lemma fine_texts n l : token n = false -> n <> "KEYNAME_PATTERN" -> fine n (map T l).
Proof.
  intros E Nk. split; [|split; [|split]].
  - intros q I. apply in_map_iff in I. destruct I as (p & X & _). discriminate.
  - intros w _. split; [exact E|intros; congruence].
  - intros [X|X]; congruence.
  - congruence.
Qed.
Lemma fine_key w : w <> [] -> fine "KEYNAME_PATTERN" [T w].
Proof. intros Ne. split; [|split; [|split]]; [intros q [X|[]]; discriminate|intros u [X|[]]; injection X as <-; split; [reflexivity|auto]|discriminate|discriminate]. Qed.
Lemma each_tree n l xs : each n l xs -> forall q, In q l -> tree n q.
Proof. induction 1 as [|n q l x o H He IH]; intros p I; [destruct I|]. destruct I as [<-|I]; [left; exists x; exact H|apply IH; exact I]. Qed.

Ltac split_in I := repeat (destruct I as [I|I]; [injection I as <- <-|]); [..|destruct I].
Lemma means_goods : (forall n r x, means n r x -> goods r) /\ (forall n l xs, each n l xs -> forall q, In q l -> goods q).
Proof.
  apply means_each_ind; intros.
  all: try match goal with
    | P : parts ?r (_ :: some _ ?cs) |- goods ?r => destruct cs
    end.
  all: repeat match goal with H : In _ (_ :: _) |- goods _ => destruct H as [H|H] | H : (_, _) = (_, _) |- _ => injection H as <- <- | H : In _ [] |- _ => destruct H end; subst.
  all: try match goal with
    | P : parts ?r _ |- goods ?r => apply (goods_parts _ _ P); let n := fresh "n" in let ps := fresh "ps" in let I := fresh "I" in intros n ps I; unfold some in I; split_in I; rewrite <- ?map_cons; (split;
       [ first [ apply (fine_texts _ [_]); [reflexivity|discriminate] | apply (fine_texts _ [_; _]); [reflexivity|discriminate] | apply fine_texts; [reflexivity|discriminate] | apply fine_key; assumption
               | apply (fine_tokens _ [_]); [discriminate|reflexivity|intros q' [<-|[]]; first [left; eexists; eassumption | right; split; [reflexivity|eexists; eassumption]]]
               | apply (fine_tokens _ [_; _]); [discriminate|discriminate|intros q' [<-|[<-|[]]]; left; eexists; eassumption]
               | apply fine_tokens; [first [assumption|discriminate]|discriminate|eapply each_tree; eassumption]
               | idtac ]
       | let p := fresh "p" in let J := fresh "J" in intros p J; first [ solve [apply in_map_iff in J; destruct J as (? & ? & _); discriminate] | solve [apply in_map_iff in J; destruct J as (? & E & J); injection E as <-; auto]
          | cbn in J; repeat (destruct J as [J|J]; [first [discriminate | injection J as <-; first [assumption | eapply spells_goods; eassumption]]|]); destruct J ] ])
    end.
  all: try (intros ? []; fail).
  all: try match goal with H : forall q, In q (?r0 :: ?cs) -> goods q |- goods ?p => apply H end.
  all: try match goal with J : In (K ?p) (map K ?l) |- In ?p ?l => apply in_map_iff in J; destruct J as (? & E & J); injection E as <-; exact J end.
  all: auto.
Qed.

Lemma tree_goods n r : tree n r -> goods r.
Proof. intros [[x H]|[_ [w H]]]; [exact (proj1 means_goods n r x H)|eapply spells_goods; exact H]. Qed.

(* ---- what Trigger gives ---- *)
Definition right (n : string) (v : val) : Prop :=
  match v with
  | VObj y => kind n y
  | VText w => (n = "variableName" \/ n = "KEYNAME_PATTERN") /\ w <> []
  | _ => False
  end.
Definition never_fails (n : string) (r : root) : Prop := forall o, execute_events base (bs n) r o -> exists v, o = Ok (None, v) /\ right n v.
Lemma list_right n ps : (token n = true \/ n = "KEYNAME_PATTERN") -> fine n ps -> (forall q, In (K q) ps -> never_fails n q) ->
  forall o, event_list base (bs n) (map (part_container n) ps) o -> exists xs, o = Ok xs /\ Forall (right n) xs /\ length xs = length ps.
Proof.
  intros Tk (F1 & F2 & F3 & F4) H. assert (G : forall p, In p ps -> forall o, fetch_or_execute base (bs n) (part_container n p) o -> exists v, o = Ok (None, v) /\ right n v).
  { intros [w|q] I o Ho.
    - inversion Ho as [E|q o' E]; subst; [|discriminate]. exists (VText w). split; [reflexivity|]. destruct (F2 w I) as [A B]. destruct Tk as [Tk|Tk]; [congruence|]. split; [right; exact Tk|apply B; exact Tk].
    - inversion Ho as [E|q' o' E He]; subst; [discriminate|]. injection E as <-. eapply H; eassumption. }
  clear F1 F2 F3 F4 H Tk. induction ps as [|p ps IH]; intros o Ho.
  - inversion Ho; subst. exists []. repeat split. constructor.
  - cbn [map] in Ho. inversion Ho as [|c cs l ins o' Fo L|c cs Fo|c cs Fo]; subst; destruct (G p (or_introl eq_refl) _ Fo) as (v & E & R); try discriminate. injection E as -> ->.
    destruct (IH (fun p I => G p (or_intror I)) _ L) as (xs & -> & Rs & Len). exists (v :: xs). repeat split; [constructor; assumption|cbn; congruence].
Qed.
(* the containers of good nodes bear the names of their nodes, so that no container is found by itself *)
Definition named (l : list node) : Prop := forall k, node_in k l -> forall c, In c (no_list k) -> co_name c = no_name k.
Lemma goods_named r : goods r -> named (ro_nodes r).
Proof.
  intros G k Hk c Hc. destruct (G k Hk) as (n & ps & -> & _). cbn [no_list part_node fst snd] in Hc. apply in_map_iff in Hc. destruct Hc as ([w|q] & <- & _); reflexivity.
Qed.
Lemma named_sub l l' : (forall n, In n l' -> In n l) -> named l -> named l'.
Proof. intros S N k Hk. apply N. inversion Hk; subst; [apply ni_here; auto|eapply ni_deep; eauto]. Qed.
Lemma no_container name :
  (forall l o, scan_nodes name l o -> named l -> forall c, o <> SFound (FContainer c)) /\
  (forall l o, scan_node_list name l o -> named l -> forall c, o <> SFound (FContainer c)) /\
  (forall n o, scan_node name n o -> named [n] -> forall c, o <> SFound (FContainer c)) /\
  (forall l o, scan_containers name l o -> (forall c, In c l -> co_name c <> name /\ forall r, co_root c = Some r -> named (ro_nodes r)) -> forall c, o <> SFound (FContainer c)) /\
  (forall c o, scan_container name c o -> (co_name c <> name /\ forall r, co_root c = Some r -> named (ro_nodes r)) -> forall d, o <> SFound (FContainer d)).
Proof.
  apply scan_ind.
  - intros l l' o P _ IH N. apply IH. eapply named_sub; [|exact N]. intros n. apply Permutation_in, Permutation_sym. exact P.
  - discriminate.
  - intros n l x _ IH N. apply IH. eapply named_sub; [|exact N]. intros k [<-|[]]. left. reflexivity.
  - intros n l o o' _ _ _ _ IH N. apply IH. eapply named_sub; [|exact N]. intros k Hk. right. exact Hk.
  - discriminate.
  - intros n l o Ne _ IH N. apply IH. intros c Hc. assert (X : co_name c = no_name (Node n l)) by (apply N; [apply ni_here; left; reflexivity|exact Hc]). split; [rewrite X; exact Ne|]. intros r E k Hk. apply N. eapply ni_deep; [left; reflexivity|exact Hc|exact E|exact Hk].
  - discriminate.
  - intros c l x _ IH N. apply IH. apply N. left. reflexivity.
  - intros c l o o' _ _ _ _ IH N. apply IH. intros d Hd. apply N. right. exact Hd.
  - intros t o [Ne _]. destruct (Ne eq_refl).
  - discriminate.
  - intros t n r o _ _ IH [_ N]. apply IH. apply N. reflexivity.
Qed.
Lemma finds_node name r o : goods r -> (exists y, In y (ro_nodes r) /\ no_name y = name) -> scan_nodes name (ro_nodes r) o -> exists k, o = SFound (FNode k) /\ node_in k (ro_nodes r) /\ no_name k = name.
Proof.
  intros G (y & Iy & Ey) H. destruct o as [x| |].
  - assert (S := scan_sound _ _ _ H). destruct x as [r0|k|c]; [destruct S|destruct S as [A B]; exists k; auto|]. exfalso. eapply (proj1 (no_container name)); [exact H|apply goods_named; exact G|reflexivity].
  - exfalso. refine (proj1 (proj1 (scan_complete_all name) _ _ H _ y (ni_here _ _ Iy)) Ey). auto.
  - exfalso. refine (proj1 (proj1 (scan_complete_all name) _ _ H _ y (ni_here _ _ Iy)) Ey). auto.
Qed.
Lemma node_inside k r c q : node_in k (ro_nodes r) -> In c (no_list k) -> co_root c = Some q -> inside q r.
Proof. intros H Hc E. exists c. split; [exists k; auto|exact E]. Qed.
Lemma trigger_right r n : goods r -> has r n = true -> (token n = true \/ n = "KEYNAME_PATTERN") -> (forall q, inside q r -> tree n q -> never_fails n q) ->
  forall o, trigger base (bs n) r o -> exists xs, o = Ok (VResult xs) /\ Forall (right n) xs /\ xs <> [] /\
    (n <> "KEYNAME_PATTERN" -> single n = true -> length xs = 1) /\ exists ps, node_in (part_node (n, ps)) (ro_nodes r) /\ length xs = length ps.
Proof.
  intros G Hn Tk IH o H. assert (Y : exists y, In y (ro_nodes r) /\ no_name y = bs n).
  { unfold has in Hn. apply existsb_exists in Hn. destruct Hn as (y & I & E). exists y. split; [exact I|]. apply bytes_eqb_eq. exact E. }
  assert (S := fun o => finds_node (bs n) r o G Y).
  inversion H as [Hs|Hs E|q o' Hs|k o' Hs L|c o' Hs]; subst; destruct (S _ Hs) as (k' & E & Hk & Nk); try discriminate. injection E as ->.
  destruct (G k' Hk) as (n' & ps & -> & F). cbn [no_name part_node fst] in Nk. apply bs_inj in Nk. subst n'. cbn [no_list part_node fst snd] in L.
  assert (J : forall q, In (K q) ps -> never_fails n q).
  { intros q Hq. apply IH; [|apply (proj1 F); exact Hq]. eapply node_inside; [exact Hk|exact (in_map (part_container n) ps (K q) Hq)|reflexivity]. }
  destruct (list_right n ps Tk F J _ L) as (xs & -> & R & Len). assert (Ne : xs <> []) by (assert (X := proj1 (proj2 (proj2 F)) Tk); intros ->; destruct ps; [congruence|discriminate]).
  exists xs. split; [destruct xs; [congruence|reflexivity]|]. split; [exact R|]. split; [exact Ne|]. split; [intros Nk Sg; rewrite Len; apply F; [destruct Tk; [assumption|congruence]|exact Sg]|]. exists ps. split; [exact Hk|exact Len].
Qed.

(* ---- all the outcomes of a program ---- *)
Definition all {A} (t : bytes -> res val -> Prop) (p : prog A) (P : A -> Prop) : Prop := forall o, runs t p o -> exists a, o = Ok a /\ P a.
Lemma all_ret {A} t (a : A) (P : A -> Prop) : P a -> all t (Ret (Ok a)) P.
Proof. intros H o R. inversion R; subst. exists a. auto. Qed.
Lemma all_ret_eq {A} t (r : res A) (a : A) (P : A -> Prop) : r = Ok a -> P a -> all t (Ret r) P.
Proof. intros ->. apply all_ret. Qed.
Lemma all_ret_is {A} t (r : res A) (a : A) : r = Ok a -> all t (Ret r) (fun x => x = a).
Proof. intros ->. apply all_ret. reflexivity. Qed.
Lemma all_now {X} t (f : X -> obj) (r : res X) x (P : val -> Prop) : r = Ok x -> P (VObj (f x)) -> all t (now f r) P.
Proof. intros -> H. apply all_ret. exact H. Qed.
Lemma all_bind {A B} t (p : prog A) (f : A -> prog B) (P : A -> Prop) (Q : B -> Prop) : all t p P -> (forall a, P a -> all t (f a) Q) -> all t (pbind p f) Q.
Proof.
  intros H F o R. apply bind_runs in R. destruct R as [(a & X & Y)|[(X & _)|[(X & _)|(X & _)]]]; destruct (H _ X) as (b & E & Pb); try discriminate. injection E as <-. exact (F a Pb o Y).
Qed.
Lemma all_weak {A} t (p : prog A) (P Q : A -> Prop) : all t p P -> (forall a, P a -> Q a) -> all t p Q.
Proof. intros H W o R. destruct (H o R) as (a & E & X). exists a. auto. Qed.
Lemma all_trig (t : bytes -> res val -> Prop) n (P : val -> Prop) : (forall o, t (bs n) o -> exists v, o = Ok v /\ P v) -> all t (trig n) P.
Proof.
  intros H o R. inversion R as [|? ? u ? Ht Hr|? ? Ht|? ? Ht]; subst; destruct (H _ Ht) as (v & E & X); try discriminate. injection E as <-. inversion Hr; subst. exists u. auto.
Qed.
Lemma all_get {X} (t : bytes -> res val -> Prop) n (f : obj -> option X) (P : X -> Prop) : (forall o, t (bs n) o -> exists v, o = Ok v /\ exists x l, v = VResult (x :: l) /\ right n x) ->
  (forall v, right n v -> exists y x, v = VObj y /\ f y = Some x /\ P x) -> all t (get n f) P.
Proof.
  intros H F. eapply all_bind; [apply all_trig; exact H|]. cbv beta. intros v (x & l & -> & R). destruct (F x R) as (y & z & -> & E & Pz). cbn. rewrite E. apply all_ret. exact Pz.
Qed.
Lemma all_text (t : bytes -> res val -> Prop) n (P : bytes -> Prop) : (forall o, t (bs n) o -> exists v, o = Ok v /\ exists x l, v = VResult (x :: l) /\ right n x) ->
  (forall v, right n v -> exists w, v = VText w /\ P w) -> all t (get_text n) P.
Proof.
  intros H F. eapply all_bind; [apply all_trig; exact H|]. cbv beta. intros v (x & l & -> & R). destruct (F x R) as (w & -> & Pz). cbn. apply all_ret. exact Pz.
Qed.
Lemma all_opt_some {X} t r n (p : prog X) (P : X -> Prop) : has r n = true -> all t p P -> all t (opt r n p) (fun o => exists x, o = Some x /\ P x).
Proof. intros E H. unfold opt. rewrite E. eapply all_bind; [exact H|]. intros a Pa. apply all_ret. exists a. auto. Qed.
Lemma all_opt_none {X} t r n (p : prog X) : has r n = false -> all t (opt r n p) (fun o => o = None).
Proof. intros E. unfold opt. rewrite E. apply all_ret. reflexivity. Qed.
Lemma all_name_some (t : bytes -> res val -> Prop) r : has r "variableName" = true -> (forall o, t (bs "variableName") o -> exists v, o = Ok v /\ exists x l, v = VResult (x :: l) /\ right "variableName" x) -> all t (name_opt r) (fun w => w <> []).
Proof.
  intros E H. eapply all_bind; [apply all_opt_some; [exact E|apply (all_text _ _ (fun w => w <> [])); [exact H|]]|].
  - intros v R. destruct v as [|w|l|l|y]; try destruct R as []; [|destruct y; cbn in R; intuition discriminate]. exists w. auto.
  - intros a (x & -> & N). apply all_ret. exact N.
Qed.
Lemma all_name_none t r : has r "variableName" = false -> all t (name_opt r) (fun w => w = []).
Proof. intros E. eapply all_bind; [apply all_opt_none; exact E|]. intros a ->. apply all_ret. reflexivity. Qed.
Lemma all_of_right {X} c (f : obj -> option X) xs : (forall v, right c v -> exists y x, v = VObj y /\ f y = Some x /\ True) -> Forall (right c) xs -> exists l, EvtModel.all_of f (VResult xs) = Ok l /\ length l = length xs.
Proof.
  intros H F. unfold EvtModel.all_of. cbn [list_of]. induction F as [|v xs Hv F (l & E & Len)]; [exists []; split; reflexivity|]. destruct (H v Hv) as (y & x & -> & Ex & _). exists (x :: l). cbn. rewrite Ex. cbn. rewrite E. cbn. split; [reflexivity|congruence].
Qed.

(* ---- the events ---- *)
Definition fails_not_below (r : root) : Prop := forall n q, inside q r -> tree n q -> never_fails n q.
Notation tr r := (fun name => trigger base name r).
Definition answers (n : string) (o : res val) : Prop := exists v, o = Ok v /\ exists xs, v = VResult xs /\ Forall (right n) xs /\ xs <> [] /\ (n <> "KEYNAME_PATTERN" -> single n = true -> length xs = 1).
Lemma tr_right r n : goods r -> fails_not_below r -> has r n = true -> (token n = true \/ n = "KEYNAME_PATTERN") -> forall o, tr r (bs n) o -> answers n o.
Proof. intros G B H Tk o Ho. destruct (trigger_right r n G H Tk (B n) o Ho) as (xs & -> & R & Ne & S & _). exists (VResult xs). split; [reflexivity|]. exists xs. auto. Qed.
Lemma answers_first n o : answers n o -> exists v, o = Ok v /\ exists x l, v = VResult (x :: l) /\ right n x.
Proof. intros (v & -> & xs & -> & F & Ne & _). exists (VResult xs). split; [reflexivity|]. destruct F as [|x l Hx F]; [destruct (Ne eq_refl)|]. exists x, l. auto. Qed.
Definition object (n : string) (v : val) : Prop := exists y, unwrap v = (None, VObj y) /\ kind n y.
Lemma event_right n b r : body_of bitsize parse_float (bs n) = Some b -> all (tr r) (b r) (object n) -> never_fails n r.
Proof.
  intros E H o Ho. apply base_fix in Ho. rewrite E in Ho. destruct Ho as (v & Hr & _ & ->). destruct (H v Hr) as (u & -> & y & U & Ky). exists (VObj y). cbn. rewrite U. auto.
Qed.
Lemma answers_forward n m o : answers n o -> n <> "KEYNAME_PATTERN" -> n <> "variableName" -> single n = true -> (forall y, kind n y -> kind m y) -> exists v, o = Ok v /\ object m v.
Proof.
  intros (v & -> & xs & -> & F & Ne & S) Nk Nv Sg W. exists (VResult xs). split; [reflexivity|]. specialize (S Nk Sg). destruct F as [|x [|z l] Hx F]; [discriminate| |discriminate].
  destruct x as [|w|l|l|y]; [destruct Hx|destruct Hx as [[X|X] _]; congruence|destruct Hx|destruct Hx|]. exists y. split; [reflexivity|apply W; exact Hx].
Qed.
Lemma all_forward (t : bytes -> res val -> Prop) n m : (forall o, t (bs n) o -> answers n o) -> n <> "KEYNAME_PATTERN" -> n <> "variableName" -> single n = true -> (forall y, kind n y -> kind m y) -> all t (forward n) (object m).
Proof. intros H A B C D. apply all_trig. intros o Ho. eapply answers_forward; eauto. Qed.
Ltac total := let v := fresh "v" in let R := fresh "R" in intros v R; destruct v as [|?|?|?|y]; cbn in R;
  [destruct R|solve [destruct R as [[X|X] X']; first [discriminate|eexists; split; [reflexivity|exact X']]]|destruct R|destruct R|destruct y; cbn in R; first [solve [exfalso; intuition discriminate] | eexists; eexists; split; [reflexivity|split; [reflexivity|exact I]]]].
Ltac has_is := match goal with P : parts ?r _ |- has ?r _ = _ => rewrite (has_parts _ _ _ P) by reflexivity; reflexivity end.
Ltac tok := match goal with G : goods ?r, B : fails_not_below ?r |- forall o, trigger _ (bs _) ?r o -> _ => apply (tr_right r _ G B); [has_is|first [left; reflexivity|right; reflexivity]] end.
Ltac toks := let o := fresh "o" in let H := fresh "H" in intros o H; apply answers_first; revert o H; tok.
Ltac known := cbv beta in *; repeat match goal with
  | H : exists _, _ |- _ => let x := fresh "x" in destruct H as [x H]
  | H : _ /\ _ |- _ => destruct H
  | H : ?a = Some _ |- _ => subst a
  | H : ?a = None |- _ => subst a
  | H : ?a = _ |- _ => is_var a; subst a
  end.
Ltac nonempties := repeat match goal with H : ?w <> [] |- _ => is_var w; destruct w; [destruct (H eq_refl)|clear H] end.
Ltac kinds := eexists; split; [reflexivity|cbn; tauto].
Ltac use_right := repeat match goal with H : right _ ?v |- _ => is_var v; let y := fresh "y" in destruct v as [|?|?|?|y]; cbn in H; [destruct H|try (exfalso; intuition discriminate)|destruct H|destruct H|try (exfalso; intuition discriminate)] end;
  repeat match goal with H : kind _ ?y |- _ => is_var y; destruct y; cbn in H; try (exfalso; intuition discriminate); clear H | H : (_ \/ _) /\ _ |- _ => destruct H end.
Ltac go := cbv beta zeta; lazymatch goal with
  | |- all _ (Ret (Ok _)) (object _) => apply all_ret; kinds
  | |- all _ (now _ _) _ => match goal with P : parts ?r _ |- _ => rewrite ?(has_parts _ _ _ P) by reflexivity end; known; nonempties; eapply all_now; [reflexivity|kinds]
  | |- all _ (forward _) _ => apply all_forward; [tok|discriminate|discriminate|reflexivity|let y := fresh "y" in intros y; destruct y; cbn; intuition discriminate]
  | |- all _ (trig _) _ => apply all_trig; toks
  | |- all _ (get _ _) _ => eapply (all_get _ _ _ (fun _ => True)); [toks|total]
  | |- all _ (get_text _) _ => eapply (all_text _ _ (fun w => w <> [])); [toks|total]
  | |- all _ (get_opt _ _ _) _ => unfold get_opt; go
  | |- all _ (opt _ _ _) _ => first [apply all_opt_none; has_is | eapply all_opt_some; [has_is|go]]
  | |- all _ (name_opt _) _ => first [apply all_name_none; has_is | apply all_name_some; [has_is|toks]]
  | |- all _ (pbind _ _) _ => eapply all_bind; [go|let a := fresh "a" in let H := fresh "H" in intros a H; known; use_right; go]
  | |- all _ (if has ?r ?n then _ else _) _ => first [replace (has r n) with true by (symmetry; has_is) | replace (has r n) with false by (symmetry; has_is)]; cbv iota; go
  | |- all _ (Ret _) _ => apply all_ret_is; reflexivity
  end.
Ltac unfold_head t := match t with ?f _ => unfold_head f | ?f => unfold f end.
Ltac ev := eapply event_right; [reflexivity|]; cbn [snd]; match goal with |- all _ (?f ?r) _ => let h := f in unfold_head h end; go.
(* ---- where there is one reading ---- *)
Lemma clear_never n r x : means n r x -> clear r -> kind n x -> never_fails n r.
Proof.
  intros H C Kx o Ho. destruct (proj1 (means_gives True bitsize parse_float) n r x H (fun _ => C)) as [_ U]. apply (U I) in Ho. subst o. exists (VObj x). split; [reflexivity|exact Kx].
Qed.
Lemma parts_deep r l q : parts r l -> inside q r -> exists n ps p, In (n, ps) l /\ In (K p) ps /\ (q = p \/ inside q p).
Proof.
  intros P (c & (k & Hk & Hc) & E). inversion Hk as [? ? I|? y d p ? I Hd Ed Hn]; subst; destruct (parts_names _ _ _ P I) as (n & ps & J & ->); exists n, ps.
  - cbn [no_list part_node fst snd] in Hc. apply in_map_iff in Hc. destruct Hc as ([w|p] & <- & Hp); [discriminate|]. cbn in E. injection E as <-. exists p. destruct J as [J|J]; [auto|destruct (blank_no_root _ _ _ J Hp)].
  - cbn [no_list part_node fst snd] in Hd. apply in_map_iff in Hd. destruct Hd as ([w|p'] & <- & Hp); [discriminate|]. cbn in Ed. injection Ed as ->. destruct J as [J|J]; [|destruct (blank_no_root _ _ _ J Hp)]. exists p. split; [exact J|]. split; [exact Hp|]. right. exists c. split; [exists k; auto|exact E].
Qed.
Lemma blank_not_sought n ps : blank (n, ps) -> ~ sought (part_node (n, ps)).
Proof.
  intros J [(c & Hc & Ec)|S].
  - cbn [no_list part_node fst snd] in Hc. apply in_map_iff in Hc. destruct Hc as ([w|p] & <- & Hp); [apply Ec; reflexivity|]. exact (blank_no_root _ _ _ J Hp).
  - destruct J as (B & _). apply (bs_inj n "KEYNAME_PATTERN") in S. cbn in B. subst n. intuition discriminate.
Qed.
Lemma clear_texts r l : parts r l -> (forall n ps, In (n, ps) l -> n <> "KEYNAME_PATTERN" /\ exists ws, ps = map T ws) -> clear r.
Proof.
  intros P H q x y Hq Hx Hy Ne S. assert (Q : ~ inside q r).
  { intros I. destruct (parts_deep _ _ _ P I) as (n & ps & p & J & Hp & _). destruct (H n ps J) as (_ & ws & ->). apply in_map_iff in Hp. destruct Hp as (? & ? & _). discriminate. }
  destruct Hq as [->|Hq]; [|contradiction]. destruct (parts_names _ _ _ P Hy) as (n & ps & [J|J] & ->); [|destruct (blank_not_sought _ _ J S)]. destruct (H n ps J) as (Nk & ws & ->). exfalso. destruct S as [(c & Hc & Ec)|S].
  - cbn [no_list part_node fst snd] in Hc. rewrite map_map in Hc. apply in_map_iff in Hc. destruct Hc as (w & <- & _). apply Ec. reflexivity.
  - apply Nk. apply bs_inj. exact S.
Qed.
Lemma clear_one r n ps : parts r [(n, ps)] -> blank_name n = false -> (forall q, In (K q) ps -> clear q) -> clear r.
Proof.
  intros P Bn H q x y Hq Hx Hy Ne S. destruct Hq as [->|Hq].
  - destruct (parts_names _ _ _ P Hy) as (b & pb & [[Jb|[]]|Jb] & ->); [|destruct (blank_not_sought _ _ Jb S)]. injection Jb as <- <-.
    destruct (parts_names _ _ _ P Hx) as (a & pa & [[Ja|[]]|Ja] & ->); [|apply (blank_absent _ _ _ Ja Bn)]. injection Ja as <- <-. destruct (Ne eq_refl).
  - destruct (parts_deep _ _ _ P Hq) as (a & pa & p & [J|[]] & Hp & I). injection J as <- <-. apply (H p Hp q x y I Hx Hy Ne S).
Qed.
Ltac texts_clear := match goal with P : parts ?r ?l |- clear ?r => apply (clear_texts _ _ P); let n := fresh "n" in let ps := fresh "ps" in let J := fresh "J" in intros n ps J; cbn in J;
  repeat (destruct J as [J|J]; [injection J as <- <-; split; [discriminate|first [eexists; reflexivity | match goal with |- exists ws, ?q = map T ws => exists (texts q); reflexivity end]]|]); destruct J end.

(* ---- lists ---- *)
Lemma all_list {X} r c (f : obj -> option X) (Y : X -> Prop) : goods r -> fails_not_below r -> has r c = true -> (token c = true) -> (forall v, right c v -> exists y x, v = VObj y /\ f y = Some x /\ True) ->
  all (tr r) (v <-- trig c ;; Ret (EvtModel.all_of f v)) (fun l => exists ps, node_in (part_node (c, ps)) (ro_nodes r) /\ length l = length ps /\ l <> []).
Proof.
  intros G B E Tk H. eapply (all_bind _ _ _ (fun v => exists xs ps, v = VResult xs /\ Forall (right c) xs /\ xs <> [] /\ node_in (part_node (c, ps)) (ro_nodes r) /\ length xs = length ps)).
  - apply all_trig. intros o Ho. destruct (trigger_right r c G E (or_introl Tk) (B c) o Ho) as (xs & -> & R & Ne & _ & ps & A & L). exists (VResult xs). split; [reflexivity|]. exists xs, ps. auto.
  - intros v (xs & ps & -> & R & Ne & A & L). destruct (all_of_right c f xs H R) as (l & El & Len). rewrite El. apply all_ret. exists ps. split; [exact A|]. split; [exact (eq_trans Len L)|]. intros ->. destruct xs; [destruct (Ne eq_refl)|discriminate].
Qed.
Lemma all_commas {X} r n c (f : obj -> option X) q cs : parts r ((n, [K q]) :: some c cs) -> n <> c -> goods r -> fails_not_below r -> token n = true -> token c = true ->
  (forall v, right n v -> exists y x, v = VObj y /\ f y = Some x /\ True) -> (forall v, right c v -> exists y x, v = VObj y /\ f y = Some x /\ True) ->
  all (tr r) (with_commas r n c f) (fun l => l <> [] /\ (cs <> [] -> exists ps, node_in (part_node (c, ps)) (ro_nodes r) /\ length l = S (length ps) /\ ps <> [])).
Proof.
  intros P Ne G B Tn Tc Hn Hc. unfold with_commas. eapply (all_bind _ _ _ (fun _ => True)).
  - apply all_get; [|exact Hn]. intros o Ho. apply answers_first. revert o Ho. apply tr_right; [exact G|exact B| |left; exact Tn]. rewrite (has_parts _ _ _ P) by (apply token_not_blank; assumption). cbn. rewrite String.eqb_refl. reflexivity.
  - intros x _. destruct cs as [|p cs].
    + eapply all_bind; [apply all_opt_none|].
      * rewrite (has_parts _ _ _ P) by (apply token_not_blank; assumption). cbn. destruct (String.eqb_spec c n); [congruence|reflexivity].
      * intros o ->. apply all_ret. split; [discriminate|]. congruence.
    + eapply all_bind; [apply all_opt_some|].
      * rewrite (has_parts _ _ _ P) by (apply token_not_blank; assumption). cbn. rewrite String.eqb_refl. destruct (c =? n)%string; reflexivity.
      * apply (all_list r c f (fun _ => True) G B); [|exact Tc|exact Hc]. rewrite (has_parts _ _ _ P) by (apply token_not_blank; assumption). cbn. rewrite String.eqb_refl. destruct (c =? n)%string; reflexivity.
      * intros o (l & -> & ps & A & L & Nl). apply all_ret. split; [discriminate|]. intros _. exists ps. split; [exact A|]. cbn. split; [congruence|]. intros ->. destruct l; [destruct (Nl eq_refl)|discriminate].
Qed.
(* ---- what is inside of an expression ---- *)
Definition expression (n : string) : bool := negb (token n) || existsb (String.eqb n) ["totalListValue"; "variableName"; "totalListAssignable"; "listValue"; "slice"; "listAppend"; "listAssignable"; "assignables"; "commaAssignable"; "assignable"; "singleAssignable";
  "declarableValue"; "operation"; "listAssignableToAssignables"; "listFetchElement"; "listElementFetcher"; "sliceDelimiter"; "indexValue"; "computableValue"; "primitiveValue"; "floatValue"; "intValue"; "boolValue"; "stringValue"; "operationWithSuffix";
  "operationFuncCalls"; "isNullFuncCall"; "operationElement"; "operationSuffix"; "operator"; "operatorArithmetic"; "operatorRelational"; "operatorLogical"; "assigneeName"; "commaAssigneeName"].
Definition expressions (r : root) : Prop := forall k, node_in k (ro_nodes r) -> exists m, no_name k = bs m /\ expression m = true.
Lemma expressions_parts r l : parts r l -> (forall n ps, In (n, ps) l -> expression n = true /\ forall q, In (K q) ps -> expressions q) -> expressions r.
Proof.
  intros P H k Hk. inversion Hk as [? ? I|? y c q ? I Hc Eq Hn]; subst; destruct (parts_names _ _ _ P I) as (n & ps & J & ->).
  - exists n. split; [reflexivity|]. destruct J as [J|(B & _)]; [apply (H n ps J)|]. cbn in B. repeat (destruct B as [<-|B]; [reflexivity|]). destruct B.
  - cbn [no_list part_node fst snd] in Hc. apply in_map_iff in Hc. destruct Hc as ([w|q'] & <- & Hp); [discriminate|]. cbn in Eq. injection Eq as ->. destruct J as [J|J]; [|destruct (blank_no_root _ _ _ J Hp)]. apply (proj2 (H n ps J) q Hp). exact Hn.
Qed.
Lemma spells_expressions q w : spells q w -> expressions q.
Proof.
  intros H. inversion H as [r a b w' P E Ne]; subst. apply (expressions_parts _ _ P). intros n ps I. destruct I as [I|[I|[]]]; injection I as <- <-; (split; [reflexivity|]); intros p Hp; apply in_map_iff in Hp; destruct Hp as (? & ? & _); discriminate.
Qed.
Lemma means_expressions : (forall n r x, means n r x -> expression n = true -> expressions r) /\ (forall n l xs, each n l xs -> expression n = true -> forall q, In q l -> expressions q).
Proof.
  apply means_each_ind; intros.
  all: repeat match goal with H : In _ (_ :: _) |- expressions _ => destruct H as [H|H] | H : (_, _) = (_, _) |- _ => injection H as <- <- | H : In _ [] |- _ => destruct H end; subst.
  all: try (match goal with H : expression _ = true |- _ => vm_compute in H; discriminate end).
  all: try match goal with
    | P : parts ?r (_ :: some _ ?cs) |- expressions ?r => destruct cs
    end.
  all: try match goal with
    | P : parts ?r _ |- expressions ?r => apply (expressions_parts _ _ P); let n := fresh "n" in let ps := fresh "ps" in let I := fresh "I" in intros n ps I; unfold some in I; split_in I; rewrite <- ?map_cons; (split;
       [ reflexivity
       | let p := fresh "p" in let J := fresh "J" in intros p J; first [ solve [apply in_map_iff in J; destruct J as (? & ? & _); discriminate]
          | solve [apply in_map_iff in J; destruct J as (? & E & J); injection E as <-; auto]
          | cbn in J; repeat (destruct J as [J|J]; [first [discriminate | injection J as <-; first [eapply spells_expressions; eassumption | match goal with H : _ -> expressions ?q |- expressions ?q => apply H; reflexivity end]]|]); destruct J ] ])
    end.
  all: try (intros ? []; fail).
  all: auto.
Qed.
(* ---- a lone token among texts ---- *)
Lemma clear_lone r l n ps : parts r l -> (forall m qs, In (m, qs) l -> (m = n /\ qs = ps) \/ (m <> n /\ m <> "KEYNAME_PATTERN" /\ exists ws, qs = map T ws)) -> blank_name n = false -> (forall q, In (K q) ps -> clear q) -> clear r.
Proof.
  intros P H Bn C q x y Hq Hx Hy Ne S. destruct Hq as [->|Hq].
  - destruct (parts_names _ _ _ P Hy) as (b & pb & [Jb|Jb] & ->); [|destruct (blank_not_sought _ _ Jb S)]. destruct (H b pb Jb) as [[-> ->]|(Nb & Kb & ws & ->)].
    + destruct (parts_names _ _ _ P Hx) as (a & pa & [Ja|Ja] & ->); [|apply (blank_absent _ _ _ Ja Bn)]. destruct (H a pa Ja) as [[-> ->]|(Na & _ & ws & ->)]; [destruct (Ne eq_refl)|]. apply texts_absent. exact Na.
    + exfalso. destruct S as [(c & Hc & Ec)|S]; [|apply Kb; apply bs_inj; exact S]. cbn [no_list part_node fst snd] in Hc. rewrite map_map in Hc. apply in_map_iff in Hc. destruct Hc as (w & <- & _). apply Ec. reflexivity.
  - destruct (parts_deep _ _ _ P Hq) as (a & pa & p & J & Hp & I). destruct (H a pa J) as [[-> ->]|(_ & _ & ws & ->)]; [|apply in_map_iff in Hp; destruct Hp as (? & ? & _); discriminate]. apply (C p Hp q x y I Hx Hy Ne S).
Qed.
Lemma spells_clear q w : spells q w -> clear q.
Proof. intros H. inversion H as [r a b w' P E Ne]; subst. texts_clear. Qed.
Lemma index_clear q i : means "indexValue" q i -> clear q.
Proof.
  intros H. inversion H; subst; try (exfalso; match goal with H : In (_, _) _ |- _ => cbn in H; repeat (destruct H as [H|H]; [discriminate|]); destruct H end); [texts_clear|]. eapply clear_one; [eassumption|reflexivity|]. intros p [E|[]]. injection E as <-. eapply spells_clear. eassumption.
Qed.
Lemma bool_clear q v : means "boolValue" q v -> clear q.
Proof. intros H. inversion H; subst; try (exfalso; match goal with H : In (_, _) _ |- _ => cbn in H; repeat (destruct H as [H|H]; [discriminate|]); destruct H end); texts_clear. Qed.
Ltac lone := let m := fresh "m" in let qs := fresh "qs" in let J := fresh "J" in intros m qs J; cbn in J; repeat (destruct J as [J|J]; [injection J as <- <-; first [left; split; reflexivity | right; split; [discriminate|split; [discriminate|eexists [_]; reflexivity]]]|]); destruct J.
(* ---- lists ---- *)
Lemma all_listed {X B} r c (f : obj -> option X) (k : list X -> prog B) Q : goods r -> fails_not_below r -> has r c = true -> token c = true -> (forall v, right c v -> exists y x, v = VObj y /\ f y = Some x /\ True) ->
  (forall l, l <> [] -> all (tr r) (k l) Q) -> all (tr r) (v <-- trig c ;; l <-- Ret (EvtModel.all_of f v) ;; k l) Q.
Proof.
  intros G F E Tk H Hk. eapply (all_bind _ _ _ (fun v => exists xs, v = VResult xs /\ Forall (right c) xs /\ xs <> [])).
  - apply all_trig. intros o Ho. destruct (trigger_right r c G E (or_introl Tk) (F c) o Ho) as (xs & -> & R & Ne & _). exists (VResult xs). split; [reflexivity|]. exists xs. auto.
  - intros v (xs & -> & R & Ne). destruct (all_of_right c f xs H R) as (l & El & Len). rewrite El. apply Hk. intros ->. destruct xs; [destruct (Ne eq_refl)|discriminate].
Qed.
Ltac has_list := match goal with P : parts ?r _ |- has ?r _ = _ => rewrite (has_parts _ _ _ P) by reflexivity; reflexivity end.
Ltac commas := eapply event_right; [reflexivity|]; cbn [snd]; match goal with |- all _ (?f ?r) _ => let h := f in unfold_head h end; eapply all_bind;
  [match goal with P : parts ?r _, G : goods ?r, B : fails_not_below ?r |- _ => eapply (all_commas r _ _ _ _ _ P); [discriminate|exact G|exact B|reflexivity|reflexivity|total|total] end
  |let l := fresh "l" in let Nl := fresh "Nl" in intros l [Nl _]; destruct l; [destruct (Nl eq_refl)|]; eapply all_now; [reflexivity|kinds]].
Lemma names_inv p L : means "assigneeNames" p (ONames L) -> exists q x cs l, parts p (("assigneeName", [K q]) :: some "commaAssigneeName" cs) /\ means "assigneeName" q (OName x) /\ each "commaAssigneeName" cs (map OName l) /\ L = x :: l.
Proof.
  intros H. inversion H; subst; try (exfalso; match goal with H : In (_, _) _ |- _ => cbn in H; repeat (destruct H as [H|H]; [discriminate|]); destruct H end). do 4 eexists. eauto.
Qed.
Lemma each_length n l xs : each n l xs -> length l = length xs.
Proof. induction 1; cbn; congruence. Qed.
Lemma names_two p i v : means "assigneeNames" p (ONames [i; v]) -> goods p -> fails_not_below p -> forall o, execute_events base (bs "assigneeNames") p o -> exists a b l, o = Ok (None, VObj (ONames (a :: b :: l))).
Proof.
  intros H G B o Ho. destruct (names_inv _ _ H) as (q & x & cs & l & P & _ & Ec & E). injection E as <- <-. assert (Lc := each_length _ _ _ Ec). cbn in Lc.
  apply base_fix in Ho. change (body_of bitsize parse_float (bs "assigneeNames")) with (Some (ev_assigneeNames)) in Ho. destruct Ho as (u & Hr & _ & ->).
  assert (A : all (tr p) (ev_assigneeNames p) (fun u => exists a b l, u = VObj (ONames (a :: b :: l)))).
  { unfold ev_assigneeNames. eapply all_bind; [eapply (all_commas p _ _ _ _ _ P); [discriminate|exact G|exact B|reflexivity|reflexivity|total|total]|]. intros l [_ Hl]. destruct Hl as (ps & _ & Len & Np); [intros ->; discriminate|].
    destruct ps; [destruct (Np eq_refl)|]. destruct l as [|a [|b l]]; try discriminate. eapply all_now; [reflexivity|]. exists a, b, l. reflexivity. }
  destruct (A _ Hr) as (z & -> & a & b & l & ->). exists a, b, l. reflexivity.
Qed.
Lemma names_expressions p L : means "assigneeNames" p (ONames L) -> expressions p.
Proof.
  intros H. destruct (names_inv _ _ H) as (q & x & cs & l & P & Hq & Ec & _). apply (expressions_parts _ _ P). intros n ps I. destruct cs as [|c cs]; cbn [some] in I; split_in I; (split; [reflexivity|]); intros y Hy.
  - destruct Hy as [E|[]]. injection E as <-. exact (proj1 means_expressions _ _ _ Hq eq_refl).
  - destruct Hy as [E|[]]. injection E as <-. exact (proj1 means_expressions _ _ _ Hq eq_refl).
  - change (In (K y) (map K (c :: cs))) in Hy. apply in_map_iff in Hy. destruct Hy as (z & E & Hy). injection E as <-. exact (proj2 means_expressions _ _ _ Ec eq_refl z Hy).
Qed.
Lemma for_names r p i v a b q l : parts r [("assigneeNames", [K p]); ("COLON", [T a]); ("EQUAL", [T b]); ("totalListValue", [K q])] -> means "assigneeNames" p (ONames [i; v]) -> means "totalListValue" q (OTotalValue l) -> goods r -> fails_not_below r ->
  forall o, trigger base (bs "assigneeNames") r o -> exists x y l, o = Ok (VResult [VObj (ONames (x :: y :: l))]).
Proof.
  intros P Hp Hq G B o Ho. assert (Ip : inside p r) by (eapply (parts_inside _ _ _ _ _ P); [left; reflexivity|left; reflexivity]).
  assert (Y : exists y, In y (ro_nodes r) /\ no_name y = bs "assigneeNames") by (exists (part_node ("assigneeNames", [K p])); split; [eapply parts_in; [exact P|left; reflexivity]|reflexivity]).
  assert (S : forall s, scan_nodes (bs "assigneeNames") (ro_nodes r) s -> s = SFound (FNode (part_node ("assigneeNames", [K p])))).
  { intros s Hs. destruct (finds_node _ _ _ G Y Hs) as (k & -> & Hk & Nk). f_equal. f_equal.
    inversion Hk as [? ? J|? y c z ? J Hc Ez Hn]; subst; destruct (parts_names _ _ _ P J) as (n & ps & [I|I] & ->).
    - cbn [no_name part_node fst] in Nk. apply bs_inj in Nk. subst n. repeat (destruct I as [I|I]; [try discriminate I|]); [injection I as <-; reflexivity|destruct I].
    - exfalso. cbn [no_name part_node fst] in Nk. apply bs_inj in Nk. destruct I as (I & _). subst n. cbn in I. intuition discriminate.
    - exfalso. assert (X : expressions z).
      { cbn [no_list part_node fst snd] in Hc. apply in_map_iff in Hc. destruct Hc as ([w|z'] & <- & Hz); [discriminate|]. cbn in Ez. injection Ez as ->. split_in I; destruct Hz as [E|[]]; try discriminate; injection E as <-; [eapply names_expressions; exact Hp|exact (proj1 means_expressions _ _ _ Hq eq_refl)]. }
      destruct (X k Hn) as (m & Em & Xm). rewrite Nk in Em. apply bs_inj in Em. subst m. vm_compute in Xm. discriminate.
    - exfalso. cbn [no_list part_node fst snd] in Hc. apply in_map_iff in Hc. destruct Hc as ([w|z'] & <- & Hz); [discriminate|]. destruct (blank_no_root _ _ _ I Hz). }
  inversion Ho as [Hs|Hs E|z o' Hs|k o' Hs L|c o' Hs]; subst; apply S in Hs; try discriminate. injection Hs as ->. cbn [no_list part_node fst snd map] in L.
  assert (N2 := names_two p i v Hp (tree_goods _ _ (or_introl (ex_intro _ _ Hp))) (fun n z I Tz => B n z (inside_trans _ _ _ I Ip) Tz)).
  inversion L as [|c cs l' ins o'' Fo Lo|c cs Fo|c cs Fo]; subst; inversion Fo as [E|z o3 E He]; subst; try discriminate; injection E as <-; destruct (N2 _ He) as (x & y & l0 & E2); try discriminate.
  injection E2 as -> ->. inversion Lo; subst. exists x, y, l0. reflexivity.
Qed.
Lemma means_never n r x : means n r x -> goods r -> fails_not_below r -> never_fails n r.
Proof.
  intros H G B. destruct H eqn:E0; clear E0.
  all: try (solve [ev]).
  all: try (solve [eapply clear_never; [exact H|texts_clear|cbn; tauto]]).
  all: repeat match goal with H : In _ (_ :: _) |- never_fails _ _ => destruct H as [H|H] | H : (_, _) = (_, _) |- _ => injection H as <- <- | H : In _ [] |- _ => destruct H end; subst.
  all: try (solve [ev]).
  all: try (solve [commas]).
  - eapply event_right; [reflexivity|]. cbn [snd]. unfold ev_headerVariables. apply (all_listed r "headerVariable" _ _ _ G B); [has_list|reflexivity|total|]. intros l' Nl. destruct l'; [destruct (Nl eq_refl)|]. eapply all_now; [reflexivity|kinds].
  - eapply event_right; [reflexivity|]. cbn [snd]. unfold ev_instructions. apply (all_listed r "instruction" _ _ _ G B); [has_list|reflexivity|total|]. intros l' Nl. destruct l'; [destruct (Nl eq_refl)|]. eapply all_now; [reflexivity|kinds].
  - eapply clear_never; [exact H| |cbn; tauto]. eapply clear_lone; [eassumption|lone|reflexivity|]. intros q' [E|[]]. injection E as <-. eapply index_clear; eassumption.
  - eapply clear_never; [exact H| |cbn; tauto]. eapply clear_lone; [eassumption|lone|reflexivity|]. intros q' [E|[E|[]]]; injection E as <-; eapply index_clear; eassumption.
  - eapply event_right; [reflexivity|]. cbn [snd]. unfold ev_forStatement. replace (has r "forStatement") with false by (symmetry; has_is). cbv iota. eapply all_bind.
    + apply (all_opt_some _ _ _ _ (fun _ => True)); [has_is|]. eapply (all_bind _ _ _ (fun L => exists x y l, L = x :: y :: l)).
      * unfold get. eapply all_bind; [apply (all_trig _ _ (fun v => exists x y l, v = VResult [VObj (ONames (x :: y :: l))]))|].
        -- intros o' Ho. edestruct (for_names r) as (x' & y' & l' & ->); [eassumption..|exact Ho|]. eexists. split; [reflexivity|]. exists x', y', l'. reflexivity.
        -- intros v' (x' & y' & l' & ->). apply all_ret. exists x', y', l'. reflexivity.
      * intros L (x' & y' & l' & ->). apply all_ret. exact I.
    + intros o' ((x', y') & -> & _). go.
  - eapply clear_never; [exact H| |cbn; tauto]. eapply clear_one; [eassumption|reflexivity|]. intros q' [E|[]]. injection E as <-. eapply bool_clear; eassumption.
  - eapply clear_never; [exact H| |cbn; tauto]. eapply (clear_lone _ _ "indexValue" [K q]); [eassumption|lone|reflexivity|]. intros q' [E|[]]. injection E as <-. eapply index_clear; eassumption.
Qed.
End Main.
