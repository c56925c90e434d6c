From Coq Require Import Strings.String Strings.Byte Lia Sorting.Permutation.
From Verif Require Import Go GoLemmas DomainModel CardModel PatModel RuleModel PathModel LexModel AstModel RootModel RootSpec RootProofs.
Open Scope list_scope.

(* ---- distinct texts ---- *)
Lemma last_with_unique w l x y : last_with w l x -> last_with w l y -> x = y.
Proof.
  intros (a & b & -> & Ex & Fb). revert b Fb. induction a as [|z a IH]; intros b Fb (a' & b' & E & Ey & Fb').
  - destruct a' as [|z' a']; cbn in E; [congruence|]. inversion E; subst. exfalso. rewrite Forall_forall in Fb. apply (Fb y); [apply in_or_app; right; left; reflexivity|exact Ey].
  - destruct a' as [|z' a']; cbn in E; inversion E; subst; [|apply (IH b Fb); exists a', b'; auto]. exfalso. rewrite Forall_forall in Fb'. apply (Fb' x); [apply in_or_app; right; left; reflexivity|reflexivity].
Qed.
Lemma distinct_truly t : forall r, distinct_texts t -> mirrors t r -> truly_mirrors t r.
Proof.
  induction t as [name line ms IH] using atoken_ind_kids. intros r D M. inversion M as [? ? ? nodes N1 N2 N3]; subst. inversion D as [? ? ? D1 D2]; subst. constructor; [exact N1|exact N2|]. intros x Hx. specialize (N3 x Hx).
  assert (Sub : forall e, In e (filter (has_name (no_name x)) (entries ms)) -> In e (entries ms)) by (intros e He; apply filter_In in He; apply He).
  remember (within (AToken name line ms)) as all eqn:Ea. induction N3 as [|all n w l cs H IHh|all n u y r l cs L My H IHh]; [constructor|constructor; apply IHh; [exact Ea|intros e He; apply Sub; right; exact He]|].
  assert (Iu : In (EToken n u) (entries ms)) by (apply Sub; left; reflexivity).
  assert (y = u).
  { apply (last_with_unique _ _ _ _ L). subst all. rewrite within_kids. destruct (in_split _ _ Iu) as (a & b & Eab). rewrite Eab, kids_app. change (kids (EToken n u :: b)) with (u :: kids b). rewrite map_app, concat_app. cbn [map concat]. destruct u as [un ul um] eqn:Eu. rewrite (all_of_kids un ul um).
    exists (concat (map all_of (kids a)) ++ concat (map all_of (kids (entries um)))), (concat (map all_of (kids b))). split; [rewrite <- !app_assoc; reflexivity|]. split; [reflexivity|]. apply Forall_forall. intros z Hz. apply in_concat in Hz. destruct Hz as (lz & Hl & Hz). apply in_map_iff in Hl. destruct Hl as (k & <- & Hk). apply kids_in in Hk. destruct Hk as [m Hk].
    apply (D1 a n _ b m k z Eab Hk Hz). }
  subst y. constructor; [apply (IH n u Iu); [apply (D2 n u Iu)|exact My]|]. apply IHh; [exact Ea|intros e He; apply Sub; right; exact He].
Qed.
Lemma root_distinct t s r : fst (to_root t s) = Ok (Some r) -> distinct_texts t -> truly_mirrors t r.
Proof. intros H D. apply distinct_truly; [exact D|]. eapply root_mirrors. exact H. Qed.

(* ---- what is inside of a root ---- *)
Lemma holds_in all es cs c : holds all es cs -> In c cs -> exists e, In e es /\ co_content c = en_text e /\ co_name c = en_name e /\
  match e with EText _ _ => co_root c = None | EToken _ t => exists y r, co_root c = Some r /\ last_with (at_discovery t) all y /\ mirrors y r end.
Proof.
  induction 1 as [all|all n w l cs H IH|all n t y r l cs L M H IH]; intros I; [destruct I| |]; (destruct I as [<-|I]; [|destruct (IH I) as (e & Ie & X); exists e; split; [right; exact Ie|exact X]]).
  - exists (EText n w). split; [left; reflexivity|]. split; [reflexivity|]. split; reflexivity.
  - exists (EToken n t). split; [left; reflexivity|]. split; [reflexivity|]. split; [reflexivity|]. exists y, r. auto.
Qed.
Lemma mirrors_in t r x c : mirrors t r -> In x (ro_nodes r) -> In c (no_list x) -> exists e, In e (entries (at_matches t)) /\ co_content c = en_text e /\ co_name c = en_name e /\ en_name e = no_name x /\
  match e with EText _ _ => co_root c = None | EToken _ u => exists y r', co_root c = Some r' /\ last_with (at_discovery u) (within t) y /\ mirrors y r' end.
Proof.
  intros M Hx Hc. inversion M as [name line ms nodes N1 N2 N3]; subst. cbn [ro_nodes at_matches] in *. destruct (holds_in _ _ _ _ (N3 x Hx) Hc) as (e & Ie & E1 & E2 & E3). apply filter_In in Ie. destruct Ie as [Ie Hn]. exists e. split; [exact Ie|]. split; [exact E1|]. split; [exact E2|]. split; [|exact E3].
  unfold has_name in Hn. destruct (list_eq_dec _ _ _); [assumption|discriminate].
Qed.
Lemma mirrors_named t r : mirrors t r -> named_alike (ro_nodes r).
Proof.
  intros M n c Hn. remember (ro_nodes r) as l eqn:El. revert t r M El. induction Hn as [n l Hn|n x c' r' l Hx Hc' Er Hn IH]; intros t r M El Hc; subst l.
  - destruct (mirrors_in t r n c M Hn Hc) as (e & _ & _ & E1 & E2 & _). congruence.
  - destruct (mirrors_in t r x c' M Hx Hc') as (e & _ & _ & _ & _ & E3). destruct e as [|k u]; [congruence|]. destruct E3 as (y & r2 & E4 & _ & My). assert (r2 = r') by congruence. subst r2. apply (IH y r' My eq_refl Hc).
Qed.
(* every container, at any depth *)
Lemma mirrors_container t r c r' : mirrors t r -> container_in c (ro_nodes r) -> co_root c = Some r' -> ro_content r' = co_content c /\ exists y, mirrors y r' /\ at_discovery y = co_content c.
Proof.
  intros M (n & Hn & Hc) Er. remember (ro_nodes r) as l eqn:El. revert t r M El. induction Hn as [n l Hn|n x c' r0 l Hx Hc' Er' Hn IH]; intros t r M El; subst l.
  - destruct (mirrors_in t r n c M Hn Hc) as (e & _ & E1 & _ & _ & E3). destruct e as [|k u]; [congruence|]. destruct E3 as (y & r2 & E4 & (a & b & _ & Ty & _) & My). assert (r2 = r') by congruence. subst r2. cbn [en_text] in E1. split; [inversion My; subst; cbn [ro_content]; congruence|]. exists y. split; [exact My|congruence].
  - destruct (mirrors_in t r x c' M Hx Hc') as (e & _ & _ & _ & _ & E3). destruct e as [|k u]; [congruence|]. destruct E3 as (y & r2 & E4 & _ & My). assert (r2 = r0) by congruence. subst r2. apply (IH Hc y r0 My eq_refl).
Qed.
Lemma root_container_text t s r c r' : fst (to_root t s) = Ok (Some r) -> container_in c (ro_nodes r) -> co_root c = Some r' -> ro_content r' = co_content c.
Proof. intros H Hc E. apply root_mirrors in H. apply (mirrors_container t r c r' H Hc E). Qed.

(* ---- Scan ---- *)
Scheme scan_nodes_m := Minimality for scan_nodes Sort Prop
with scan_node_list_m := Minimality for scan_node_list Sort Prop
with scan_node_m := Minimality for scan_node Sort Prop
with scan_containers_m := Minimality for scan_containers Sort Prop
with scan_container_m := Minimality for scan_container Sort Prop.
Combined Scheme scan_ind from scan_nodes_m, scan_node_list_m, scan_node_m, scan_containers_m, scan_container_m.
Definition in_nodes (name : bytes) (l : list node) (x : finding) : Prop :=
  match x with FRoot _ => False | FNode n => node_in n l /\ no_name n = name | FContainer c => container_in c l /\ co_name c = name end.
Definition in_containers (name : bytes) (l : list container) (x : finding) : Prop :=
  (exists c, In c l /\ co_name c = name /\ x = FContainer c) \/ (exists c r, In c l /\ co_root c = Some r /\ in_nodes name (ro_nodes r) x).
Lemma in_nodes_deep name l x n c r : In n l -> In c (no_list n) -> co_root c = Some r -> in_nodes name (ro_nodes r) x -> in_nodes name l x.
Proof.
  intros Hn Hc Er H. destruct x as [r0|m|d]; [exact H| |]; cbn [in_nodes] in *; destruct H as [H1 H2]; (split; [|exact H2]).
  - eapply ni_deep; eassumption.
  - destruct H1 as (m & H3 & H4). exists m. split; [eapply ni_deep; eassumption|exact H4].
Qed.
Lemma in_nodes_sub name l l' x : (forall n, In n l -> In n l') -> in_nodes name l x -> in_nodes name l' x.
Proof.
  intros S. assert (K : forall n, node_in n l -> node_in n l') by (intros n H; inversion H; subst; [apply ni_here; auto|eapply ni_deep; eauto]).
  destruct x as [r0|m|d]; cbn [in_nodes]; [auto|intros [H1 H2]; auto|intros [(m & H3 & H4) H2]; split; [exists m; auto|exact H2]].
Qed.
Lemma scan_sound_all name :
  (forall l o, scan_nodes name l o -> forall x, o = SFound x -> in_nodes name l x) /\
  (forall l o, scan_node_list name l o -> forall x, o = SFound x -> in_nodes name l x) /\
  (forall n o, scan_node name n o -> forall x, o = SFound x -> in_nodes name [n] x) /\
  (forall l o, scan_containers name l o -> forall x, o = SFound x -> in_containers name l x) /\
  (forall c o, scan_container name c o -> forall x, o = SFound x -> in_containers name [c] x).
Proof.
  apply scan_ind.
  - intros l l' o P H IH x E. apply (in_nodes_sub name l' l); [intros n Hn; eapply Permutation_in; [apply Permutation_sym; exact P|exact Hn]|apply IH; exact E].
  - intros x E. discriminate.
  - intros n l x H IH y E. apply (in_nodes_sub name [n]); [intros m [<-|[]]; left; reflexivity|apply IH; exact E].
  - intros n l o o' H IH No H' IH' x E. apply (in_nodes_sub name l); [intros m Hm; right; exact Hm|apply IH'; exact E].
  - intros l x E. inversion E; subst. cbn. split; [apply ni_here; left; reflexivity|reflexivity].
  - intros n l o Ne H IH x E. destruct (IH x E) as [(c & Ic & En & ->)|(c & r & Ic & Er & X)].
    + cbn. split; [|exact En]. exists (Node n l). split; [apply ni_here; left; reflexivity|exact Ic].
    + eapply in_nodes_deep; [left; reflexivity|exact Ic|exact Er|exact X].
  - intros x E. discriminate.
  - intros c l x H IH y E. destruct (IH y E) as [(c' & [<-|[]] & X)|(c' & r & [<-|[]] & X)]; [left; exists c|right; exists c, r]; (split; [left; reflexivity|exact X]).
  - intros c l o o' H IH No H' IH' x E. destruct (IH' x E) as [(c' & I & X)|(c' & r & I & X)]; [left; exists c'|right; exists c', r]; (split; [right; exact I|exact X]).
  - intros t o x E. inversion E; subst. left. eexists. split; [left; reflexivity|]. split; reflexivity.
  - intros t n Ne x E. discriminate.
  - intros t n r o Ne H IH x E. right. exists (Container t n (Some r)), r. split; [left; reflexivity|]. split; [reflexivity|]. apply IH. exact E.
Qed.
Lemma scan_sound name l x : scan_nodes name l (SFound x) -> in_nodes name l x.
Proof. intros H. exact (proj1 (scan_sound_all name) l _ H x eq_refl). Qed.
Lemma node_in_cons n x l : node_in n (x :: l) -> node_in n [x] \/ node_in n l.
Proof. intros H. inversion H as [? ? I|? y c r ? I Hc Er Hn]; subst; (destruct I as [<-|I]; [left|right]); [apply ni_here; left; reflexivity|apply ni_here; exact I|eapply ni_deep; [left; reflexivity|eassumption..]|eapply ni_deep; eassumption]. Qed.
Lemma scan_complete_all name :
  (forall l o, scan_nodes name l o -> (o = SError \/ o = SNothing) -> forall n, node_in n l -> no_name n <> name /\ forall c, In c (no_list n) -> co_name c <> name) /\
  (forall l o, scan_node_list name l o -> (o = SError \/ o = SNothing) -> forall n, node_in n l -> no_name n <> name /\ forall c, In c (no_list n) -> co_name c <> name) /\
  (forall x o, scan_node name x o -> (o = SError \/ o = SNothing) -> forall n, node_in n [x] -> no_name n <> name /\ forall c, In c (no_list n) -> co_name c <> name) /\
  (forall l o, scan_containers name l o -> (o = SError \/ o = SNothing) -> forall c, In c l -> co_name c <> name /\ forall r n, co_root c = Some r -> node_in n (ro_nodes r) -> no_name n <> name /\ forall c, In c (no_list n) -> co_name c <> name) /\
  (forall c o, scan_container name c o -> (o = SError \/ o = SNothing) -> co_name c <> name /\ forall r n, co_root c = Some r -> node_in n (ro_nodes r) -> no_name n <> name /\ forall c, In c (no_list n) -> co_name c <> name).
Proof.
  apply scan_ind.
  - intros l l' o P H IH E n Hn. apply (IH E). inversion Hn; subst; [apply ni_here; eapply Permutation_in; eassumption|eapply ni_deep; [eapply Permutation_in; eassumption|eassumption..]].
  - intros _ n Hn. inversion Hn as [? ? I|? y c r ? I]; destruct I.
  - intros n l x H IH [E|E]; discriminate.
  - intros x l o o' H IH No H' IH' E n Hn. apply node_in_cons in Hn. destruct Hn as [Hn|Hn]; [apply IH; [destruct o; [exfalso; eapply No; reflexivity|right; reflexivity|left; reflexivity]|exact Hn]|apply (IH' E n Hn)].
  - intros l [E|E]; discriminate.
  - intros m l o Ne H IH E n Hn. inversion Hn as [? ? I|? y c r ? I Hc Er Hn']; subst; destruct I as [<-|[]].
    + split; [exact Ne|]. intros c Hc. apply (IH E c Hc).
    + apply (proj2 (IH E c Hc) r n Er Hn').
  - intros _ c [].
  - intros c l x H IH [E|E]; discriminate.
  - intros c l o o' H IH No H' IH' E d [<-|Hd]; [|apply (IH' E d Hd)]. apply IH. destruct o; [exfalso; eapply No; reflexivity|right; reflexivity|left; reflexivity].
  - intros t o [E|E]; discriminate.
  - intros t n Ne _. split; [exact Ne|]. intros r m X. discriminate.
  - intros t n r o Ne H IH E. split; [exact Ne|]. intros r' m X Hm. cbn in X. inversion X; subst. apply (IH E m Hm).
Qed.
Lemma scan_complete name l o : scan_nodes name l o -> (exists x, o = SFound x) \/ (o = SError /\ (forall n, node_in n l -> no_name n <> name) /\ (forall c, container_in c l -> co_name c <> name)).
Proof.
  intros H. assert (Hs := H). destruct o as [x| |]; [left; exists x; reflexivity| |].
  - exfalso. inversion Hs as [? l' ? _ H']; subst. clear - H'. remember SNothing as o. induction H'; try discriminate; auto.
  - right. split; [reflexivity|]. assert (K := proj1 (scan_complete_all name) l _ H (or_introl eq_refl)). split; [intros n Hn; apply (K n Hn)|]. intros c (n & Hn & Hc). apply (proj2 (K n Hn) c Hc).
Qed.
(* every order gives an answer *)
Definition answered (name : bytes) (l : list node) : Prop := forall l', Permutation l l' -> exists o, scan_node_list name l' o.
Lemma node_list_total name l : (forall n, In n l -> exists o, scan_node name n o) -> exists o, scan_node_list name l o.
Proof.
  induction l as [|n l IH]; intros H; [exists SError; constructor|]. destruct (H n (or_introl eq_refl)) as [[x| |] E]; [exists (SFound x); constructor; exact E| |]; (destruct IH as [o' E']; [intros m Hm; apply H; right; exact Hm|]; exists o'; eapply snl_next; [exact E|discriminate|exact E']).
Qed.
Lemma containers_total name l : (forall c, In c l -> exists o, scan_container name c o) -> exists o, scan_containers name l o.
Proof.
  induction l as [|n l IH]; intros H; [exists SError; constructor|]. destruct (H n (or_introl eq_refl)) as [[x| |] E]; [exists (SFound x); constructor; exact E| |]; (destruct IH as [o' E']; [intros m Hm; apply H; right; exact Hm|]; exists o'; eapply sc_next; [exact E|discriminate|exact E']).
Qed.
Lemma root_ind_deep (P : root -> Prop) : (forall r, (forall n c r', In n (ro_nodes r) -> In c (no_list n) -> co_root c = Some r' -> P r') -> P r) -> forall r, P r.
Proof.
  intros H. fix go 1. intros [t n l]. apply H. cbn [ro_nodes]. induction l as [|[m cs] l IH]; [intros x c r' []|]. 
  assert (K : forall c r', In c cs -> co_root c = Some r' -> P r').
  { clear IH. induction cs as [|[w k [r0|]] cs IH]; [intros c r' []| |]; [pose proof (go r0) as P0|]; (intros c r' [E1|Hc] E2; [|apply (IH c r' Hc E2)]).
    - assert (r0 = r') by (subst c; cbn in E2; congruence). subst. exact P0.
    - subst c. discriminate. }
  intros x c r' [E|Hx]; [subst x; apply K|apply (IH x c r' Hx)].
Qed.
Lemma scan_total name r : answered name (ro_nodes r).
Proof.
  induction r as [r IH] using root_ind_deep. intros l' P. apply node_list_total. intros [m l] Hn. apply (Permutation_in _ (Permutation_sym P)) in Hn.
  destruct (list_eq_dec Byte.byte_eq_dec m name) as [->|Ne]; [eexists; apply sd_here|].
  destruct (containers_total name l) as [o E]; [|exists o; apply sd_in; assumption]. intros [w k o] Hc.
  destruct (list_eq_dec Byte.byte_eq_dec k name) as [->|Nk]; [eexists; apply sk_here|]. destruct o as [r'|]; [|exists SNothing; apply sk_no_root; exact Nk].
  destruct (IH (Node m l) _ r' Hn Hc eq_refl _ (Permutation_refl _)) as [o E]. exists o. apply sk_root; [exact Nk|]. eapply sn_order; [apply Permutation_refl|exact E].
Qed.
(* roots made by the adapter: only nodes are found *)
Lemma scan_finds_nodes_all name :
  (forall l o, scan_nodes name l o -> named_alike l -> forall x, o = SFound x -> exists n, x = FNode n) /\
  (forall l o, scan_node_list name l o -> named_alike l -> forall x, o = SFound x -> exists n, x = FNode n) /\
  (forall n o, scan_node name n o -> named_alike [n] -> forall x, o = SFound x -> exists n, x = FNode n) /\
  (forall l o, scan_containers name l o -> (forall c, In c l -> co_name c <> name /\ forall r, co_root c = Some r -> named_alike (ro_nodes r)) -> forall x, o = SFound x -> exists n, x = FNode n) /\
  (forall c o, scan_container name c o -> (co_name c <> name /\ forall r, co_root c = Some r -> named_alike (ro_nodes r)) -> forall x, o = SFound x -> exists n, x = FNode n).
Proof.
  apply scan_ind.
  - intros l l' o P H IH A x E. apply (fun A' => IH A' x E). intros n c Hn Hc. apply A; [|exact Hc]. inversion Hn; subst; [apply ni_here; eapply Permutation_in; [apply Permutation_sym; exact P|assumption]|eapply ni_deep; [eapply Permutation_in; [apply Permutation_sym; exact P|eassumption]|eassumption..]].
  - intros _ x E. discriminate.
  - intros n l x H IH A y E. apply (fun A' => IH A' y E). intros m c Hm Hc. apply A; [|exact Hc]. inversion Hm as [? ? I|? z d r ? I]; subst; destruct I as [<-|[]]; [apply ni_here; left; reflexivity|eapply ni_deep; [left; reflexivity|eassumption..]].
  - intros n l o o' H IH No H' IH' A x E. apply (fun A' => IH' A' x E). intros m c Hm Hc. apply A; [|exact Hc]. inversion Hm as [? ? I|? z d r ? I]; subst; [apply ni_here; right; exact I|eapply ni_deep; [right; exact I|eassumption..]].
  - intros l _ x E. inversion E. eexists. reflexivity.
  - intros n l o Ne H IH A x E. apply (fun A' => IH A' x E). intros c Hc. split.
    + rewrite (A (Node n l) c); [exact Ne|apply ni_here; left; reflexivity|exact Hc].
    + intros r Er m d Hm Hd. apply A; [|exact Hd]. eapply ni_deep; [left; reflexivity|exact Hc|exact Er|exact Hm].
  - intros _ x E. discriminate.
  - intros c l x H IH A y E. apply (fun A' => IH A' y E). apply A. left. reflexivity.
  - intros c l o o' H IH No H' IH' A x E. apply (fun A' => IH' A' x E). intros d Hd. apply A. right. exact Hd.
  - intros t o [A _]. contradiction.
  - intros t n Ne _ x E. discriminate.
  - intros t n r o Ne H IH [_ A] x E. apply (fun A' => IH A' x E). apply A. reflexivity.
Qed.
Lemma scan_made t s r name o : fst (to_root t s) = Ok (Some r) -> scan_nodes name (ro_nodes r) o ->
  (exists n, o = SFound (FNode n) /\ node_in n (ro_nodes r) /\ no_name n = name) \/ (o = SError /\ forall n, node_in n (ro_nodes r) -> no_name n <> name).
Proof.
  intros H Hs. apply root_mirrors, mirrors_named in H. destruct (scan_complete name _ o Hs) as [[x ->]|(-> & K & _)]; [|right; auto]. left. destruct (proj1 (scan_finds_nodes_all name) _ _ Hs H x eq_refl) as [n ->]. exists n. split; [reflexivity|]. apply scan_sound in Hs. exact Hs.
Qed.
Lemma scan_root_sound name r x : scan_root name r (SFound x) -> match x with FRoot r' => r' = r /\ ro_name r = name | _ => ro_name r <> name /\ in_nodes name (ro_nodes r) x end.
Proof. intros H. inversion H; subst; [auto|]. assert (K := scan_sound _ _ _ H1). destruct x; [destruct K|auto|auto]. Qed.
