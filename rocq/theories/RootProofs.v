From Coq Require Import Strings.String Strings.Byte Lia Sorting.Permutation.
From Verif Require Import Go GoLemmas DomainModel DomainSpec DomainProofs CardModel CardSpec CardProofs PatModel PatSpec PatProofs RuleModel RuleSpec RuleProofs PathModel PathSpec PathProofs LexModel LexSpec LexProofs AstModel RootModel RootSpec.
Open Scope list_scope.

(* ---- trees ---- *)
Definition kids (l : list entry) : list atoken := concat (map (fun e => match e with EToken _ t => [t] | EText _ _ => [] end) l).
Lemma kids_app a b : kids (a ++ b) = kids a ++ kids b.
Proof. unfold kids. rewrite map_app, concat_app. reflexivity. Qed.
Lemma kids_tokens n l : kids (map (EToken n) l) = l.
Proof. induction l as [|x l IH]; [reflexivity|]. unfold kids in *. cbn. f_equal. exact IH. Qed.
Lemma kids_in x l : In x (kids l) <-> exists n, In (EToken n x) l.
Proof.
  induction l as [|e l IH]; [split; [intros []|intros (n & [])]|]. change (kids (e :: l)) with ((match e with EToken _ t => [t] | EText _ _ => [] end) ++ kids l). rewrite in_app_iff, IH. split.
  - intros [H|(n & H)]; [|exists n; right; exact H]. destruct e as [|n t]; [destruct H|]. destruct H as [->|[]]. exists n. left. reflexivity.
  - intros (n & [->|H]); [left; left; reflexivity|right; exists n; exact H].
Qed.
Lemma atoken_ind_kids (P : atoken -> Prop) : (forall name line ms, (forall n x, In (EToken n x) (entries ms) -> P x) -> P (AToken name line ms)) -> forall t, P t.
Proof.
  intros H. refine (fix go (t : atoken) : P t := match t with AToken name line ms => _ end). apply H. clear name line t. unfold entries.
  induction ms as [|m ms IH]; [intros n x []|]. intros n x I. cbn [map concat] in I. apply in_app_or in I. destruct I as [I|I]; [|apply (IH n x I)].
  destruct m as [k l|k r]; cbn [of_match] in I; [|destruct I as [I|[]]; discriminate].
  induction l as [|y l IHl]; [destruct I|]. pose proof (go y) as Py. destruct I as [I|I]; [assert (y = x) by congruence; subst; exact Py|apply IHl; exact I].
Qed.
Lemma concat_map_concat {A B} (f : A -> list B) (ll : list (list A)) : concat (map f (concat ll)) = concat (map (fun l => concat (map f l)) ll).
Proof. induction ll as [|l ll IH]; [reflexivity|]. cbn [concat map]. rewrite map_app, concat_app, IH. reflexivity. Qed.
Lemma all_of_kids name line ms : all_of (AToken name line ms) = concat (map all_of (kids (entries ms))) ++ [AToken name line ms].
Proof.
  cbn [all_of]. f_equal. induction ms as [|m ms IH]; [reflexivity|]. change (entries (m :: ms)) with (of_match m ++ entries ms). rewrite kids_app, map_app, concat_app. cbn [map concat]. f_equal; [|exact IH].
  destruct m as [n l|n r]; [|reflexivity]. cbn [of_match]. rewrite kids_tokens. reflexivity.
Qed.
Lemma within_kids name line ms : within (AToken name line ms) = concat (map all_of (kids (entries ms))).
Proof. unfold within. rewrite all_of_kids. apply removelast_last. Qed.
Lemma at_disc_entries name line ms : at_discovery (AToken name line ms) = concat (map en_text (entries ms)).
Proof.
  cbn [at_discovery]. rewrite join_concat. induction ms as [|m ms IH]; [reflexivity|]. change (entries (m :: ms)) with (of_match m ++ entries ms). rewrite map_app. transitivity (am_discovery m ++ concat (map am_discovery ms)); [reflexivity|]. rewrite concat_app, IH. f_equal.
  destruct m as [n l|n r]; cbn [am_discovery of_match map concat]; [|symmetry; apply app_nil_r]. rewrite join_concat, map_map. reflexivity.
Qed.

(* ---- loops ---- *)
Section Monad.
Context {A B : Type}.
Lemma rm_bind_ext (m : RM A) (f g : A -> RM B) s : (forall a s', f a s' = g a s') -> rm_bind m f s = rm_bind m g s.
Proof. intros H. unfold rm_bind. destruct (m s) as [[a| | |] s']; auto. Qed.
End Monad.
Lemma rm_bind_assoc {A B C} (m : RM A) (f : A -> RM B) (g : B -> RM C) s : rm_bind (rm_bind m f) g s = rm_bind m (fun a => rm_bind (f a) g) s.
Proof. unfold rm_bind. destruct (m s) as [[a| | |] s']; reflexivity. Qed.
Lemma each_app {A B} (f : A -> RM B) a b s : rm_each f (a ++ b) s = rm_bind (rm_each f a) (fun _ => rm_each f b) s.
Proof. revert s. induction a as [|x a IH]; intros s; [reflexivity|]. cbn [rm_each app]. rewrite rm_bind_assoc. apply rm_bind_ext. intros _ s'. apply IH. Qed.
Lemma fold_app {A B} (f : B -> A -> RM B) a b acc s : rm_fold f acc (a ++ b) s = rm_bind (rm_fold f acc a) (fun x => rm_fold f x b) s.
Proof. revert acc s. induction a as [|x a IH]; intros acc s; [reflexivity|]. cbn [rm_fold app]. rewrite rm_bind_assoc. apply rm_bind_ext. intros b' s'. apply IH. Qed.
Lemma each_kids (f : atoken -> RM (option root)) ms s :
  rm_each (fun x => match x with AMToken _ toks => rm_each f toks | AMRule _ _ => rm_ret tt end) ms s = rm_each f (kids (entries ms)) s.
Proof.
  revert s. induction ms as [|m ms IH]; intros s; [reflexivity|]. unfold entries. cbn [rm_each map concat]. fold (entries ms). rewrite kids_app, each_app.
  destruct m as [n l|n r]; cbn [of_match].
  - rewrite kids_tokens. apply rm_bind_ext. intros _. exact IH.
  - cbn. unfold rm_bind, rm_ret. apply IH.
Qed.
(* the containers, entry by entry *)
Definition add_entry (f : atoken -> RM (option root)) (m : list (bytes * list container)) (e : entry) : RM (list (bytes * list container)) :=
  match e with
  | EToken n t => rm_bind (with_cache f t) (fun o s => (let* c := build_container (at_discovery t) n o in Ok (add_to m n c), s))
  | EText n w => fun s => (let* c := build_container w n None in Ok (add_to m n c), s)
  end.
Lemma fold_entries f ms : forall acc s, rm_fold (add_match f) acc ms s = rm_fold (add_entry f) acc (entries ms) s.
Proof.
  induction ms as [|m ms IH]; intros acc s; [reflexivity|]. unfold entries. cbn [rm_fold map concat]. fold (entries ms). rewrite fold_app.
  destruct m as [n l|n r]; cbn [of_match add_match].
  - transitivity (rm_bind (rm_fold (add_entry f) acc (map (EToken n) l)) (fun b' => rm_fold (add_match f) b' ms) s); [|apply rm_bind_ext; exact IH].
    assert (E : forall acc s, rm_fold (fun m t => rm_bind (with_cache f t) (fun o s => (let* c := build_container (at_discovery t) n o in Ok (add_to m n c), s))) acc l s = rm_fold (add_entry f) acc (map (EToken n) l) s).
    { clear. induction l as [|t l IH]; intros acc s; [reflexivity|]. cbn [rm_fold map]. apply rm_bind_ext. exact IH. }
    unfold rm_bind at 1. rewrite E. reflexivity.
  - cbn [rm_fold]. rewrite rm_bind_assoc. unfold rm_bind, rm_ret, add_entry. destruct (build_container _ n None); cbn; [apply IH|reflexivity..].
Qed.

(* ---- grouping ---- *)
Definition grouped (cs : list container) : list (bytes * list container) := fold_left (fun m c => add_to m (co_name c) c) cs [].
Definition named (n : bytes) (c : container) : bool := if list_eq_dec Byte.byte_eq_dec (co_name c) n then true else false.
Lemma add_to_keys m n c : map fst (add_to m n c) = if existsb (bytes_eqb n) (map fst m) then map fst m else map fst m ++ [n].
Proof.
  induction m as [|[k l] m IH]; [reflexivity|]. cbn [add_to map existsb fst]. destruct (bytes_eqb k n) eqn:E.
  - apply bytes_eqb_eq in E. subst k. rewrite bytes_eqb_refl. reflexivity.
  - assert (bytes_eqb n k = false) as -> by (apply bytes_eqb_neq; apply bytes_eqb_neq in E; congruence). cbn [orb map fst]. rewrite IH. destruct (existsb _ _); reflexivity.
Qed.
Lemma existsb_in n l : existsb (bytes_eqb n) l = true <-> In n l.
Proof. rewrite existsb_exists. split; [intros (x & I & E); apply bytes_eqb_eq in E; subst; exact I|intros I; exists n; split; [exact I|apply bytes_eqb_refl]]. Qed.
Lemma add_to_spec m n c : NoDup (map fst m) -> forall k l, In (k, l) (add_to m n c) <->
  (k <> n /\ In (k, l) m) \/ (k = n /\ ((exists l', In (n, l') m /\ l = l' ++ [c]) \/ (~ In n (map fst m) /\ l = [c]))).
Proof.
  induction m as [|[k0 l0] m IH]; intros N k l.
  - cbn. split; [intros [[= <- <-]|[]]; right; split; [reflexivity|right; auto]|]. intros [[_ []]|[-> [(l' & [] & _)|[_ ->]]]]. left. reflexivity.
  - cbn [map fst] in N. inversion N as [|? ? N1 N2]; subst. cbn [add_to]. destruct (bytes_eqb k0 n) eqn:E.
    + apply bytes_eqb_eq in E. subst k0. split.
      * intros [[= <- <-]|I]; [right; split; [reflexivity|left; exists l0; split; [left; reflexivity|reflexivity]]|]. left. split; [|right; exact I]. intros ->. apply N1. apply (in_map fst) in I. exact I.
      * intros [[Ne [[= <- <-]|I]]|[-> [(l' & [[= <-]|I] & ->)|[I _]]]]; [contradiction|right; exact I|left; reflexivity|exfalso; apply N1; apply (in_map fst) in I; exact I|exfalso; apply I; left; reflexivity].
    + apply bytes_eqb_neq in E. split.
      * intros [[= <- <-]|I]; [left; split; [exact E|left; reflexivity]|]. apply (IH N2) in I. destruct I as [[Ne I]|[-> [(l' & I & ->)|[I ->]]]]; [left; split; [exact Ne|right; exact I]|right; split; [reflexivity|left; exists l'; split; [right; exact I|reflexivity]]|].
        right. split; [reflexivity|right]. split; [|reflexivity]. intros [X|X]; [cbn in X; congruence|exact (I X)].
      * intros [[Ne [[= <- <-]|I]]|[-> [(l' & [[= <- <-]|I] & ->)|[I ->]]]]; [left; reflexivity| |contradiction| |]; right; apply (IH N2).
        -- left. auto.
        -- right. split; [reflexivity|left; exists l'; auto].
        -- right. split; [reflexivity|right]. split; [|reflexivity]. intros X. apply I. right. exact X.
Qed.
Lemma grouped_spec cs : NoDup (map fst (grouped cs)) /\ (forall n, In n (map fst (grouped cs)) <-> In n (map co_name cs)) /\ (forall n l, In (n, l) (grouped cs) -> l = filter (named n) cs).
Proof.
  unfold grouped. induction cs as [|c cs (N & K & L)] using rev_ind; [split; [constructor|split; [reflexivity|intros n l []]]|].
  rewrite fold_left_app. cbn [fold_left]. set (m := fold_left _ cs []) in *. split; [|split].
  - rewrite add_to_keys. destruct (existsb _ _) eqn:E; [exact N|]. assert (~ In (co_name c) (map fst m)) by (intros X; apply existsb_in in X; congruence). apply (Permutation_NoDup (Permutation_cons_append (map fst m) (co_name c))). constructor; assumption.
  - intros n. rewrite add_to_keys, map_app, in_app_iff. cbn [map]. destruct (existsb _ _) eqn:E.
    + apply existsb_in in E. rewrite K in *. split; [auto|]. intros [H|[<-|[]]]; assumption.
    + rewrite in_app_iff, K. reflexivity.
  - intros n l I. apply (add_to_spec m _ c N) in I. rewrite filter_app. cbn [filter]. unfold named at 2. destruct I as [[Ne I]|[-> I]].
    + destruct (list_eq_dec _ _ _) as [X|_]; [congruence|]. rewrite app_nil_r. apply L. exact I.
    + destruct (list_eq_dec _ _ _) as [_|X]; [|congruence]. destruct I as [(l' & I & ->)|[I ->]]; [rewrite <- (L _ _ I); reflexivity|].
      rewrite K in I. assert (filter (named (co_name c)) cs = []) as ->; [|reflexivity]. clear - I. induction cs as [|x cs IH]; [reflexivity|]. cbn [filter]. unfold named at 1. destruct (list_eq_dec _ _ _) as [X|_]; [exfalso; apply I; left; exact X|]. apply IH. intros X. apply I. right. exact X.
Qed.
Lemma node_list_ok m : Forall (fun x => fst x <> [] /\ snd x <> []) m -> build_node_list m = Ok (map (fun x => Node (fst x) (snd x)) m).
Proof.
  induction 1 as [|[n l] m [Hn Hl] H IH]; [reflexivity|]. cbn [build_node_list map fst snd] in *. destruct l as [|c l]; [contradiction|]. destruct n as [|b n]; [contradiction|]. rewrite IH. reflexivity.
Qed.

(* ---- the cache ---- *)
Definition recorded (t : atoken) (p : bytes * root) : Prop := fst p = at_discovery t /\ mirrors t (snd p).
Definition records (l : list atoken) (ins : gmap root) : Prop := Forall2 recorded (rev l) ins.
Lemma records_app a b ia ib : records a ia -> records b ib -> records (a ++ b) (ib ++ ia).
Proof. unfold records. intros H1 H2. rewrite rev_app_distr. apply Forall2_app; assumption. Qed.
Lemma records_lookup l ins s w : records l ins -> (exists x, In x l /\ at_discovery x = w) -> exists y r, mlookup (ins ++ s) w = Some r /\ last_with w l y /\ mirrors y r.
Proof.
  unfold records. intros H. remember (rev l) as l' eqn:E. revert l E. induction H as [|t p l' ins [E1 M] H IH]; intros l E (x & Ix & Ex).
  - assert (l = []) as -> by (rewrite <- (rev_involutive l), <- E; reflexivity). destruct Ix.
  - assert (El : l = rev l' ++ [t]) by (rewrite <- (rev_involutive l), <- E; reflexivity). destruct p as [k r]. cbn [fst snd] in *. cbn [app mlookup]. destruct (bytes_eqb k w) eqn:Ek.
    + apply bytes_eqb_eq in Ek. exists t, r. split; [reflexivity|]. split; [|exact M]. exists (rev l'), []. split; [exact El|]. split; [congruence|constructor].
    + apply bytes_eqb_neq in Ek. subst l. apply in_app_or in Ix. destruct Ix as [Ix|[<-|[]]]; [|congruence]. destruct (IH (rev l') (eq_sym (rev_involutive l')) (ex_intro _ x (conj Ix Ex))) as (y & r' & L & (a & b & Ey & Ty & Fb) & My).
      exists y, r'. split; [exact L|]. split; [|exact My]. exists a, (b ++ [t]). split; [rewrite Ey, <- app_assoc; reflexivity|]. split; [exact Ty|]. apply Forall_app. split; [exact Fb|]. constructor; [congruence|constructor].
Qed.
Lemma all_of_self t : In t (all_of t).
Proof. destruct t. rewrite all_of_kids. apply in_or_app. right. left. reflexivity. Qed.

Definition root_case (t : atoken) (s : gmap root) : Prop :=
  (at_matches t = [] /\ to_root_in t s = (Ok None, s)) \/
  (solid t /\ exists r ins, to_root_in t s = (Ok (Some r), ins ++ s) /\ records (all_of t) ins /\ mirrors t r) \/
  (at_matches t <> [] /\ ~ solid t /\ exists s', to_root_in t s = (Err, s')).
Lemma each_case l : (forall x, In x l -> forall s, root_case x s) -> forall s,
  ((forall x, In x l -> solid x) /\ exists ins, rm_each to_root_in l s = (Ok tt, ins ++ s) /\ records (concat (map all_of l)) ins) \/
  ((exists x, In x l /\ ~ solid x) /\ exists s', rm_each to_root_in l s = (Err, s')) \/
  ((exists x, In x l /\ at_matches x = []) /\ exists s', rm_each to_root_in l s = (Ok tt, s')).
Proof.
  induction l as [|x l IH]; intros H s; [left; split; [intros x []|]; exists []; split; [reflexivity|constructor]|]. cbn [rm_each]. unfold rm_bind.
  destruct (H x (or_introl eq_refl) s) as [[Hm ->]|[(So & r & ins & -> & R & _)|(_ & Ns & s' & ->)]].
  - destruct (IH (fun y Hy => H y (or_intror Hy)) s) as [(_ & ins & -> & _)|[((y & Iy & Ny) & s' & ->)|((y & Iy & Ny) & s' & ->)]].
    + right. right. split; [exists x; split; [left; reflexivity|exact Hm]|eexists; reflexivity].
    + right. left. split; [exists y; split; [right; exact Iy|exact Ny]|eexists; reflexivity].
    + right. right. split; [exists x; split; [left; reflexivity|exact Hm]|eexists; reflexivity].
  - destruct (IH (fun y Hy => H y (or_intror Hy)) (ins ++ s)) as [(So' & ins' & -> & R')|[((y & Iy & Ny) & s' & ->)|((y & Iy & Ny) & s' & ->)]].
    + left. split; [intros y [<-|Iy]; auto|]. exists (ins' ++ ins). split; [rewrite app_assoc; reflexivity|]. cbn [map concat]. apply records_app; assumption.
    + right. left. split; [exists y; split; [right; exact Iy|exact Ny]|eexists; reflexivity].
    + right. right. split; [exists y; split; [right; exact Iy|exact Ny]|eexists; reflexivity].
  - right. left. split; [exists x; split; [left; reflexivity|exact Ns]|eexists; reflexivity].
Qed.
Lemma build_container_case w n o : (w <> [] /\ n <> [] /\ build_container w n o = Ok (Container w n o)) \/ ((w = [] \/ n = []) /\ build_container w n o = Err).
Proof. destruct w as [|b w]; [right; auto|]. destruct n as [|c n]; [right; auto|]. left. split; [discriminate|]. split; [discriminate|reflexivity]. Qed.
Definition proper (e : entry) : Prop := en_name e <> [] /\ en_text e <> [].
(* all kids recorded: the second loop *)
Lemma fold_solid all ins s es : records all ins -> (forall n x, In (EToken n x) es -> In x all) -> forall cs0,
  (Forall proper es /\ exists cs, rm_fold (add_entry to_root_in) (grouped cs0) es (ins ++ s) = (Ok (grouped (cs0 ++ cs)), ins ++ s) /\ holds all es cs) \/
  (~ Forall proper es /\ rm_fold (add_entry to_root_in) (grouped cs0) es (ins ++ s) = (Err, ins ++ s)).
Proof.
  intros R. induction es as [|e es IH]; intros Hk cs0.
  - left. split; [constructor|]. exists []. rewrite app_nil_r. split; [reflexivity|constructor].
  - cbn [rm_fold].
    assert (E : exists o, (match e with EText _ _ => o = None | EToken _ t => exists y r, o = Some r /\ last_with (at_discovery t) all y /\ mirrors y r end) /\
      add_entry to_root_in (grouped cs0) e (ins ++ s) = (let* c := build_container (en_text e) (en_name e) o in Ok (grouped (cs0 ++ [c])), ins ++ s)).
    { destruct e as [n w|n t]; cbn [add_entry en_text en_name].
      - exists None. split; [reflexivity|]. destruct (build_container_case w n None) as [(_ & _ & ->)|[_ ->]]; [|reflexivity]. cbn [bind]. unfold grouped. rewrite fold_left_app. reflexivity.
      - destruct (records_lookup all ins s (at_discovery t) R) as (y & r & L & La & M); [exists t; split; [apply (Hk n); left; reflexivity|reflexivity]|]. exists (Some r). split; [exists y, r; auto|].
        unfold rm_bind, with_cache. rewrite L. destruct (build_container_case (at_discovery t) n (Some r)) as [(_ & _ & ->)|[_ ->]]; [|reflexivity]. cbn [bind]. unfold grouped. rewrite fold_left_app. reflexivity. }
    destruct E as (o & Ho & E). unfold rm_bind. rewrite E. destruct (build_container_case (en_text e) (en_name e) o) as [(Hw & Hn & ->)|[Hb ->]]; cbn [bind].
    + destruct (IH (fun n x I => Hk n x (or_intror I)) (cs0 ++ [Container (en_text e) (en_name e) o])) as [(F & cs & Ec & Hc)|(F & Ec)]; rewrite Ec.
      * left. split; [constructor; [split; assumption|exact F]|]. exists (Container (en_text e) (en_name e) o :: cs). split; [rewrite <- app_assoc; reflexivity|]. destruct e as [n w|n t]; cbn [en_text en_name].
        -- subst o. constructor. exact Hc.
        -- destruct Ho as (y & r & -> & La & M). econstructor; eassumption.
      * right. split; [|reflexivity]. intros X. inversion X; subst. contradiction.
    + right. split; [|reflexivity]. intros X. inversion X as [|? ? [X1 X2] _]; subst. destruct Hb; contradiction.
Qed.
(* an empty kid: the second loop fails whatever the cache is *)
Lemma fold_empty es : (forall n x, In (EToken n x) es -> forall s, root_case x s) -> (exists n x, In (EToken n x) es /\ at_matches x = []) -> forall m s, exists s', rm_fold (add_entry to_root_in) m es s = (Err, s').
Proof.
  induction es as [|e es IH]; intros H (n & x & I & Em) m s; [destruct I|]. cbn [rm_fold]. unfold rm_bind.
  assert (C : (exists s', add_entry to_root_in m e s = (Err, s')) \/ (~ (exists n x, e = EToken n x /\ at_matches x = []) /\ exists m' s', add_entry to_root_in m e s = (Ok m', s'))).
  { destruct e as [k w|k t]; cbn [add_entry].
    - destruct (build_container_case w k None) as [(_ & _ & ->)|[_ ->]]; cbn [bind]; [right|left; eexists; reflexivity]. split; [intros (n0 & x0 & X & _); discriminate|eexists _, _; reflexivity].
    - unfold rm_bind. assert (W : (exists o s', with_cache to_root_in t s = (Ok o, s')) \/ (exists s', with_cache to_root_in t s = (Err, s'))).
      { unfold with_cache. destruct (mlookup s (at_discovery t)); [left; eexists _, _; reflexivity|]. destruct (H k t (or_introl eq_refl) s) as [[_ ->]|[(_ & r & ins & -> & _)|(_ & _ & s' & ->)]]; [left|left|right]; eauto. }
      destruct W as [(o & s' & ->)|(s' & ->)]; [|left; eexists; reflexivity]. destruct (build_container_case (at_discovery t) k o) as [(Hw & _ & ->)|[_ ->]]; cbn [bind]; [right|left; eexists; reflexivity].
      split; [|eexists _, _; reflexivity]. intros (n0 & x0 & X & Y). inversion X; subst. destruct x0 as [nm ln ms]. cbn in Y. subst ms. contradiction. }
  destruct C as [(s' & ->)|(Ne & m' & s' & ->)]; [eexists; reflexivity|]. apply IH; [intros k y Iy; apply (H k); right; exact Iy|].
  destruct I as [->|I]; [exfalso; apply Ne; exists n, x; auto|exists n, x; auto].
Qed.
Lemma holds_names all es cs : holds all es cs -> map co_name cs = map en_name es.
Proof. induction 1; cbn; congruence. Qed.
Lemma holds_filter all es cs n : holds all es cs -> holds all (filter (has_name n) es) (filter (named n) cs).
Proof.
  induction 1 as [all|all m w l cs H IH|all m t y r l cs L M H IH]; [constructor| |]; cbn [filter]; unfold has_name at 1, named at 1; cbn [en_name co_name]; destruct (list_eq_dec _ m n); try exact IH; econstructor; eassumption.
Qed.
Lemma proper_dec es : {Forall proper es} + {~ Forall proper es}.
Proof. apply Forall_dec. intros e. unfold proper. destruct (en_name e); [right; intros [X _]; contradiction|]. destruct (en_text e); [right; intros [_ X]; contradiction|]. left. split; discriminate. Qed.

Lemma to_root_cases t : forall s, root_case t s.
Proof.
  induction t as [name line ms IH] using atoken_ind_kids. intros s. destruct ms as [|m0 ms0]; [left; split; reflexivity|]. right.
  assert (E : to_root_in (AToken name line (m0 :: ms0)) s =
    rm_bind (rm_each to_root_in (kids (entries (m0 :: ms0)))) (fun _ =>
    rm_bind (rm_fold (add_entry to_root_in) [] (entries (m0 :: ms0))) (fun m s =>
    match (let* l := build_nodes m in build_root (at_discovery (AToken name line (m0 :: ms0))) name l) with
    | Ok r => (Ok (Some r), minsert s (at_discovery (AToken name line (m0 :: ms0))) r)
    | Err => (Err, s)
    | Panic => (Panic, s)
    | NoFuel => (NoFuel, s)
    end)) s).
  { cbn [to_root_in]. unfold rm_bind at 1. rewrite each_kids. unfold rm_bind at 2. destruct (rm_each _ _ s) as [[[]| | |] s']; try reflexivity. unfold rm_bind. rewrite fold_entries. reflexivity. }
  set (ms := m0 :: ms0) in *. set (t := AToken name line ms) in *.
  assert (Ki : forall x, In x (kids (entries ms)) -> forall s, root_case x s) by (intros x Ix; apply kids_in in Ix; destruct Ix as [n Ix]; apply (IH n x Ix)).
  destruct (each_case (kids (entries ms)) Ki s) as [(So & ins & Ee & R)|[((x & Ix & Nx) & s' & Ee)|((x & Ix & Nx) & s' & Ee)]].
  - unfold rm_bind in E. rewrite Ee in E. cbv beta iota in E.
    assert (Hk : forall n x, In (EToken n x) (entries ms) -> In x (within t)).
    { intros n x I. unfold t. rewrite within_kids. apply in_concat. exists (all_of x). split; [apply in_map; apply kids_in; exists n; exact I|apply all_of_self]. }
    assert (R' : records (within t) ins) by (unfold t; rewrite within_kids; exact R).
    destruct (fold_solid (within t) ins s (entries ms) R' Hk []) as [(F & cs & Ef & Hc)|(F & Ef)].
    + change (grouped []) with (@nil (bytes * list container)) in Ef. rewrite Ef in E. cbn [app] in E. cbv beta iota in E.
      destruct (grouped_spec cs) as (G1 & G2 & G3). assert (Hn := holds_names _ _ _ Hc).
      assert (Fg : Forall (fun x => fst x <> [] /\ snd x <> []) (grouped cs)).
      { apply Forall_forall. intros [n l] I. cbn [fst snd]. assert (In_ : In n (map co_name cs)) by (apply G2; apply (in_map fst) in I; exact I). split.
        - rewrite Hn in In_. apply in_map_iff in In_. destruct In_ as (e & <- & Ie). rewrite Forall_forall in F. apply (F e Ie).
        - apply G3 in I. subst l. apply in_map_iff in In_. destruct In_ as (c & Ec & Ic). intros X. assert (Y : In c (filter (named n) cs)); [|rewrite X in Y; destruct Y]. apply filter_In. split; [exact Ic|]. unfold named. destruct (list_eq_dec _ _ _); [reflexivity|contradiction]. }
      unfold build_nodes in E. rewrite (node_list_ok _ Fg) in E. cbn [bind] in E.
      destruct (list_eq_dec Byte.byte_eq_dec name []) as [Nm|Nm].
      * right. subst name. split; [discriminate|]. split; [intros X; inversion X; contradiction|]. exists (ins ++ s). rewrite E. destruct (map _ (grouped cs)); [reflexivity|]. cbn [bind]. destruct (at_discovery t); reflexivity.
      * destruct (entries ms) as [|e0 es0] eqn:Een.
        -- right. split; [discriminate|]. split; [intros X; inversion X; congruence|]. inversion Hc; subst. exists (ins ++ s). rewrite E. reflexivity.
        -- left. rewrite <- Een in *. assert (Ne : entries ms <> []) by (rewrite Een; discriminate).
           assert (Td : at_discovery t <> []). { unfold t. rewrite at_disc_entries, Een. cbn [map concat]. rewrite Een in F. inversion F as [|? ? [_ X] _]; subst. destruct (en_text e0); [contradiction|discriminate]. }
           assert (Gn : grouped cs <> []). { intros X. rewrite X in G2. specialize (G2 (en_name e0)). cbn in G2. apply G2. rewrite Hn, Een. left. reflexivity. }
           assert (Er : (let* l := match map (fun x => Node (fst x) (snd x)) (grouped cs) with [] => Err | _ :: _ => Ok (map (fun x => Node (fst x) (snd x)) (grouped cs)) end in build_root (at_discovery t) name l) = Ok (Root (at_discovery t) name (map (fun x => Node (fst x) (snd x)) (grouped cs)))).
           { destruct (grouped cs); [contradiction|]. cbn [map bind]. unfold build_root. destruct (at_discovery t); [contradiction|]. destruct name; [contradiction|reflexivity]. }
           rewrite Er in E.
           assert (M : mirrors t (Root (at_discovery t) name (map (fun x => Node (fst x) (snd x)) (grouped cs)))).
           { assert (Km : map no_name (map (fun x : bytes * list container => Node (fst x) (snd x)) (grouped cs)) = map fst (grouped cs)) by (rewrite map_map; reflexivity).
             constructor; rewrite ?Km; [exact G1|intros n; rewrite G2, Hn; reflexivity|]. intros x Ix. apply in_map_iff in Ix. destruct Ix as ([n l] & <- & I). cbn [no_name no_list fst snd]. rewrite (G3 n l I). apply holds_filter. exact Hc. }
           split; [constructor; [exact Nm|exact Ne|rewrite Forall_forall in F; exact F|]; intros n x I; apply So; apply kids_in; exists n; exact I|].
           eexists _, ((at_discovery t, _) :: ins). split; [rewrite E; reflexivity|]. split; [|exact M]. unfold t at 1. rewrite all_of_kids. apply (records_app _ [_] ins [_]); [exact R|]. constructor; [|constructor]. split; [reflexivity|exact M].
    + right. split; [discriminate|]. split; [intros X; inversion X; subst; apply F; apply Forall_forall; assumption|]. change (grouped []) with (@nil (bytes * list container)) in Ef. rewrite Ef in E. eexists. exact E.
  - right. split; [discriminate|]. split; [|unfold rm_bind in E; rewrite Ee in E; eexists; exact E]. apply kids_in in Ix. destruct Ix as [n Ix]. intros X. inversion X; subst. apply Nx. eauto.
  - right. apply kids_in in Ix. destruct Ix as [n Ix]. split; [discriminate|]. split.
    + intros X. inversion X as [? ? ? _ _ _ Hs]; subst. specialize (Hs n x Ix). inversion Hs; subst. cbn in Nx. subst. contradiction.
    + unfold rm_bind in E. rewrite Ee in E. destruct (fold_empty (entries ms) IH (ex_intro _ n (ex_intro _ x (conj Ix Nx))) [] s') as (s2 & Ef). rewrite Ef in E. eexists. exact E.
Qed.

Lemma root_answers t s : (solid t -> exists r, fst (to_root t s) = Ok (Some r) /\ mirrors t r) /\ (at_matches t = [] -> fst (to_root t s) = Ok None) /\ (at_matches t <> [] -> ~ solid t -> fst (to_root t s) = Err).
Proof.
  unfold to_root. destruct (to_root_cases t []) as [[Hm E]|[(So & r & ins & E & _ & M)|(Hm & Ns & s' & E)]]; rewrite E; cbn [fst]; repeat split; intros; try contradiction; try reflexivity.
  - match goal with H : solid _ |- _ => inversion H; subst end. cbn in Hm. subst. contradiction.
  - exists r. auto.
  - inversion So; subst. cbn in *. subst. contradiction.
Qed.
Lemma root_mirrors t s r : fst (to_root t s) = Ok (Some r) -> mirrors t r.
Proof. unfold to_root. destruct (to_root_cases t []) as [[Hm E]|[(So & r' & ins & E & _ & M)|(Hm & Ns & s' & E)]]; rewrite E; cbn [fst]; intros H; inversion H; subst; exact M. Qed.
