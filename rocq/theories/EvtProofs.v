From Coq Require Import Strings.String Strings.Byte Sorting.Permutation Lia.
From Verif Require Import Go GoLemmas RuleModel RootModel RootSpec RootProofs RootProofs2 ParseModel ParseSpec ParseProofs BaseModel EvtModel EvtSpec.
Open Scope list_scope.

(* ---- roots inside of a root ---- *)
Fixpoint r_height (r : root) : nat := match r with Root _ _ l => S (list_max (map n_height l)) end
with n_height (n : node) : nat := match n with Node _ l => list_max (map c_height l) end
with c_height (c : container) : nat := match c with Container _ _ o => match o with Some r => r_height r | None => 0 end end.
Lemma list_max_in x l : In x l -> x <= list_max l.
Proof. intros H. assert (K := proj1 (list_max_le l (list_max l)) (le_n _)). rewrite Forall_forall in K. apply K. exact H. Qed.
Lemma height_child r n c q : In n (ro_nodes r) -> In c (no_list n) -> co_root c = Some q -> r_height q < r_height r.
Proof.
  destruct r as [w k l]. cbn [ro_nodes r_height]. intros Hn Hc E. destruct n as [m cs]. cbn [no_list] in Hc.
  assert (A : c_height c <= n_height (Node m cs)) by (cbn [n_height]; apply list_max_in, in_map, Hc).
  assert (B : n_height (Node m cs) <= list_max (map n_height l)) by (apply list_max_in, in_map, Hn).
  destruct c as [u v o]. cbn in E. subst o. cbn [c_height] in A. lia.
Qed.
Lemma height_deep n l : node_in n l -> forall r c q, ro_nodes r = l -> In c (no_list n) -> co_root c = Some q -> r_height q < r_height r.
Proof.
  induction 1 as [n l H|n x d p l Hx Hd Ep H IH]; intros r c q El Hc E; subst l.
  - eapply height_child; eassumption.
  - assert (A := IH p c q eq_refl Hc E). assert (B := height_child r x d p Hx Hd Ep). lia.
Qed.
Lemma height_inside q r : inside q r -> r_height q < r_height r.
Proof. intros (c & (n & Hn & Hc) & E). eapply height_deep; [exact Hn|reflexivity|exact Hc|exact E]. Qed.

(* ---- the manager only runs events on roots inside of the one it is given ---- *)
Section Local.
Context {O : Type}.
Implicit Types E : events O.
Definition below E E' (q : root) : Prop := forall name o, execute_events E name q o -> execute_events E' name q o.
Lemma fetch_below E E' name c o : (forall q, co_root c = Some q -> below E E' q) -> fetch_or_execute E name c o -> fetch_or_execute E' name c o.
Proof. intros B H. inversion H; subst; [constructor; assumption|eapply fe_root; [eassumption|]; eapply B; eassumption]. Qed.
Lemma event_list_below E E' name l o : (forall c q, In c l -> co_root c = Some q -> below E E' q) -> event_list E name l o -> event_list E' name l o.
Proof.
  intros B H. induction H as [|c cs x ins o F H IH|c cs F|c cs F].
  - constructor.
  - constructor; [eapply fetch_below; [|exact F]; intros q; apply B; left; reflexivity|apply IH; intros d q Hd; apply B; right; exact Hd].
  - apply el_err. eapply fetch_below; [|exact F]; intros q; apply B; left; reflexivity.
  - apply el_pan. eapply fetch_below; [|exact F]; intros q; apply B; left; reflexivity.
Qed.
Lemma trigger_below E E' name r o : (forall q, inside q r -> below E E' q) -> trigger E name r o -> trigger E' name r o.
Proof.
  intros B H. inversion H as [Hs|Hs|q x Hs He|n x Hs He|c x Hs He]; subst.
  - apply tr_error; assumption.
  - apply tr_nothing; assumption.
  - destruct (scan_sound _ _ _ Hs).
  - apply scan_sound in Hs as Hi. eapply tr_node; [exact Hs|]. eapply event_list_below; [|exact He]. intros c q Hc Eq. apply B. exists c. split; [exists n; split; [apply Hi|exact Hc]|exact Eq].
  - apply scan_sound in Hs as Hi. eapply tr_container; [exact Hs|]. eapply fetch_below; [|exact He]. intros q Eq. apply B. exists c. split; [apply Hi|exact Eq].
Qed.
(* ... and always answers if these events do *)
Definition total_at E q : Prop := forall name, exists o, execute_events E name q o /\ o <> NoFuel.
Lemma fetch_total E name c : (forall q, co_root c = Some q -> total_at E q) -> exists o, fetch_or_execute E name c o /\ o <> NoFuel.
Proof.
  intros T. destruct (co_root c) as [q|] eqn:Er; [|eexists; split; [apply fe_text; exact Er|discriminate]].
  destruct (T q eq_refl name) as (o & H & N). exists o. split; [eapply fe_root; eassumption|exact N].
Qed.
Lemma event_list_total E name l : (forall c q, In c l -> co_root c = Some q -> total_at E q) -> exists o, event_list E name l o /\ o <> NoFuel.
Proof.
  induction l as [|c l IH]; intros T; [exists (Ok []); split; [constructor|discriminate]|].
  destruct (fetch_total E name c) as (o & H & N); [intros q; apply T; left; reflexivity|]. destruct IH as (o' & H' & N'); [intros d q Hd; apply T; right; exact Hd|].
  destruct o as [[x ins]| | |]; [|exists Err; split; [apply el_err; exact H|discriminate]|exists Panic; split; [apply el_pan; exact H|discriminate]|congruence].
  eexists; split; [eapply el_value; eassumption|]. destruct o'; cbn; congruence.
Qed.
Lemma build_result_fuel (a : option (list (value O))) b : build_result a b <> NoFuel.
Proof. unfold build_result. destruct (match b with VNil => a | _ => Some [b] end) as [[|]|]; discriminate. Qed.
Lemma trigger_total E name r : (forall q, inside q r -> total_at E q) -> exists o, trigger E name r o /\ o <> NoFuel.
Proof.
  intros T. destruct (scan_total name r _ (Permutation_refl _)) as [s Hs]. assert (Hs' : scan_nodes name (ro_nodes r) s) by (eapply sn_order; [apply Permutation_refl|exact Hs]).
  destruct s as [[q|n|c]| |].
  - destruct (scan_sound _ _ _ Hs').
  - apply scan_sound in Hs' as Hi. destruct (event_list_total E name (no_list n)) as (o & H & N).
    { intros c q Hc Eq. apply T. exists c. split; [exists n; split; [apply Hi|exact Hc]|exact Eq]. }
    eexists; split; [eapply tr_node; eassumption|]. destruct o; cbn [bind]; try congruence; apply build_result_fuel.
  - apply scan_sound in Hs' as Hi. destruct (fetch_total E name c) as (o & H & N).
    { intros q Eq. apply T. exists c. split; [apply Hi|exact Eq]. }
    eexists; split; [eapply tr_container; eassumption|]. destruct o; cbn [bind]; try congruence; apply build_result_fuel.
  - eexists; split; [apply tr_nothing; exact Hs'|apply build_result_fuel].
  - eexists; split; [apply tr_error; exact Hs'|discriminate].
Qed.
End Local.

(* ---- programs ---- *)
Lemma runs_mono {A} (t t' : bytes -> res val -> Prop) (p : prog A) o : (forall n x, t n x -> t' n x) -> runs t p o -> runs t' p o.
Proof. intros M H. induction H; [constructor|eapply rn_ok; [apply M; eassumption|assumption]|apply rn_err; apply M; assumption|apply rn_panic; apply M; assumption]. Qed.
(* a program none of whose leaves is NoFuel *)
Inductive ends {A} : prog A -> Prop :=
| ends_ret r : r <> NoFuel -> ends (Ret r)
| ends_trigger n k : (forall v, ends (k v)) -> ends (Trigger n k).
Lemma ends_bind {A B} (p : prog A) (f : A -> prog B) : ends p -> (forall a, ends (f a)) -> ends (pbind p f).
Proof. intros H F. induction H as [r N|n k H IH]; cbn; [destruct r; [apply F|constructor; discriminate|constructor; discriminate|congruence]|constructor; exact IH]. Qed.
Lemma runs_ends {A} t (p : prog A) : ends p -> (forall n, exists o, t n o /\ o <> NoFuel) -> exists o, runs t p o /\ o <> NoFuel.
Proof.
  intros H T. induction H as [r N|n k H IH]; [exists r; split; [constructor|exact N]|]. destruct (T n) as (o & Ho & N). destruct o as [v| | |]; [|exists Err; split; [apply rn_err; exact Ho|discriminate]|exists Panic; split; [apply rn_panic; exact Ho|discriminate]|congruence].
  destruct (IH v) as (o & Hr & N'). exists o. split; [eapply rn_ok; eassumption|exact N'].
Qed.
Lemma ends_no_fuel {A} t (p : prog A) : ends p -> ~ runs t p NoFuel.
Proof. intros H. induction H as [r N|n k H IH]; intros R; inversion R; subst; [congruence|]. eapply IH; eassumption. Qed.

Section Base.
Variable bitsize : N.
Variable parse_float : bytes -> N -> option N.
Notation bodies := (bodies bitsize parse_float).
Notation events_at := (events_at bitsize parse_float).
Notation base_events := (base_events bitsize parse_float).
Notation make_events := (make_events bitsize parse_float).

(* the event of a name *)
Definition body_of (name : bytes) : option (root -> prog val) :=
  option_map snd (find (fun b => bytes_eqb (bs (fst b)) name) bodies).
Lemma lookup_map_fst {A B} (f : A -> B) (key : A -> bytes) l name :
  mlookup (map (fun b => (key b, f b)) l) name = option_map f (find (fun b => bytes_eqb (key b) name) l).
Proof. unfold mlookup. induction l as [|x l IH]; [reflexivity|]. cbn [map find fst snd]. destruct (bytes_eqb (key x) name) eqn:E; [reflexivity|exact IH]. Qed.

Definition answer (o : res val) : res (option (list val) * val) := let* v := o in Ok (unwrap v).
Lemma loop_one (e : event obj) r x : event_loop r [e] x <-> exists o, e r o /\ o <> NoFuel /\ x = answer o.
Proof.
  split.
  - intros H. inversion H as [|? ? v Hv|? ? ? Hv Hl|? ? Hv]; subst.
    + exists (Ok v). split; [exact Hv|]. split; [discriminate|reflexivity].
    + exists Err. split; [exact Hv|]. split; [discriminate|]. inversion Hl. reflexivity.
    + exists Panic. split; [exact Hv|]. split; [discriminate|reflexivity].
  - intros (o & Ho & N & ->). destruct o as [v| | |]; [apply el_ok; exact Ho|apply el_fail; [exact Ho|constructor]|apply el_panic; exact Ho|congruence].
Qed.
Lemma execute_body (E : events obj) (g : (root -> prog val) -> event obj) name r x :
  E = map (fun b => (bs (fst b), [g (snd b)])) bodies ->
  execute_events E name r x <-> match body_of name with Some b => exists o, g b r o /\ o <> NoFuel /\ x = answer o | None => x = Err end.
Proof.
  intros ->. assert (L := lookup_map_fst (fun b : string * (root -> prog val) => [g (snd b)]) (fun b => bs (fst b)) bodies name). unfold body_of. split.
  - intros H. inversion H as [l o E Hl|E]; subst; apply (eq_trans (eq_sym L)) in E; clear L; destruct (find _ bodies) as [b|]; cbn in *; try discriminate; [|reflexivity]. injection E as <-. apply loop_one. exact Hl.
  - destruct (find _ bodies) as [b|] eqn:F; cbn.
    + intros H. eapply ee_found; [exact L|]. apply loop_one. exact H.
    + intros ->. apply ee_absent. exact L.
Qed.
Definition outcome_at (n : nat) name r x : Prop := execute_events (events_at n) name r x.
Lemma execute_make t name r x : execute_events (make_events t) name r x <-> match body_of name with Some b => exists o, runs (fun m => t m r) (b r) o /\ o <> NoFuel /\ x = answer o | None => x = Err end.
Proof. apply (execute_body (make_events t) (fun b r o => runs (fun m => t m r) (b r) o)). reflexivity. Qed.
Lemma execute_base name r x : execute_events base_events name r x <-> match body_of name with Some b => exists o, (exists n, runs (fun m => trigger (events_at n) m r) (b r) o) /\ o <> NoFuel /\ x = answer o | None => x = Err end.
Proof. apply (execute_body base_events (fun b r o => exists n, runs (fun m => trigger (events_at n) m r) (b r) o)). reflexivity. Qed.
Lemma make_below (t t' : bytes -> root -> res val -> Prop) r : (forall m x, t m r x -> t' m r x) -> below (make_events t) (make_events t') r.
Proof.
  intros M name o. rewrite !execute_make. destruct (body_of name) as [b|]; [|auto]. intros (x & H & N & ->). exists x. split; [|auto]. eapply runs_mono; [|exact H]. intros m y. apply M.
Qed.
Lemma events_at_grow n : forall r, below (events_at n) (events_at (S n)) r.
Proof.
  induction n as [|n IH]; intros r; cbn [EvtModel.events_at]; apply make_below; [intros m x []|]. intros m x H. eapply trigger_below; [|exact H]. intros q _. apply IH.
Qed.
Lemma events_at_le n k r : n <= k -> below (events_at n) (events_at k) r.
Proof. induction 1 as [|k L IH]; [intros m x H; exact H|]. intros m x H. apply events_at_grow. apply IH. exact H. Qed.
Lemma events_at_stable n : forall k r, r_height r <= n -> below (events_at k) (events_at n) r.
Proof.
  induction n as [|n IH]; intros k r Hh; [destruct r; cbn in Hh; lia|]. destruct k as [|k]; cbn [EvtModel.events_at]; apply make_below; [intros m x []|].
  intros m x H. eapply trigger_below; [|exact H]. intros q Hq. apply IH. assert (K := height_inside q r Hq). lia.
Qed.
Lemma base_at n r : r_height r <= n -> below base_events (events_at n) r /\ below (events_at n) base_events r.
Proof.
  intros Hh. split; intros name x.
  - rewrite execute_base. intros H. assert (K : exists k, execute_events (events_at (S k)) name r x).
    { cbn [EvtModel.events_at]. destruct (body_of name) as [b|] eqn:B.
      - destruct H as (o & (k & H) & N & ->). exists k. rewrite execute_make, B. exists o. auto.
      - exists 0. rewrite execute_make, B. exact H. }
    destruct K as [k K]. eapply events_at_stable; [exact Hh|exact K].
  - intros H. assert (K := events_at_grow n r name x H). cbn [EvtModel.events_at] in K. rewrite execute_make in K. rewrite execute_base. destruct (body_of name) as [b|]; [|exact K]. destruct K as (o & K & N & ->). exists o. split; [exists n; exact K|auto].
Qed.
Lemma base_trigger n r : r_height r <= S n -> forall name o, trigger base_events name r o <-> trigger (events_at n) name r o.
Proof. intros Hh name o. split; apply trigger_below; intros q Hq; assert (K := height_inside q r Hq); apply base_at; lia. Qed.
Lemma base_fix name r x : execute_events base_events name r x <-> match body_of name with Some b => exists o, runs (fun m => trigger base_events m r) (b r) o /\ o <> NoFuel /\ x = answer o | None => x = Err end.
Proof.
  assert (A : execute_events base_events name r x <-> execute_events (events_at (S (r_height r))) name r x) by (split; apply base_at; lia).
  rewrite A. cbn [EvtModel.events_at]. rewrite execute_make. destruct (body_of name) as [b|]; [|reflexivity].
  split; intros (o & H & N & E); exists o; (split; [|auto]); (eapply runs_mono; [|exact H]); intros m y; apply base_trigger; lia.
Qed.

(* ---- every event ends ---- *)
Lemma asserts_fuel {X} (f : obj -> option X) v : asserts f v <> NoFuel.
Proof. destruct v as [| | | |x]; cbn; try discriminate. destruct (f x); discriminate. Qed.
Lemma as_text_fuel v : as_text v <> NoFuel.
Proof. destruct v; discriminate. Qed.
Lemma all_of_fuel {X} (f : obj -> option X) v : EvtModel.all_of f v <> NoFuel.
Proof. unfold EvtModel.all_of. induction (list_of v) as [|x l IH]; [discriminate|]. cbn [mapM]. destruct (asserts f x) eqn:E; try discriminate; [|exfalso; revert E; apply asserts_fuel]. cbn [bind]. destruct (mapM _ l); try discriminate. congruence. Qed.
Lemma bind_fuel {A B} (r : res A) (f : A -> res B) : r <> NoFuel -> (forall a, f a <> NoFuel) -> (let* x := r in f x) <> NoFuel.
Proof. intros H F. destruct r; cbn; [apply F|discriminate|discriminate|congruence]. Qed.
Lemma now_fuel {X} (f : X -> obj) (r : res X) : r <> NoFuel -> ends (now f r).
Proof. intros H. constructor. destruct r; cbn; congruence. Qed.
Lemma vb_fuel ops : fst (vb_now (fold_left vb_step ops vb_init)) <> NoFuel.
Proof. destruct (fold_left vb_step ops vb_init) as [[|] [|] [|] [|] [|] [|] [|]]; discriminate. Qed.
Lemma ends_trig n : ends (trig n).
Proof. constructor. intros v. constructor. discriminate. Qed.
Lemma ends_get {X} n (f : obj -> option X) : ends (get n f).
Proof. apply ends_bind; [apply ends_trig|]. intros v. constructor. apply asserts_fuel. Qed.
Lemma ends_text n : ends (get_text n).
Proof. apply ends_bind; [apply ends_trig|]. intros v. constructor. apply as_text_fuel. Qed.
Lemma ends_opt {X} r n (p : prog X) : ends p -> ends (opt r n p).
Proof. intros H. unfold opt. destruct (has r n); [apply ends_bind; [exact H|]; intros x|]; constructor; discriminate. Qed.
Lemma ends_get_opt {X} r n (f : obj -> option X) : ends (get_opt r n f).
Proof. apply ends_opt, ends_get. Qed.
Lemma ends_name r : ends (name_opt r).
Proof. apply ends_bind; [apply ends_opt, ends_text|]. intros w. constructor. discriminate. Qed.
Lemma ends_commas {X} r n c (f : obj -> option X) : ends (with_commas r n c f).
Proof. apply ends_bind; [apply ends_get|]. intros x. apply ends_bind; [|intros l; constructor; discriminate]. apply ends_opt. apply ends_bind; [apply ends_trig|]. intros v. constructor. apply all_of_fuel. Qed.
Lemma parse_uint_fuel w : parse_uint w bitsize <> NoFuel.
Proof. unfold parse_uint. destruct (64 <? bitsize)%N; [discriminate|]. destruct (parse_digits w); [|discriminate]. destruct (_ <? _)%N; discriminate. Qed.
Lemma parse_neg_fuel w : parse_neg w bitsize <> NoFuel.
Proof. unfold parse_neg. destruct (64 <? bitsize)%N; [discriminate|]. destruct (parse_digits w); [|discriminate]. cbv zeta. destruct (_ <? _)%N; discriminate. Qed.
Ltac unfold_head t := match t with ?f _ => unfold_head f | ?f => unfold f end.
Ltac no_fuel := solve [discriminate | apply asserts_fuel | apply as_text_fuel | apply all_of_fuel | apply vb_fuel | apply parse_uint_fuel | apply parse_neg_fuel
  | try (match goal with |- ?t <> NoFuel => unfold_head t end);
    repeat (match goal with |- context[match ?x with _ => _ end] => first [is_var x; destruct x | destruct x] end); discriminate].
Ltac ends_go := repeat first
  [ apply ends_bind; [|intros ?] | apply ends_trig | apply ends_get | apply ends_text | apply ends_get_opt | apply ends_name | apply ends_commas | apply ends_opt
  | apply now_fuel; no_fuel | constructor; no_fuel
  | match goal with |- ends (if ?c then _ else _) => destruct c end ].
Lemma delimiter_fuel (l : list val) : (match l with _ :: y :: _ => let* x := asserts is_index y in Ok (Some x) | _ => Ok None end) <> NoFuel /\ (match l with x :: _ => asserts is_index x | [] => Panic end) <> NoFuel.
Proof. destruct l as [|x [|y l]]; (split; [|try discriminate; try apply asserts_fuel]); try discriminate. apply bind_fuel; [apply asserts_fuel|discriminate]. Qed.
Lemma all_end : Forall (fun b => forall r, ends (snd b r)) bodies.
Proof.
  unfold EvtModel.bodies.
  repeat (apply Forall_cons; [intros r; cbn [snd];
    match goal with |- ends (?f r) => first [unfold f | idtac] | |- ends (?f bitsize r) => unfold f | |- ends (?f bitsize parse_float r) => unfold f end; try unfold forward; ends_go|]).
  all: try constructor.
  - apply delimiter_fuel.
  - apply delimiter_fuel.
  - destruct (list_of a) as [|x [|y [|z l]]]; ends_go.
Qed.
Lemma body_in name b : body_of name = Some b -> exists n, In (n, b) bodies /\ bs n = name.
Proof.
  unfold body_of. destruct (find _ bodies) as [[n b']|] eqn:F; [|discriminate]. cbn. intros E. injection E as ->. apply find_some in F. destruct F as [I E]. exists n. split; [exact I|]. apply bytes_eqb_eq. exact E.
Qed.
Lemma body_ends name b r : body_of name = Some b -> ends (b r).
Proof. intros H. apply body_in in H. destruct H as (n & I & _). assert (K := proj1 (Forall_forall _ _) all_end _ I r). exact K. Qed.
Lemma base_total r : total_at base_events r.
Proof.
  remember (r_height r) as h eqn:Eh. revert r Eh. induction h as [h IH] using lt_wf_ind. intros r -> name.
  destruct (body_of name) as [b|] eqn:B.
  - destruct (runs_ends (fun m => trigger base_events m r) (b r)) as (o & H & N); [eapply body_ends; exact B| |].
    + intros m. apply trigger_total. intros q Hq. apply (IH (r_height q)); [apply height_inside; exact Hq|reflexivity].
    + exists (answer o). split; [apply base_fix; rewrite B; exists o; auto|]. destruct o; cbn; congruence.
  - exists Err. split; [apply base_fix; rewrite B; reflexivity|discriminate].
Qed.
Lemma base_no_fuel name r : ~ execute_events base_events name r NoFuel.
Proof. intros H. apply base_fix in H. destruct (body_of name); [|discriminate]. destruct H as (o & _ & N & E). destruct o; cbn in E; congruence. Qed.
End Base.
