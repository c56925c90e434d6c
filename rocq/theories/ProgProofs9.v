(* ProgProofs9.v - proofs for ProgProps.v: texts of the trees of a program; where they recur. *)
From Coq Require Import Strings.String Strings.Byte Sorting.Permutation Lia.
From Verif Require Import Go GoLemmas DomainModel LexModel AstModel RootModel TextModel PickSpec PickProofs2 LetterProofs ProgSpec ProgProofs ProgProofs2 ProgProofs3 ProgProofs5 ProgProofs6 ProgProofs7.
Open Scope list_scope.

(* ---- runs ---- *)
Lemma run_split a w : forall s w' s', Forall (fun b => In b a) w -> Forall (fun b => In b a) w' -> ends_class a s -> ends_class a s' -> w ++ s = w' ++ s' -> w = w' /\ s = s'.
Proof.
  induction w as [|b w IH]; intros s [|c w'] s' F F' E E' X; cbn [app] in X.
  - auto.
  - exfalso. inversion F' as [|? ? I _]; subst. exact (E _ _ eq_refl I).
  - exfalso. inversion F as [|? ? I _]; subst. exact (E' _ _ eq_refl I).
  - injection X as <- X. inversion F as [|? ? I F1]; subst. inversion F' as [|? ? I' F1']; subst. destruct (IH _ _ _ F1 F1' E E' X) as [-> ->]. auto.
Qed.
Lemma ends_byte a b s : in_b b a = false -> ends_class a (b :: s).
Proof. intros H c t E I. injection E as <- _. apply in_b_ok in I. congruence. Qed.
Lemma ends_class_app a l w s : misses l a = true -> Forall (fun b => In b l) w -> w <> [] -> ends_class a (w ++ s).
Proof. intros M F N c t E. destruct w as [|b w]; [contradiction|]. cbn in E. injection E as <- _. inversion F as [|? ? I _]; subst. exact (misses_ok l a b M I). Qed.
Lemma ends_nil a : ends_class a [].
Proof. intros b t E. discriminate. Qed.
Lemma name_letters w : is_name w -> w <> [] /\ Forall (fun b => In b letters) w.
Proof. intros (a & v & -> & I & _ & F). split; [discriminate|]. constructor; [apply in_or_app; left; exact I|exact F]. Qed.
Lemma type_letters t : type_text t <> [] /\ Forall (fun b => In b letters) (type_text t).
Proof. apply name_letters, type_name. Qed.
Lemma type_inj t t' : type_text t = type_text t' -> t = t'.
Proof. destruct t, t'; intros H; try reflexivity; vm_compute in H; discriminate H. Qed.
Lemma spaces_letters : misses spaces letters = true. Proof. reflexivity. Qed.
Lemma letters_spaces : misses letters spaces = true. Proof. reflexivity. Qed.

(* ---- texts ---- *)
Lemma lead_text g l : concat (map tree_text (lead g ++ l)) = g ++ concat (map tree_text l).
Proof. destruct g; reflexivity. Qed.
Lemma name_text w : is_name w -> tree_text (name_tree w) = w.
Proof. intros (a & v & -> & _). cbn. rewrite app_nil_r. reflexivity. Qed.
Lemma type_tree_text t : tree_text (type_tree t) = type_text t.
Proof. destruct t; reflexivity. Qed.
Lemma decl_text t g w : is_name w -> tree_text (decl_tree t g w) = type_text t ++ g ++ w.
Proof. intros W. unfold decl_tree. cbn [tree_text map concat]. rewrite type_tree_text, lead_text. cbn [map concat]. rewrite app_nil_r, (name_text w W). reflexivity. Qed.
Lemma stmt_tree_text x : good_stmt x -> tree_text (snd (stmt_tree x)) = stmt_text x.
Proof.
  destruct x as [t g w| | |w|w]; cbn [good_stmt stmt_tree snd stmt_text]; intros G; try reflexivity; [apply decl_text, G| |]; cbn [tree_text map concat by_tree]; rewrite (name_text w (proj1 G)); reflexivity.
Qed.
Lemma instr_text g x : good_stmt x -> tree_text (instr_tree g x) = g ++ stmt_text x.
Proof. intros G. unfold instr_tree. cbn [tree_text]. rewrite lead_text. cbn [map concat]. rewrite app_nil_r, (stmt_tree_text x G). reflexivity. Qed.
Lemma hdr_tree_text g h tr : good_hdr h -> tree_text (hdr_tree g h tr) = g ++ hdr_text h ++ (if h_optional h then [] else tr).
Proof.
  intros (_ & _ & W & _). unfold hdr_tree, hdr_text. cbn [tree_text]. rewrite lead_text. cbn [app map concat]. rewrite lead_text. cbn [app map concat]. rewrite (decl_text _ _ _ W). cbn [tree_text]. rewrite <- !app_assoc. f_equal.
  assert (E : tree_text (way_tree (h_input h)) = if h_input h then bs "->" else bs "<-") by (destruct (h_input h); reflexivity). rewrite E. do 6 f_equal. f_equal. destruct (h_optional h); [reflexivity|]. cbn [app]. rewrite <- (app_nil_r (lead tr)), lead_text. cbn. rewrite app_nil_r. reflexivity.
Qed.

(* ---- one tree for one text ---- *)
(* the letters an instruction starts with, and the rest *)
Definition stmt_word (x : stmt) : bytes := match x with SDeclare t _ _ => type_text t | SBreak => bs "break" | SContinue => bs "continue" | SUp w | SDown w => w end.
Definition stmt_rest (x : stmt) : bytes := match x with SDeclare _ g w => g ++ w | SBreak | SContinue => [] | SUp _ => bs "++" | SDown _ => bs "--" end.
Lemma stmt_split x : stmt_text x = stmt_word x ++ stmt_rest x.
Proof. destruct x; cbn [stmt_text stmt_word stmt_rest]; reflexivity. Qed.
Lemma word_letters x : good_stmt x -> stmt_word x <> [] /\ Forall (fun b => In b letters) (stmt_word x).
Proof.
  assert (K : forall w, w <> [] -> forallb (fun b => in_b b letters) w = true -> w <> [] /\ Forall (fun b => In b letters) w).
  { intros w N F. split; [exact N|]. apply Forall_forall. intros b I. rewrite forallb_forall in F. apply in_b_ok, (F b I). }
  destruct x as [t g w| | |w|w]; cbn [good_stmt stmt_word]; intros G; [apply type_letters|apply K; [discriminate|reflexivity]|apply K; [discriminate|reflexivity]|apply name_letters, G|apply name_letters, G].
Qed.
Lemma rest_ends x : good_stmt x -> ends_class letters (stmt_rest x).
Proof. destruct x as [t g w| | |w|w]; cbn [good_stmt stmt_rest]; intros G; [|apply ends_nil|apply ends_nil|apply ends_byte; reflexivity|apply ends_byte; reflexivity]. destruct G as ((N & F) & _). apply (ends_class_app letters spaces g w); [reflexivity|exact F|exact N]. Qed.
Lemma stmt_inj x y : good_stmt x -> good_stmt y -> stmt_text x = stmt_text y -> x = y.
Proof.
  intros Gx Gy E. rewrite !stmt_split in E. destruct (run_split letters _ _ _ _ (proj2 (word_letters x Gx)) (proj2 (word_letters y Gy)) (rest_ends x Gx) (rest_ends y Gy) E) as [Ew Er].
  assert (Hg : forall g w c s, is_gap g -> g ++ w = c :: s -> In c spaces) by (intros g w c s (N & F) X; destruct g as [|b g]; [contradiction|]; cbn in X; injection X as <- _; inversion F; assumption).
  destruct x as [t g w| | |w|w], y as [t' g' w'| | |w'|w']; cbn [stmt_word stmt_rest] in Ew, Er; try reflexivity; try (vm_compute in Ew; discriminate Ew); try (vm_compute in Er; discriminate Er); try (congruence);
    try (destruct Gx as ((N & _) & _); destruct g; [contradiction|discriminate Er]); try (destruct Gy as ((N & _) & _); destruct g'; [contradiction|discriminate Er]);
    try (exfalso; destruct Gx as (Gp & _); assert (Z := Hg _ _ _ _ Gp Er); apply in_b_ok in Z; vm_compute in Z; discriminate Z); try (exfalso; destruct Gy as (Gp & _); symmetry in Er; assert (Z := Hg _ _ _ _ Gp Er); apply in_b_ok in Z; vm_compute in Z; discriminate Z).
  apply type_inj in Ew. subst t'. destruct Gx as ((_ & F) & W & _). destruct Gy as ((_ & F') & W' & _). destruct (name_letters w W) as [Nw Lw]. destruct (name_letters w' W') as [Nw' Lw'].
  assert (Q : forall v, v <> [] -> Forall (fun b => In b letters) v -> ends_class spaces v) by (intros v N L; rewrite <- (app_nil_r v); apply (ends_class_app spaces letters); [reflexivity|assumption|assumption]).
  destruct (run_split spaces g w g' w' F F' (Q w Nw Lw) (Q w' Nw' Lw') Er) as [-> ->]. reflexivity.
Qed.
Lemma stmt_starts x : good_stmt x -> exists b s, stmt_text x = b :: s /\ In b letters.
Proof. intros G. rewrite stmt_split. destruct (word_letters x G) as [N F]. destruct (stmt_word x) as [|b w]; [contradiction|]. inversion F; subst. exists b. eexists. split; [reflexivity|assumption]. Qed.
Lemma stmt_ends x : good_stmt x -> ends_class spaces (stmt_text x).
Proof. intros G b t E. destruct (stmt_starts x G) as (c & s & E' & I). rewrite E' in E. injection E as <- _. exact (misses_ok letters spaces c letters_spaces I). Qed.
Lemma instr_inj g x g' x' : Forall (fun b => In b spaces) g -> Forall (fun b => In b spaces) g' -> good_stmt x -> good_stmt x' -> g ++ stmt_text x = g' ++ stmt_text x' -> g = g' /\ x = x'.
Proof.
  intros F F' G G' E. destruct (run_split spaces g _ g' _ F F' (stmt_ends x G) (stmt_ends x' G') E) as [-> E2]. split; [reflexivity|apply stmt_inj; assumption].
Qed.
Lemma hdr_inj g h tr g' h' tr' : Forall (fun b => In b spaces) g -> Forall (fun b => In b spaces) g' -> good_hdr h -> good_hdr h' -> is_gap tr -> is_gap tr' ->
  g ++ hdr_text h ++ (if h_optional h then [] else tr) = g' ++ hdr_text h' ++ (if h_optional h' then [] else tr') -> hdr_tree g h tr = hdr_tree g' h' tr'.
Proof.
  destruct h as [i gp t sp n k o], h' as [i' gp' t' sp' n' k' o']. unfold good_hdr, hdr_text, hdr_tree. cbn [h_input h_gap h_type h_space h_name h_key h_optional]. intros F F' (P & (S1 & S2) & W & _ & (K1 & K2)) (P' & (S1' & S2') & W' & _ & (K1' & K2')) (T1 & T2) (T1' & T2') E. rewrite <- !app_assoc in E.
  destruct (name_letters n W) as [Nn Ln]. destruct (name_letters n' W') as [Nn' Ln']. destruct (type_letters t) as [Nt Lt]. destruct (type_letters t') as [Nt' Lt'].
  apply run_split with (a := spaces) in E; [|exact F|exact F'|destruct i; apply ends_byte; reflexivity|destruct i'; apply ends_byte; reflexivity]. destruct E as [-> E].
  assert (Ei : i = i') by (destruct i, i'; try reflexivity; vm_compute in E; discriminate E). subst i'. apply app_inv_head in E.
  apply run_split with (a := spaces) in E; [|exact P|exact P'|apply (ends_class_app spaces letters); [reflexivity|exact Lt|exact Nt]|apply (ends_class_app spaces letters); [reflexivity|exact Lt'|exact Nt']]. destruct E as [-> E].
  apply run_split with (a := letters) in E; [|exact Lt|exact Lt'|apply (ends_class_app letters spaces); [reflexivity|exact S2|exact S1]|apply (ends_class_app letters spaces); [reflexivity|exact S2'|exact S1']]. destruct E as [Et E]. apply type_inj in Et. subst t'.
  apply run_split with (a := spaces) in E; [|exact S2|exact S2'|apply (ends_class_app spaces letters); [reflexivity|exact Ln|exact Nn]|apply (ends_class_app spaces letters); [reflexivity|exact Ln'|exact Nn']]. destruct E as [-> E].
  apply run_split with (a := letters) in E; [|exact Ln|exact Ln'|apply ends_byte; reflexivity|apply ends_byte; reflexivity]. destruct E as [-> E]. apply app_inv_head in E.
  assert (Te : forall (o : bool) tr, tr <> [] -> Forall (fun b => In b spaces) tr -> ends_class (lower ++ [x5f]) ((if o then bs "?" else []) ++ (if o then [] else tr))).
  { intros [|] u N U; [apply ends_byte; reflexivity|]. cbn [app]. rewrite <- (app_nil_r u). apply (ends_class_app _ spaces); [reflexivity|exact U|exact N]. }
  apply run_split with (a := lower ++ [x5f]) in E; [|exact K2|exact K2'|apply Te; assumption|apply Te; assumption]. destruct E as [-> E].
  destruct o, o'; cbn in E.
  - reflexivity.
  - exfalso. destruct tr' as [|b u]; [contradiction|]. injection E as <- _. inversion T2' as [|? ? I _]; subst. apply in_b_ok in I. vm_compute in I. discriminate I.
  - exfalso. destruct tr as [|b u]; [contradiction|]. injection E as -> _. inversion T2 as [|? ? I _]; subst. apply in_b_ok in I. vm_compute in I. discriminate I.
  - subst. reflexivity.
Qed.

(* ---- subtrees ---- *)
Lemma sub_bytes t : forall z, In z (subs t) -> incl (tree_text z) (tree_text t).
Proof.
  revert t. fix go 1. intros [n w|n i l] z H; [destruct H|]. cbn [subs] in H. apply in_app_or in H. destruct H as [H|[<-|[]]]; [|intros b Hb; exact Hb].
  apply in_concat in H. destruct H as (s & Hs & Hz). apply in_map_iff in Hs. destruct Hs as (u & <- & Hu). cbn [tree_text]. intros b Hb. apply in_concat. exists (tree_text u). split; [apply in_map, Hu|].
  revert u Hu Hz. clear -go Hb. induction l as [|x l IH]; intros u Hu Hz; [destruct Hu|]. assert (G := go x). destruct Hu as [->|Hu]; [exact (G z Hz b Hb)|exact (IH u Hu Hz)].
Qed.
Lemma name_subs w z : is_name w -> In z (subs (name_tree w)) -> z = name_tree w.
Proof. intros (a & v & -> & _) H. cbn in H. destruct H as [<-|[]]. reflexivity. Qed.
Lemma type_subs t z : In z (subs (type_tree t)) -> tree_text z = type_text t.
Proof. destruct t; cbn; intros [<-|[<-|[]]]; reflexivity. Qed.
Lemma lead_subs g l : concat (map subs (lead g ++ l)) = concat (map subs l).
Proof. destruct g; reflexivity. Qed.
Lemma decl_subs t g w z : is_name w -> In z (subs (decl_tree t g w)) -> z = decl_tree t g w \/ tree_text z = type_text t \/ z = name_tree w.
Proof.
  intros W H. unfold decl_tree in H. cbn [subs map concat] in H. rewrite lead_subs in H. cbn [map concat] in H. rewrite app_nil_r, <- app_assoc in H. apply in_app_or in H. destruct H as [H|H]; [right; left; apply type_subs, H|]. apply in_app_or in H. destruct H as [H|[<-|[]]]; [right; right; apply name_subs; assumption|left; reflexivity].
Qed.
(* what a proper part of an instruction can be *)
Definition small (x : stmt) (w : bytes) : Prop := (exists t, w = type_text t) \/ w = bs "++" \/ w = bs "--" \/ match x with SDeclare _ _ n => w = n | SUp n | SDown n => w = n | _ => False end.
Lemma stmt_subs x z : good_stmt x -> In z (subs (snd (stmt_tree x))) -> z = snd (stmt_tree x) \/ small x (tree_text z).
Proof.
  intros G H. destruct x as [t g w| | |w|w]; cbn [stmt_tree snd] in *.
  - apply decl_subs in H; [|apply G]. destruct H as [H|[H|H]]; [left; exact H|right; left; exists t; exact H|right; right; right; right; subst z; apply name_text, G].
  - cbn in H. destruct H as [<-|[]]. left. reflexivity.
  - cbn in H. destruct H as [<-|[]]. left. reflexivity.
  - cbn [subs map concat] in H. rewrite <- !app_assoc in H. apply in_app_or in H. destruct H as [H|H]; [right; right; right; right; rewrite (name_subs w z (proj1 G) H); apply name_text, G|]. cbn in H. destruct H as [<-|[<-|[]]]; [right; right; left; reflexivity|left; reflexivity].
  - cbn [subs map concat] in H. rewrite <- !app_assoc in H. apply in_app_or in H. destruct H as [H|H]; [right; right; right; right; rewrite (name_subs w z (proj1 G) H); apply name_text, G|]. cbn in H. destruct H as [<-|[<-|[]]]; [right; right; right; left; reflexivity|left; reflexivity].
Qed.
Lemma small_starts x w : good_stmt x -> small x w -> exists b s, w = b :: s /\ ~ In b spaces.
Proof.
  intros G [(t & ->)|[->|[->|H]]].
  - destruct (type_name t) as (a & v & -> & I & _). exists a, v. split; [reflexivity|]. apply (misses_ok lower spaces); [reflexivity|exact I].
  - eexists _, _. split; [reflexivity|]. intros I. apply in_b_ok in I. vm_compute in I. discriminate I.
  - eexists _, _. split; [reflexivity|]. intros I. apply in_b_ok in I. vm_compute in I. discriminate I.
  - assert (N : exists n, w = n /\ is_name n) by (destruct x; cbn [good_stmt] in G; try contradiction; subst; eexists; split; try reflexivity; apply G). destruct N as (n & -> & (a & v & -> & I & _)). exists a, v. split; [reflexivity|]. apply (misses_ok lower spaces); [reflexivity|exact I].
Qed.
Lemma small_not x y : good_stmt x -> good_stmt y -> small y (stmt_text x) -> False.
Proof.
  intros Gx Gy S. rewrite stmt_split in S. destruct (word_letters x Gx) as [Nx Lx]. assert (Rx := rest_ends x Gx).
  assert (K : forall w, Forall (fun b => In b letters) w -> stmt_word x ++ stmt_rest x = w -> stmt_word x = w /\ stmt_rest x = []).
  { intros w F E. rewrite <- (app_nil_r w) in E. exact (run_split letters _ _ _ _ Lx F Rx (ends_nil _) E). }
  assert (R : stmt_rest x = [] -> x = SBreak \/ x = SContinue).
  { destruct x as [t g w| | |w|w]; cbn [stmt_rest]; intros E; auto; [|discriminate|discriminate]. destruct Gx as ((N & _) & _). destruct g; [contradiction|discriminate]. }
  assert (Pl : forall c s, stmt_word x ++ stmt_rest x = c :: s -> In c letters) by (intros c s E; destruct (stmt_word x) as [|b w]; [contradiction|]; cbn in E; injection E as <- _; inversion Lx; assumption).
  destruct S as [(t & E)|[E|[E|E]]].
  - destruct (K _ (proj2 (type_letters t)) E) as [E1 E2]. destruct (R E2) as [->| ->]; destruct t; vm_compute in E1; discriminate E1.
  - assert (I := Pl _ _ E). apply in_b_ok in I. vm_compute in I. discriminate I.
  - assert (I := Pl _ _ E). apply in_b_ok in I. vm_compute in I. discriminate I.
  - destruct y as [t g n| | |n|n]; try contradiction; cbn [good_stmt] in Gy.
    + destruct Gy as (_ & W & Nr). destruct (K n (proj2 (name_letters n W)) E) as [E1 E2]. apply Nr. rewrite <- E1. destruct (R E2) as [->| ->]; cbn; tauto.
    + destruct Gy as (W & No). destruct (K n (proj2 (name_letters n W)) E) as [E1 E2]. destruct (R E2) as [->| ->]; [apply (No (bs "break"))|apply (No (bs "continue"))]; try (cbn; tauto); exists []; rewrite app_nil_r; symmetry; exact E1.
    + destruct Gy as (W & No). destruct (K n (proj2 (name_letters n W)) E) as [E1 E2]. destruct (R E2) as [->| ->]; [apply (No (bs "break"))|apply (No (bs "continue"))]; try (cbn; tauto); exists []; rewrite app_nil_r; symmetry; exact E1.
Qed.

(* ---- own ---- *)
Fixpoint solo (l : list tree) : Prop :=
  match l with [] => True | x :: b => (subs x <> [] -> forall y z, In y b -> In z (subs y) -> tree_text z = tree_text x -> z = x) /\ solo b end.
Lemma own_solo n i l : solo l -> Forall own l -> own (Branch n i l).
Proof.
  intros S F. apply own_branch. split; [|exact F]. clear F. induction l as [|u l IH]; intros a x b y z E; [destruct a; discriminate|]. destruct S as [S1 S]. destruct a as [|c a]; cbn in E; injection E as <- E; [subst l; intros N; apply S1, N|apply (IH S a x b y z E)].
Qed.
Lemma solo_lead g l : solo l -> solo (lead g ++ l).
Proof. intros S. destruct g; [exact S|]. split; [intros N; contradiction N; reflexivity|exact S]. Qed.
Lemma own_lead g l : Forall own l -> Forall own (lead g ++ l).
Proof. intros F. destruct g; [exact F|]. constructor; [exact I|exact F]. Qed.
Lemma own_texts n i l : Forall (fun t => token_tree t = false) l -> own (Branch n i l).
Proof. intros F. apply own_solo; [|eapply Forall_impl; [|exact F]; intros [? ?|? ? ?]; [intros _; exact I|discriminate]]. induction F as [|t l H F IH]; [exact I|]. split; [|exact IH]. destruct t; [intros N; contradiction N; reflexivity|discriminate]. Qed.
Lemma own_one n i t : own t -> own (Branch n i [t]).
Proof. intros O. apply own_solo; [split; [intros _ y z []|exact I]|constructor; [exact O|constructor]]. Qed.
Lemma name_own w : is_name w -> own (name_tree w).
Proof. intros (a & v & -> & _). apply own_texts. repeat constructor. Qed.
Lemma type_own t : own (type_tree t).
Proof. destruct t; cbn [type_tree]; apply own_one, own_texts; repeat constructor. Qed.
Lemma decl_own t g w : is_name w -> ~ In w reserved -> own (decl_tree t g w).
Proof.
  intros W N. apply own_solo.
  - split.
    + intros _ y z Iy Iz E. exfalso. destruct g as [|b g]; cbn [lead app] in Iy; (destruct Iy as [<-|Iy]; [|try (destruct Iy as [<-|Iy]; [|destruct Iy]); try destruct Iy]); try destruct Iz; try (apply (name_subs w z W) in Iz; subst z; rewrite (name_text w W), type_tree_text in E; apply N; subst w; destruct t; cbn; tauto).
    + apply solo_lead. split; [intros _ y z []|exact I].
  - constructor; [apply type_own|]. apply own_lead. constructor; [apply name_own, W|constructor].
Qed.
Lemma by_own n i c : own (by_tree n i c).
Proof. apply own_texts. repeat constructor. Qed.
Lemma increment_own w n i c : is_name w -> (forall b s, bs c ++ bs c = b :: s -> ~ In b letters) -> own (Branch (bs "intIncrement") 0 [name_tree w; by_tree n i c]).
Proof.
  intros W N. apply own_solo.
  - split; [|split; [intros _ y z []|exact I]]. intros _ y z [<-|[]] Iz E. exfalso. cbn in Iz. destruct Iz as [<-|[]]. rewrite (name_text w W) in E. cbn [tree_text by_tree map concat] in E. rewrite app_nil_r in E. destruct (name_letters w W) as [Nw Lw]. destruct w as [|b s]; [contradiction|]. inversion Lw; subst. eapply N; eassumption.
  - constructor; [apply name_own, W|]. constructor; [apply by_own|constructor].
Qed.
Lemma stmt_own x : good_stmt x -> own (snd (stmt_tree x)).
Proof.
  destruct x as [t g w| | |w|w]; cbn [good_stmt stmt_tree snd]; intros G; [apply decl_own; apply G|apply own_texts; repeat constructor|apply own_texts; repeat constructor| |]; (apply increment_own; [apply G|]; intros b s E; cbn in E; injection E as <- _; intros I; apply in_b_ok in I; vm_compute in I; discriminate I).
Qed.
Lemma instr_own g x : good_stmt x -> own (instr_tree g x).
Proof. intros G. apply own_solo; [apply solo_lead; split; [intros _ y z []|exact I]|apply own_lead; constructor; [apply stmt_own, G|constructor]]. Qed.
Lemma instr_subs g x z : In z (subs (instr_tree g x)) -> z = instr_tree g x \/ In z (subs (snd (stmt_tree x))).
Proof. intros H. unfold instr_tree in H. cbn [subs] in H. rewrite lead_subs in H. cbn [map concat] in H. rewrite app_nil_r in H. apply in_app_or in H. destruct H as [H|[<-|[]]]; auto. Qed.
Lemma gap_starts g : is_gap g -> exists b s, g = b :: s /\ In b spaces.
Proof. intros (N & F). destruct g as [|b s]; [contradiction|]. inversion F; subst. eauto. Qed.
Lemma stmt_deep x z : good_stmt x -> In z (subs (snd (stmt_tree x))) -> exists b s, tree_text z = b :: s /\ ~ In b spaces.
Proof.
  intros G H. destruct (stmt_subs x z G H) as [->|S]; [|exact (small_starts x _ G S)]. rewrite (stmt_tree_text x G). destruct (stmt_starts x G) as (b & s & -> & I). exists b, s. split; [reflexivity|]. exact (misses_ok letters spaces b letters_spaces I).
Qed.
Lemma instrs_own x l : good_stmt x -> gaps l -> ~ In (stmt_text x) (map stmt_text (map snd l)) -> own (instrs_tree (([], x) :: l)).
Proof.
  intros G F N. apply own_solo.
  - cbn [map fst snd]. split.
    + intros _ y z Iy Iz E. exfalso. rewrite (instr_text [] x G) in E. cbn [app] in E. apply in_map_iff in Iy. destruct Iy as ([g' x'] & <- & I'). cbn [fst snd] in Iz. unfold gaps in F. rewrite Forall_forall in F. destruct (F _ I') as [Gg Gx]. cbn [fst snd] in Gg, Gx.
      destruct (instr_subs g' x' z Iz) as [->|D].
      * rewrite (instr_text g' x' Gx) in E. destruct (gap_starts g' Gg) as (b & s & -> & Ib). destruct (stmt_starts x G) as (c & s' & Ec & Ic). rewrite Ec in E. cbn in E. injection E as <- _. exact (misses_ok letters spaces b letters_spaces Ic Ib).
      * destruct (stmt_subs x' z Gx D) as [->|S]; [|rewrite E in S; exact (small_not x x' G Gx S)]. rewrite (stmt_tree_text x' Gx) in E. apply N. rewrite <- E. apply in_map. apply in_map_iff. exists (g', x'). auto.
    + clear N. induction F as [|[g1 x1] l [Gg1 Gx1] F IH]; [exact I|]. cbn [map fst snd] in *. split; [|exact IH]. intros _ y z Iy Iz E. rewrite (instr_text g1 x1 Gx1) in E. apply in_map_iff in Iy. destruct Iy as ([g' x'] & <- & I'). cbn [fst snd] in Iz. rewrite Forall_forall in F. destruct (F _ I') as [Gg Gx]. cbn [fst snd] in Gg, Gx. destruct (instr_subs g' x' z Iz) as [->|D].
      * rewrite (instr_text g' x' Gx) in E. destruct (instr_inj g' x' g1 x1 (proj2 Gg) (proj2 Gg1) Gx Gx1 E) as [-> ->]. reflexivity.
      * exfalso. destruct (stmt_deep x' z Gx D) as (b & s & Eb & Nb). destruct (gap_starts g1 Gg1) as (c & s' & -> & Ic). rewrite Eb in E. cbn in E. injection E as <- _. contradiction.
  - cbn [map fst snd]. constructor; [apply instr_own, G|]. apply Forall_forall. intros t It. apply in_map_iff in It. destruct It as ([g' x'] & <- & I'). unfold gaps in F. rewrite Forall_forall in F. apply instr_own. apply (F _ I').
Qed.
Lemma way_own i : own (way_tree i).
Proof. destruct i; apply own_texts; repeat constructor. Qed.
Lemma decl_deep t g w z : is_name w -> In z (subs (decl_tree t g w)) -> (exists b s, tree_text z = b :: s /\ In b letters) /\ (Forall (fun b => In b spaces) g -> ~ In x3a (tree_text z)).
Proof.
  intros W H. split.
  - apply decl_subs in H; [|exact W]. destruct (type_letters t) as [Nt Lt]. destruct H as [->|[->| ->]].
    + rewrite (decl_text t g w W). destruct (type_text t) as [|b s]; [contradiction|]. inversion Lt; subst. exists b. eexists. split; [reflexivity|assumption].
    + destruct (type_text t) as [|b s]; [contradiction|]. inversion Lt; subst. eauto.
    + rewrite (name_text w W). destruct (name_letters w W) as [Nw Lw]. destruct w as [|b s]; [contradiction|]. inversion Lw; subst. eauto.
  - intros G I. apply (sub_bytes _ _ H) in I. rewrite (decl_text t g w W) in I. assert (K : forall a v, in_b x3a a = false -> Forall (fun b => In b a) v -> ~ In x3a v) by (intros a v A V Z; rewrite Forall_forall in V; specialize (V _ Z); cbv beta in V; apply in_b_ok in V; congruence).
    apply in_app_or in I. destruct I as [I|I]; [exact (K letters _ eq_refl (proj2 (type_letters t)) I)|]. apply in_app_or in I. destruct I as [I|I]; [exact (K spaces _ eq_refl G I)|exact (K letters _ eq_refl (proj2 (name_letters w W)) I)].
Qed.
Lemma hdr_own g h tr : good_hdr h -> own (hdr_tree g h tr).
Proof.
  intros (_ & Gs & W & Nr & _). assert (St : solo (if h_optional h then [Text (bs "QUESTION_MARK") (bs "?")] else lead tr)) by (destruct (h_optional h); [split; [intros Z; contradiction Z; reflexivity|exact I]|rewrite <- (app_nil_r (lead tr)); apply solo_lead; exact I]).
  assert (Ss : forall y, In y (if h_optional h then [Text (bs "QUESTION_MARK") (bs "?")] else lead tr) -> subs y = []) by (intros y Iy; destruct (h_optional h); [destruct Iy as [<-|[]]; reflexivity|destruct tr; [destruct Iy|destruct Iy as [<-|[]]; reflexivity]]).
  assert (So : Forall own (if h_optional h then [Text (bs "QUESTION_MARK") (bs "?")] else lead tr)) by (destruct (h_optional h); [repeat constructor|destruct tr; repeat constructor]).
  unfold hdr_tree. revert St Ss So. generalize (if h_optional h then [Text (bs "QUESTION_MARK") (bs "?")] else lead tr). intros e St Ss So. apply own_solo.
  - apply solo_lead. cbn [app solo]. split.
    + intros _ y z Iy Iz E. exfalso. assert (D : In z (subs (decl_tree (h_type h) (h_space h) (h_name h)))).
      { apply in_app_or in Iy. destruct Iy as [Iy|[<-|[<-|[<-|Iy]]]]; [destruct (h_gap h); [destruct Iy|destruct Iy as [<-|[]]; destruct Iz]|exact Iz|destruct Iz|destruct Iz|rewrite (Ss y Iy) in Iz; destruct Iz]. }
      destruct (decl_deep _ _ _ _ W D) as [(b & s & Eb & Ib) _]. rewrite Eb in E. destruct (h_input h); cbn in E; injection E as -> _; apply in_b_ok in Ib; vm_compute in Ib; discriminate Ib.
    + apply solo_lead. cbn [app solo]. split.
      * intros _ y z Iy Iz E. exfalso. destruct Iy as [<-|[<-|Iy]]; [destruct Iz|destruct Iz|rewrite (Ss y Iy) in Iz; destruct Iz].
      * split; [intros Z; contradiction Z; reflexivity|]. split; [intros Z; contradiction Z; reflexivity|exact St].
  - apply own_lead. cbn [app]. constructor; [apply way_own|]. apply own_lead. cbn [app]. constructor; [apply decl_own; assumption|]. constructor; [exact I|]. constructor; [exact I|exact So].
Qed.
Lemma hdr_deep g h tr z : good_hdr h -> In z (subs (hdr_tree g h tr)) -> z = hdr_tree g h tr \/ ~ In x3a (tree_text z).
Proof.
  intros (_ & Gs & W & _) H. unfold hdr_tree in H. cbn [subs] in H. rewrite lead_subs in H. cbn [app map concat] in H. rewrite lead_subs in H. cbn [app map concat] in H. rewrite <- !app_assoc in H.
  apply in_app_or in H. destruct H as [H|H]; [right; destruct (h_input h); cbn in H; destruct H as [<-|[]]; intros I; apply in_b_ok in I; vm_compute in I; discriminate I|].
  apply in_app_or in H. destruct H as [H|H]; [right; apply (decl_deep _ _ _ _ W H); apply Gs|]. cbn [subs app] in H. apply in_app_or in H. destruct H as [H|[<-|[]]]; [|left; reflexivity]. exfalso. destruct (h_optional h); [destruct H|]. destruct tr; destruct H.
Qed.
Lemma hdr_colon g h tr : good_hdr h -> In x3a (tree_text (hdr_tree g h tr)).
Proof. intros G. rewrite (hdr_tree_text g h tr G). unfold hdr_text. apply in_or_app. right. apply in_or_app. left. do 5 (apply in_or_app; right). apply in_or_app. left. left. reflexivity. Qed.
Lemma hdr_listed hs : forall g, Forall (fun b => In b spaces) g -> good_hdrs hs -> Forall (fun t => exists g h tr, t = hdr_tree g h tr /\ Forall (fun b => In b spaces) g /\ good_hdr h /\ is_gap tr) (hdr_trees g hs).
Proof.
  induction hs as [|[h a] hs IH]; intros g G F; [constructor|]. inversion F as [|? ? [H A] F']; subst. cbn [hdr_trees fst snd] in *. constructor; [exists g, h, a; auto|]. apply IH; [|exact F']. destruct (h_optional h); [apply A|constructor].
Qed.
Lemma hdrs_own hs g : Forall (fun b => In b spaces) g -> good_hdrs hs -> own (Branch (bs "headerVariables") 0 (hdr_trees g hs)).
Proof.
  intros G F. assert (L := hdr_listed hs g G F). apply own_solo.
  - induction L as [|t l (g1 & h1 & t1 & -> & G1 & H1 & T1) L IH]; [exact I|]. split; [|exact IH]. intros _ y z Iy Iz E. rewrite Forall_forall in L. destruct (L y Iy) as (g2 & h2 & t2 & -> & G2 & H2 & T2). destruct (hdr_deep g2 h2 t2 z H2 Iz) as [->|N].
    + apply hdr_inj; try assumption. rewrite <- !hdr_tree_text by assumption. exact E.
    + exfalso. apply N. rewrite E. apply hdr_colon, H1.
  - eapply Forall_impl; [|exact L]. cbn. intros t (g1 & h1 & t1 & -> & _ & H1 & _). apply hdr_own, H1.
Qed.
Lemma stmt_no_colon x : good_stmt x -> ~ In x3a (stmt_text x).
Proof.
  intros G I. assert (K : forall a v, in_b x3a a = false -> Forall (fun b => In b a) v -> ~ In x3a v) by (intros a v A V Z; rewrite Forall_forall in V; specialize (V _ Z); cbv beta in V; apply in_b_ok in V; congruence).
  rewrite stmt_split in I. apply in_app_or in I. destruct I as [I|I]; [exact (K letters _ eq_refl (proj2 (word_letters x G)) I)|]. destruct x as [t g w| | |w|w]; cbn [stmt_rest good_stmt] in *; try (apply in_b_ok in I; vm_compute in I; discriminate I).
  apply in_app_or in I. destruct I as [I|I]; [exact (K spaces _ eq_refl (proj2 (proj1 G)) I)|exact (K letters _ eq_refl (proj2 (name_letters w (proj1 (proj2 G)))) I)].
Qed.
Lemma instrs_no_colon l : Forall (fun y => Forall (fun b => In b spaces) (fst y) /\ good_stmt (snd y)) l -> ~ In x3a (tree_text (instrs_tree l)).
Proof.
  intros F I. unfold instrs_tree in I. cbn [tree_text] in I. apply in_concat in I. destruct I as (s & Is & I). rewrite map_map in Is. apply in_map_iff in Is. destruct Is as ([g x] & <- & Ix). rewrite Forall_forall in F. destruct (F _ Ix) as [G X]. cbn [fst snd] in *. rewrite (instr_text g x X) in I. apply in_app_or in I. destruct I as [I|I]; [|exact (stmt_no_colon x X I)].
  rewrite Forall_forall in G. specialize (G _ I). cbv beta in G. apply in_b_ok in G. vm_compute in G. discriminate G.
Qed.
Lemma program_own hs x l : good_hdrs hs -> good_stmt x -> gaps l -> ~ In (stmt_text x) (map stmt_text (map snd l)) -> own (program_tree hs (([], x) :: l)).
Proof.
  intros Gh G F N. assert (Oi := instrs_own x l G F N). unfold program_tree. destruct hs as [|h hs].
  - cbn [app left_over lead]. apply own_one, Oi.
  - assert (Oh := hdrs_own (h :: hs) [] (Forall_nil _) Gh). assert (C : In x3a (tree_text (Branch (bs "headerVariables") 0 (hdr_trees [] (h :: hs))))).
    { destruct h as [h a]. inversion Gh as [|? ? [H1 _] _]; subst. cbn [hdr_trees tree_text map concat]. apply in_or_app. left. apply hdr_colon, H1. }
    revert Oh C. generalize (Branch (bs "headerVariables") 0 (hdr_trees [] (h :: hs))). intros ht Oh C. apply own_solo.
    + cbn [app solo]. split; [|apply solo_lead; split; [intros _ y z []|exact I]]. intros _ y z Iy Iz E. exfalso. apply in_app_or in Iy. destruct Iy as [Iy|[<-|[]]]; [destruct (left_over [] (h :: hs)); [destruct Iy|destruct Iy as [<-|[]]; destruct Iz]|].
      apply (instrs_no_colon (([], x) :: l)); [constructor; [split; [constructor|exact G]|eapply Forall_impl; [|exact F]; cbn; intros y [[_ ?] ?]; auto]|]. apply (sub_bytes _ _ Iz). rewrite E. exact C.
    + cbn [app]. constructor; [exact Oh|]. apply own_lead. constructor; [exact Oi|constructor].
Qed.
