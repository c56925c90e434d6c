(* AdeqProofs6.v - conforming trees have roots; checks that a tree conforms. *)
From Coq Require Import Strings.String Strings.Byte Sorting.Permutation Lia.
From Verif Require Import Go GoLemmas DomainModel CardModel PatModel RuleModel PathModel PathSpec LexModel AstModel RootModel RootProofs RootProofs2 EvtModel EvtSpec EvtProofs3 AdeqSpec AdeqProofs AdeqProofs2 AdeqProofs3 RootSpec.
Open Scope string_scope.
Open Scope list_scope.

Definition lines_solid : bool := forallb (fun x => negb (String.eqb (fst x) "") && forallb (fun l => existsb (fun s => negb (is_valid (sh_card s) 0)) l && forallb (fun s => negb (String.eqb (sh_name s) "")) l) (snd x)) shapes.
Lemma lines_solid_true : lines_solid = true.
Proof. vm_compute. reflexivity. Qed.
Lemma bs_nonempty s : String.eqb s "" = false -> bs s <> [].
Proof. destruct s; [discriminate|]. intros _ X. discriminate X. Qed.
Lemma solid_text t : solid t -> at_discovery t <> [].
Proof. intros H. inversion H as [name line ms Hn He Ha Hk]; subst. rewrite at_disc_entries. destruct (entries ms) as [|e l]; [congruence|]. cbn [map concat]. intros X. apply app_eq_nil in X. destruct (Ha e (or_introl eq_refl)). tauto. Qed.
Lemma conforms_solid ts a : Forall2 (fun x t => token_is x t = true) shapes ts -> forall n, conforms ts blank_names False n a -> solid a.
Proof.
  intros Hts. induction a as [name i ms IH] using atoken_ind_kids. intros n Hc. assert (En := conforms_name _ _ _ Hc). cbn in En. subst n.
  destruct (conforms_shape ts Hts _ _ Hc) as (s & ls & l & j & ms' & gss & En & Hin & Hl & Ea & F & B & C & D). injection Ea as _ <- <-. subst name.
  assert (Q := lines_solid_true). unfold lines_solid in Q. rewrite forallb_forall in Q. specialize (Q _ Hin). cbn [fst snd] in Q. apply andb_prop in Q. destruct Q as [Q1 Q]. rewrite forallb_forall in Q. specialize (Q _ Hl). apply andb_prop in Q. destruct Q as [Q2 Q3].
  assert (Kids : forall m x, In (EToken m x) (entries ms) -> solid x) by (intros m x Hx; eapply IH; [exact Hx|]; eapply conforms_kid; eassumption).
  constructor.
  - apply bs_nonempty. apply Bool.negb_true_iff, Q1.
  - intros X. rewrite X in B. cbn in B. apply existsb_exists in Q2. destruct Q2 as (sh & Hs & Hv). destruct (Forall2_in_l _ _ _ _ F Hs) as (g & Hg & Sg). assert (g = []).
    { clear -B Hg. induction gss as [|h gss IH]; [destruct Hg|]. cbn in B. symmetry in B. apply app_eq_nil in B. destruct B as [-> B]. destruct Hg as [<-|Hg]; [reflexivity|apply IH; [congruence|exact Hg]]. }
    subst g. destruct sh as [k c|k c sp]; cbn in Sg, Hv.
    + destruct Sg as [[_ V]|(w & _ & Sg)]; [rewrite V in Hv; discriminate|discriminate].
    + destruct Sg as (l' & El & V & _). destruct l'; [|discriminate]. cbn in V. rewrite V in Hv. discriminate.
  - intros e He. split.
    + destruct (is_blank e) eqn:Eb.
      * apply is_blank_true in Eb. unfold blank_names in Eb. apply in_map_iff in Eb. destruct Eb as (m & <- & Im). apply bs_nonempty. cbn in Im. destruct Im as [<-|[<-|[<-|[]]]]; reflexivity.
      * assert (Z : In e (nonblank (entries ms))) by (apply filter_In; split; [exact He|rewrite Eb; reflexivity]). rewrite B in Z. apply in_concat in Z. destruct Z as (g & Hg & Z). destruct (Forall2_in_r _ _ _ _ F Hg) as (sh & Hs & Sg). rewrite (sfill_names _ _ _ _ Sg Z). apply bs_nonempty. rewrite forallb_forall in Q3. apply Bool.negb_true_iff, (Q3 _ Hs).
    + destruct e as [m w|m x]; cbn [en_text]; [apply (D _ _ He)|]. apply solid_text, (Kids _ _ He).
  - exact Kids.
Qed.

(* ---- checks ---- *)
Section Check.
Variable ts : list token.
Variable blanks : list bytes.
Definition is_bl (e : entry) : bool := match e with EText n w => existsb (bytes_eqb n) blanks && non_empty w | EToken _ _ => false end.
Fixpoint take_tokens (n : bytes) (max : option N) (l : list entry) : list atoken * list entry :=
  match l with
  | EToken m t :: r => if bytes_eqb m n && match max with Some k => negb (k =? 0)%N | None => true end then let '(a, b) := take_tokens n (option_map N.pred max) r in (t :: a, b) else ([], l)
  | _ => ([], l)
  end.
Definition declared_b (n : bytes) : bool := existsb (fun t => bytes_eqb (t_name t) n) ts.
Section Line.
Variable conf : bytes -> atoken -> bool.
Definition fill_b (e : telem) (l : list entry) : option (list entry) :=
  let absent := if is_valid (eff_card e) 0 then Some l else None in
  match te_content e with
  | TRule r => match l with EText m w :: l' => if bytes_eqb m (rl_name r) && non_empty w then Some l' else absent | _ => absent end
  | TRef r =>
    let '(a, b) := take_tokens (tr_name r) (snd (CardModel.delimiter (eff_card e))) l in
    match a with
    | [] => absent
    | _ => if is_valid (eff_card e) (N.of_nat (length a)) && forallb (conf (tr_name r)) a &&
             forallb (fun s => negb (declared_b (ts_name s)) || specific_is_valid (ts_card s) (N.of_nat (tokens_named (ts_name s) a))) (match tr_specs r with Some x => x | None => [] end) then Some b else None
    end
  end.
Fixpoint drop_blanks (l : list entry) : list entry := match l with e :: r => if is_bl e then drop_blanks r else l | [] => [] end.
Fixpoint line_b (es : list telem) (l : list entry) : bool :=
  match es with
  | [] => match drop_blanks l with [] => true | _ => false end
  | e :: es => match fill_b e (drop_blanks l) with Some l' => line_b es l' | None => false end
  end.
End Line.
Fixpoint conforms_b (fuel : nat) (n : bytes) (a : atoken) : bool :=
  match fuel, a with
  | S k, AToken m i ms => bytes_eqb m n && existsb (fun t => bytes_eqb (t_name t) n && match nth_error (t_must t) i with Some l => line_b (conforms_b k) (elements l) (entries ms) | None => false end) ts
  | _, _ => false
  end.
Lemma drop_blanks_ok es l : line_fills ts blanks False es (drop_blanks l) -> line_fills ts blanks False es l.
Proof.
  induction l as [|e l IH]; intros H; [exact H|]. cbn in H. destruct (is_bl e) eqn:E; [|exact H]. destruct e as [n w|n t]; [|discriminate]. cbn in E. apply andb_prop in E. destruct E as [E1 E2]. apply existsb_exists in E1. destruct E1 as (m & Hm & Em). apply bytes_eqb_eq in Em. subst m. apply lf_blank; [exact Hm|destruct w; [discriminate|discriminate]|apply IH, H].
Qed.
Lemma take_ok n : forall max l a b, take_tokens n max l = (a, b) -> l = map (EToken n) a ++ b.
Proof.
  intros max l. revert max. induction l as [|e l IH]; intros max a b H; cbn in H; [injection H as <- <-; reflexivity|]. destruct e as [m w|m t]; [injection H as <- <-; reflexivity|].
  destruct (bytes_eqb m n && _) eqn:E; [|injection H as <- <-; reflexivity]. apply andb_prop in E. destruct E as [E _]. apply bytes_eqb_eq in E. subst m. destruct (take_tokens n (option_map N.pred max) l) as [a' b'] eqn:Et. injection H as <- <-. cbn. f_equal. eapply IH, Et.
Qed.
Lemma eff_card_is e : card_is e (eff_card e).
Proof. unfold card_is, eff_card. destruct (te_card e); auto. Qed.
Lemma fill_ok conf e l l' : (forall n a, conf n a = true -> conforms ts blanks False n a) -> fill_b conf e l = Some l' -> exists g, l = g ++ l' /\ fills ts blanks False e g.
Proof.
  intros Hc H. unfold fill_b in H. assert (Ab : (if is_valid (eff_card e) 0 then Some l else None) = Some l' -> exists g, l = g ++ l' /\ fills ts blanks False e g).
  { destruct (is_valid (eff_card e) 0) eqn:V; [|discriminate]. intros X. injection X as <-. exists []. split; [reflexivity|]. apply fi_absent. exists (eff_card e). split; [apply eff_card_is|exact V]. }
  destruct (te_content e) as [r|r] eqn:Er.
  - destruct (take_tokens _ _ l) as [a b] eqn:Et. apply take_ok in Et. destruct a as [|t a]; [apply Ab, H|]. destruct (_ && _ && _) eqn:E in H; [|discriminate]. injection H as ->. apply andb_prop in E. destruct E as [E Es]. apply andb_prop in E. destruct E as [E1 E2]. exists (map (EToken (tr_name r)) (t :: a)). split; [exact Et|].
    eapply fi_token; [exact Er|apply eff_card_is|discriminate|exact E1| |].
    + clear -E2 Hc. induction (t :: a) as [|x l IH]; [constructor|]. cbn in E2. apply andb_prop in E2. constructor; [apply Hc, E2|apply IH, E2].
    + intros s Hs D. rewrite forallb_forall in Es. specialize (Es _ Hs). apply Bool.orb_true_iff in Es. destruct Es as [Es|Es]; [|exact Es]. exfalso. apply Bool.negb_true_iff in Es. destruct D as (u & Hu & Eu). assert (X : declared_b (ts_name s) = true) by (apply existsb_exists; exists u; split; [exact Hu|apply bytes_eqb_eq; exact Eu]). congruence.
  - destruct l as [|[m w|m t] l0]; try (apply Ab, H). destruct (bytes_eqb m (rl_name r) && non_empty w) eqn:E; [|apply Ab, H]. injection H as ->. apply andb_prop in E. destruct E as [E1 E2]. apply bytes_eqb_eq in E1. subst m. exists [EText (rl_name r) w]. split; [reflexivity|]. apply fi_rule; [exact Er|destruct w; discriminate].
Qed.
Lemma line_ok conf es : (forall n a, conf n a = true -> conforms ts blanks False n a) -> forall l, line_b conf es l = true -> line_fills ts blanks False es l.
Proof.
  intros Hc. induction es as [|e es IH]; intros l H; cbn in H; apply drop_blanks_ok.
  - destruct (drop_blanks l); [constructor|discriminate].
  - destruct (fill_b conf e (drop_blanks l)) as [l'|] eqn:E; [|discriminate]. destruct (fill_ok conf e _ _ Hc E) as (g & -> & F). apply lf_elem; [exact F|apply IH, H].
Qed.
Lemma conforms_ok k : forall n a, conforms_b k n a = true -> conforms ts blanks False n a.
Proof.
  induction k as [|k IH]; intros n [m i ms] H; cbn in H; [discriminate|]. apply andb_prop in H. destruct H as [E H]. apply bytes_eqb_eq in E. subst m. apply existsb_exists in H. destruct H as (t & Ht & H). apply andb_prop in H. destruct H as [E H]. apply bytes_eqb_eq in E. subst n.
  destruct (nth_error (t_must t) i) as [l|] eqn:El; [|discriminate]. eapply co_token; [exact Ht|exact El|]. apply (line_ok (conforms_b k)); [exact IH|exact H].
Qed.
End Check.
Definition last_text (w : bytes) (l : list atoken) : option atoken := find (fun x => bytes_eqb (at_discovery x) w) (rev l).
Definition kinds_b (a : atoken) : bool :=
  forallb (fun b => forallb (fun e => match e with EText _ _ => true | EToken _ x => match last_text (at_discovery x) (RootSpec.within b) with Some y => bytes_eqb (at_name y) (at_name x) | None => true end end) (entries (at_matches b))) (all_of a).
Lemma last_text_ok w l y : last_with w l y -> last_text w l = Some y.
Proof.
  intros (a & b & -> & E & F). unfold last_text. rewrite rev_app_distr. cbn [rev]. rewrite <- app_assoc. cbn [app]. assert (Fb : Forall (fun x => at_discovery x <> w) (rev b)) by (apply Forall_rev, F). induction (rev b) as [|c r IH]; cbn [app find].
  - apply bytes_eqb_eq in E. rewrite E. reflexivity.
  - apply Forall_cons_iff in Fb. destruct Fb as [Fc Fb]. destruct (bytes_eqb (at_discovery c) w) eqn:Ec; [apply bytes_eqb_eq in Ec; contradiction|apply IH, Fb].
Qed.
Lemma kinds_ok a : kinds_b a = true -> kinds_agree a.
Proof.
  intros H b n x y Hb Hx Hy. unfold kinds_b in H. rewrite forallb_forall in H. specialize (H _ Hb). rewrite forallb_forall in H. specialize (H _ Hx). cbn in H. rewrite (last_text_ok _ _ _ Hy) in H. apply bytes_eqb_eq in H. exact H.
Qed.
(* numbers without a minus sign, no floats *)
Definition plain_numbers_b (bitsize : N) (a : atoken) : bool :=
  forallb (fun b => negb (bytes_eqb (at_name b) (bs "floatValue")) && (match texts_named "MINUS" b with [] => true | _ => false end) &&
    forallb (fun w => match parse_uint w bitsize with Ok _ => true | _ => false end) (texts_named "INT_PATTERN" b)) (all_of a).
Lemma plain_numbers_ok bitsize parse_float a : plain_numbers_b bitsize a = true -> numbers_fit bitsize parse_float a.
Proof.
  intros H b Hb. unfold plain_numbers_b in H. rewrite forallb_forall in H. specialize (H b Hb). apply andb_prop in H. destruct H as [H Hw]. apply andb_prop in H. destruct H as [Hf Hm]. split.
  - intros _ w Iw. rewrite forallb_forall in Hw. specialize (Hw w Iw). destruct (parse_uint w bitsize) as [n| | |] eqn:E; try discriminate. apply parse_uint_iff in E. exists n. split; [exact E|]. intros X. destruct (texts_named "MINUS" b); [congruence|discriminate].
  - intros E. rewrite E in Hf. rewrite (proj2 (bytes_eqb_eq _ _) eq_refl) in Hf. discriminate.
Qed.
