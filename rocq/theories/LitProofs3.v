(* LitProofs3.v - proofs for LitProps.v: what literals mean. *)
From Coq Require Import Strings.String Strings.Byte Sorting.Permutation Lia.
From Verif Require Import Go GoLemmas DomainModel CardModel PatModel RuleModel PathModel PathSpec LexModel AstModel RootModel TextModel ParseModel ParseSpec BaseModel BaseSpec EvtModel EvtSpec EvtProofs EvtProofs2 EvtProofs3 EvtProofs4 EvtProofs5 PickSpec PickProofs2 AdeqSpec AdeqProofs2 LetterProofs ProgSpec ProgProofs ProgProofs2 ProgProofs3 ProgProofs5 ProgProofs6 ProgProofs7 ProgProofs8 ProgProofs9 ProgProofs10 ListSpec LitSpec LitProofs2 RootSpec RootProofs RootProofs2.
Open Scope list_scope.

(* ---- parts of a token of texts ---- *)
Definition word_tree (x : string * bytes) : tree := Text (bs (fst x)) (snd x).
Definition word_entry (x : string * bytes) : entry := EText (bs (fst x)) (snd x).
Definition entry_part (e : entry) : part := match e with EText _ w => T w | EToken _ _ => T [] end.
Definition spoken (x : string * bytes) : bool := negb (existsb (String.eqb (fst x)) channel_names).
Lemma texts_entries l : forall es, map entry_tree es = map word_tree l -> es = map word_entry l.
Proof.
  induction l as [|x l IH]; intros es E; [apply map_eq_nil in E; exact E|]. destruct es as [|e es]; [discriminate|]. cbn [map] in E. injection E as E1 E2. rewrite (IH es E2). cbn [map]. f_equal. destruct e as [n w|n [k i ms]]; [|cbn [entry_tree] in E1; rewrite drawn_entries in E1; discriminate]. cbn [entry_tree] in E1. unfold word_tree in E1. injection E1 as -> ->. reflexivity.
Qed.
Lemma spoken_blank x : is_blank (word_entry x) = negb (spoken x).
Proof.
  unfold is_blank, spoken. rewrite negb_involutive. induction channel_names as [|n l IH]; [reflexivity|]. cbn [existsb]. rewrite IH. f_equal. clear. destruct x as [k w]. cbn [fst]. destruct (String.eqb_spec k n) as [->|N].
  - apply has_name_true. reflexivity.
  - destruct (has_name (bs n) (word_entry (k, w))) eqn:E; [|reflexivity]. apply has_name_true in E. cbn in E. apply bs_inj in E. contradiction.
Qed.
Lemma nonblank_words l : nonblank (map word_entry l) = map word_entry (filter spoken l).
Proof. unfold nonblank. induction l as [|x l IH]; [reflexivity|]. cbn [map filter]. rewrite spoken_blank, negb_involutive. destruct (spoken x); cbn [map]; rewrite IH; reflexivity. Qed.
Definition word_groups (l : list (string * bytes)) : list (string * list entry) := map (fun x => (fst x, [word_entry x])) (filter spoken l).
Lemma texts_parts n i l r : pictures (Branch n i (map word_tree l)) r -> parts r (map (fun g => (fst g, map entry_part (snd g))) (merge (word_groups l))).
Proof.
  intros (a & Ea & Ti & M). destruct a as [n' i' ms]. rewrite drawn_entries in Ea. injection Ea as -> -> E. apply texts_entries in E.
  destruct (parts_of_groups n i ms r (word_groups l) M) as (L & PL & FL).
  - rewrite E, nonblank_words. unfold word_groups. rewrite map_map. cbn [snd]. clear. induction (filter spoken l) as [|x k IH]; [reflexivity|]. cbn [map concat app]. rewrite <- IH. reflexivity.
  - apply Forall_forall. intros g Ig. apply in_map_iff in Ig. destruct Ig as (x & <- & _). split; [discriminate|]. repeat constructor.
  - intros m x H. rewrite E in H. apply in_map_iff in H. destruct H as (y & H & _). discriminate.
  - assert (Tx : forall g e, In g (merge (word_groups l)) -> In e (snd g) -> exists k w, e = EText k w).
    { intros g e Ig Ie. assert (Ok : Forall group_ok (word_groups l)) by (apply Forall_forall; intros h Ih; apply in_map_iff in Ih; destruct Ih as (x & <- & _); split; [discriminate|repeat constructor]). destruct (merge_merged _ Ok) as (_ & H & _). destruct (H g Ig) as [Eg _]. rewrite Eg in Ie. apply filter_In in Ie. destruct Ie as [Ie _]. apply in_concat in Ie. destruct Ie as (es & Ies & Ie). apply in_map_iff in Ies. destruct Ies as (h & <- & Ih). apply in_map_iff in Ih. destruct Ih as (x & <- & _). destruct Ie as [<-|[]]. unfold word_entry. eauto. }
    assert (K : L = map (fun g => (fst g, map entry_part (snd g))) (merge (word_groups l))); [|rewrite <- K; exact PL]. clear -FL Tx. induction FL as [|g x gs L [E F] FL IH]; [reflexivity|]. cbn [map]. rewrite IH by (intros h e Ih; apply Tx; right; exact Ih). f_equal. destruct x as [y ps]. cbn [fst snd] in E, F |- *. subst y. f_equal.
    assert (Tg := fun e => Tx g e (or_introl eq_refl)). clear -F Tg. induction F as [|e p es ps H F IH]; [reflexivity|]. cbn [map]. rewrite IH by (intros e' Ie; apply Tg; right; exact Ie). f_equal. destruct (Tg e (or_introl eq_refl)) as (k & w & ->). destruct p as [v|q]; cbn in H |- *; [congruence|contradiction].
Qed.

(* ---- the shapes ---- *)
Definition gap_words (g : bytes) : list (string * bytes) := match g with [] => [] | _ => [("WHITESPACES", g)]%string end.
Definition sign_words (m : option bytes) : list (string * bytes) := match m with Some g => ("MINUS", bs "-")%string :: gap_words g | None => [] end.
Lemma gap_words_is g : gap_tree g = map word_tree (gap_words g). Proof. destruct g; reflexivity. Qed.
Lemma sign_words_is m : sign_tree m = map word_tree (sign_words m). Proof. destruct m as [g|]; [|reflexivity]. cbn [sign_tree sign_words map]. rewrite gap_words_is. reflexivity. Qed.
Definition literal_words (l : literal) : list (string * bytes) :=
  match l with
  | LNatural w => [("INT_PATTERN"%string, w)]
  | LNegative g w => sign_words (Some g) ++ [("INT_PATTERN"%string, w)]
  | LFloat m u g1 g2 v => sign_words m ++ [("INT_PATTERN"%string, u)] ++ gap_words g1 ++ [("DOT"%string, bs ".")] ++ gap_words g2 ++ [("INT_PATTERN"%string, v)]
  | LTruth true => [("TRUE"%string, bs "true")]
  | LTruth false => [("FALSE"%string, bs "false")]
  | LQuoted w => [("QUOTATION"%string, [x22]); ("EVERYTHING_EXCEPT_QUOTATION"%string, w); ("QUOTATION"%string, [x22])]
  end.
Lemma literal_tree_is l : exists i, literal_tree l = Branch (bs (literal_name l)) i (map word_tree (literal_words l)).
Proof.
  destruct l as [w|g w|m u g1 g2 v|[]|w]; cbn [literal_tree literal_name literal_words]; eexists; try reflexivity.
  - rewrite map_app, <- sign_words_is. reflexivity.
  - rewrite !map_app, <- sign_words_is, <- !gap_words_is. reflexivity.
Qed.
Lemma group_tree_is l : exists i, group_tree l = Branch (bs (group_name l)) i [literal_tree l].
Proof. destruct l; cbn [group_tree]; unfold under; eexists; reflexivity. Qed.
Lemma value_tree_is l : exists i, value_tree l = Branch (bs "declarableValue") i [group_tree l].
Proof. destruct l; cbn [value_tree]; unfold under; eexists; reflexivity. Qed.
Lemma literal_own l : own (literal_tree l).
Proof. destruct (literal_tree_is l) as (i & ->). apply own_texts. apply Forall_forall. intros t It. apply in_map_iff in It. destruct It as (x & <- & _). reflexivity. Qed.
Lemma group_own l : own (group_tree l).
Proof. destruct (group_tree_is l) as (i & ->). apply own_one, literal_own. Qed.
Lemma value_own l : own (value_tree l).
Proof. destruct (value_tree_is l) as (i & ->). apply own_one, group_own. Qed.
Lemma words_whole n i l : n <> [] -> l <> [] -> Forall (fun x => bs (fst x) <> [] /\ snd x <> []) l -> whole (Branch n i (map word_tree l)).
Proof. intros N L F. apply whole_branch. split; [exact N|]. split; [destruct l; [contradiction|discriminate]|]. apply Forall_forall. intros t It. apply in_map_iff in It. destruct It as (x & <- & Ix). rewrite Forall_forall in F. exact (F x Ix). Qed.
Lemma gap_some g : Forall (fun x => bs (fst x) <> [] /\ snd x <> []) (gap_words g).
Proof. destruct g; [constructor|]. repeat constructor; discriminate. Qed.
Lemma sign_some m : Forall (fun x => bs (fst x) <> [] /\ snd x <> []) (sign_words m).
Proof. destruct m as [g|]; [|constructor]. constructor; [split; discriminate|apply gap_some]. Qed.
Lemma word_some n w : bs n <> [] -> w <> [] -> Forall (fun x : string * bytes => bs (fst x) <> [] /\ snd x <> []) [(n, w)].
Proof. intros N W. repeat constructor; assumption. Qed.
Lemma literal_whole l : good_literal l -> whole (literal_tree l).
Proof.
  intros G. destruct (literal_tree_is l) as (i & ->). apply words_whole; [destruct l; discriminate|destruct l as [w|g w|[g|] u g1 g2 v|[]|w]; discriminate|].
  destruct l as [w|g w|m u g1 g2 v|[]|w]; cbn [good_literal literal_words] in *.
  - apply word_some; [discriminate|apply G].
  - apply Forall_app. split; [apply sign_some|apply word_some; [discriminate|apply G]].
  - destruct G as (_ & (U & _) & _ & _ & (V & _)). repeat (apply Forall_app; split); first [apply sign_some|apply gap_some|apply word_some; [discriminate|assumption]|apply word_some; discriminate].
  - apply word_some; discriminate.
  - apply word_some; discriminate.
  - destruct G as [N _]. repeat (constructor; [split; [discriminate|first [exact N|discriminate]]|]). constructor.
Qed.
Lemma one_whole n i t : n <> [] -> whole t -> whole (Branch n i [t]).
Proof. intros N W. apply whole_branch. split; [exact N|]. split; [discriminate|]. constructor; [exact W|constructor]. Qed.
Lemma group_whole l : good_literal l -> whole (group_tree l).
Proof. intros G. destruct (group_tree_is l) as (i & ->). apply one_whole; [destruct l; discriminate|apply literal_whole, G]. Qed.
Lemma value_whole l : good_literal l -> whole (value_tree l).
Proof. intros G. destruct (value_tree_is l) as (i & ->). apply one_whole; [discriminate|apply group_whole, G]. Qed.
Lemma words_clear n i l : forallb (fun x => negb (bytes_eqb (bs (fst x)) (bs "KEYNAME_PATTERN"))) l = true -> clear_b (Branch n i (map word_tree l)) = true.
Proof.
  intros H. rewrite forallb_forall in H. cbn [clear_b]. apply andb_true_intro. split; apply forallb_forall; intros t It; apply in_map_iff in It; destruct It as (x & <- & Ix).
  - destruct (seekable (word_tree x)) eqn:S; [|reflexivity]. specialize (H x Ix). unfold word_tree in S. cbn in S. cbn in H. rewrite S in H. discriminate.
  - reflexivity.
Qed.
Lemma literal_clear l : clear_b (literal_tree l) = true.
Proof. destruct (literal_tree_is l) as (i & ->). apply words_clear. destruct l as [w|g w|m u g1 g2 v|[]|w]; try reflexivity; [destruct g; reflexivity|destruct m as [[]|], g1, g2; reflexivity]. Qed.
Lemma one_clear n i t : clear_b t = true -> clear_b (Branch n i [t]) = true.
Proof. intros C. apply same_clear with (m := tree_name t). constructor; [split; [reflexivity|exact C]|constructor]. Qed.
Lemma group_clear l : clear_b (group_tree l) = true.
Proof. destruct (group_tree_is l) as (i & ->). apply one_clear, literal_clear. Qed.
Lemma value_clear l : clear_b (value_tree l) = true.
Proof. destruct (value_tree_is l) as (i & ->). apply one_clear, group_clear. Qed.

(* ---- numbers ---- *)
Lemma digit_is b : In b digits -> is_digit b = true.
Proof. intros I. exact (digit_head_no is_digit b eq_refl I). Qed.
Lemma number_dec w : number w = dec 0 w. Proof. reflexivity. Qed.
Lemma digits_parse w : is_digits w -> parse_digits w = Some (number w).
Proof. intros (N & F). apply parse_dec. split; [exact N|]. split; [|apply number_dec]. apply forallb_forall. intros b I. rewrite Forall_forall in F. apply digit_is, (F b I). Qed.
Lemma width_bits b : width b = bits b. Proof. reflexivity. Qed.
Lemma bits_pos b : (1 <= bits b)%N. Proof. unfold bits. destruct (N.eqb_spec b 0); lia. Qed.
Lemma half b : (2 ^ bits b = 2 * 2 ^ (bits b - 1))%N.
Proof. assert (H := bits_pos b). rewrite <- N.pow_succ_r'. f_equal. lia. Qed.
Lemma half_pos b : (0 < 2 ^ (bits b - 1))%N.
Proof. apply N.neq_0_lt_0, N.pow_nonzero. discriminate. Qed.
Lemma natural_ok b w : is_digits w -> parse_uint w b = if ((b <=? 64) && (number w <? 2 ^ width b))%N%bool then Ok (number w) else Err.
Proof.
  intros D. unfold parse_uint. rewrite (digits_parse w D). change (bits_of b) with (width b). destruct (N.ltb_spec 64 b) as [L|L], (N.leb_spec b 64) as [L'|L']; try lia; [reflexivity|]. cbn [andb]. destruct (_ <? _)%N; reflexivity.
Qed.
Lemma negative_ok b w : b <> 1%N -> is_digits w -> parse_neg w b = if ((b <=? 64) && (number w <=? 2 ^ (width b - 1)))%N%bool then Ok (- Z.of_N (number w))%Z else Err.
Proof.
  intros B D. unfold parse_neg. rewrite (digits_parse w D). change (bits_of b) with (width b). destruct (N.ltb_spec 64 b) as [L|L], (N.leb_spec b 64) as [L'|L']; try lia; [reflexivity|]. cbn [andb]. cbv zeta. assert (P := half_pos b). assert (E := half b). rewrite <- width_bits in P, E.
  assert (Two : (2 <= 2 ^ (width b - 1))%N). { change 2%N with (2 ^ 1)%N at 1. apply N.pow_le_mono_r; [discriminate|]. unfold width. destruct (N.eqb_spec b 0); lia. }
  destruct (N.leb_spec (number w) (2 ^ (width b - 1))) as [H|H].
  - rewrite N.min_l by lia. destruct (N.ltb_spec (2 ^ (width b - 1)) (number w)); [lia|reflexivity].
  - destruct (N.ltb_spec (2 ^ (width b - 1)) (N.min (number w) (2 ^ width b - 1))); [reflexivity|lia].
Qed.

(* ---- refusals ---- *)
Section Means.
Variable bitsize : N.
Variable parse_float : bytes -> N -> option N.
Hypothesis B1 : bitsize <> 1%N.
Notation means := (EvtSpec.means bitsize parse_float).
Notation base := (base_events bitsize parse_float).
Notation ans := (ans True).
Definition refused (n : string) (r : root) : Prop := ans (execute_events base (bs n) r) Err.
Lemma refused_body n b r : body_of bitsize parse_float (bs n) = Some b -> ans (runs (fun name => trigger base name r) (b r)) Err -> refused n r.
Proof.
  intros E [H1 H2]. split.
  - apply base_fix. rewrite E. exists Err. split; [exact H1|]. split; [discriminate|reflexivity].
  - intros M o H. apply base_fix in H. rewrite E in H. destruct H as (u & Hr & N & ->). apply (H2 M) in Hr. subst u. reflexivity.
Qed.
Lemma ans_trig_err t n : ans (t (bs n)) Err -> ans (runs t (trig n)) Err.
Proof.
  intros [P1 P2]. split; [apply rn_err; exact P1|]. intros M o H. inversion H as [|? ? u ? Ht Hr|? ? Ht|? ? Ht]; subst; apply (P2 M) in Ht; try discriminate. reflexivity.
Qed.
Lemma trigger_refused r n q : parts r [(n, [K q])] -> refused n q -> clear r -> blank_name n = false -> ans (trigger base (bs n) r) Err.
Proof.
  intros P [G1 G2] C Bn. assert (Iy := parts_in _ _ _ P (or_introl eq_refl)).
  assert (F : ans (event_list base (bs n) (no_list (part_node (n, [K q])))) Err).
  { cbn. split; [apply el_err; eapply fe_root; [reflexivity|exact G1]|]. intros M o H. inversion H as [|c cs l ins o' F L|c cs F|c cs F]; subst; [|reflexivity|]; inversion F as [E|q1 o1 E He]; subst; try discriminate; cbn in E; injection E as <-; apply (G2 M) in He; discriminate. }
  destruct F as [F1 F2]. split.
  - exact (tr_node base (bs n) r (part_node (n, [K q])) Err (scan_first _ _ _ Iy eq_refl) F1).
  - intros M o H. assert (U : forall s, scan_nodes (bs n) (ro_nodes r) s -> s = SFound (FNode (part_node (n, [K q])))).
    { intros s Hs. inversion Hs as [? l' ? Pm Hl]; subst. eapply list_exact; [exact Hl|eapply Permutation_in; eassumption|reflexivity|]. intros x Hx. apply (Permutation_in _ (Permutation_sym Pm)) in Hx. destruct (parts_names _ _ _ P Hx) as (k & qs & [Ik|Ik] & ->); [|right; apply blank_absent; assumption]. destruct Ik as [Ik|[]]. injection Ik as <- <-. left. reflexivity. }
    inversion H as [Hs|Hs E|q' o' Hs|x o' Hs L|c o' Hs]; subst; apply U in Hs; try discriminate. injection Hs as ->. apply (F2 M) in L. subst o'. reflexivity.
Qed.
Lemma refused_execute n r : ro_name r = bs n -> refused n r -> forall o, app_execute base r o <-> o = Err.
Proof.
  intros E [H1 H2] o. split.
  - intros H. apply execute_outcomes in H. destruct H as (x & Hx & ->). rewrite E in Hx. apply (H2 I) in Hx. subst x. reflexivity.
  - intros ->. apply execute_outcomes. exists Err. rewrite E. split; [exact H1|reflexivity].
Qed.
Lemma declarable_refused n m r q : In (n, m) [("declarableValue", "computableValue"); ("declarableValue", "primitiveValue"); ("computableValue", "floatValue"); ("computableValue", "intValue")]%string -> parts r [(m, [K q])] -> clear r -> refused m q -> refused n r.
Proof.
  intros I P C R. assert (T := trigger_refused r m q P R C). repeat (destruct I as [I|I]; [injection I as <- <-|]); [| | | |destruct I]; (eapply refused_body; [reflexivity|]).
  - cbn [snd]; unfold ev_declarableValue; rewrite (has_parts _ _ _ P) by reflexivity. apply ans_trig_err, T. reflexivity.
  - cbn [snd]; unfold ev_declarableValue; rewrite (has_parts _ _ _ P) by reflexivity. apply ans_trig_err, T. reflexivity.
  - cbn [snd]; unfold ev_computableValue; rewrite (has_parts _ _ _ P) by reflexivity. apply ans_trig_err, T. reflexivity.
  - cbn [snd]; unfold ev_computableValue; rewrite (has_parts _ _ _ P) by reflexivity. apply ans_trig_err, T. reflexivity.
Qed.
(* a literal, refused or not *)
Definition says (n : string) (r : root) (v : option bvalue) : Prop := match v with Some v => means n r (OValue v) | None => refused n r end.
Lemma texts_only r l n xs : parts r l -> NoDup (map fst l) -> In (n, map T xs) l -> xs <> [] -> Forall (fun y => exists ws, snd y = map T ws) l -> blank_name n = false -> ans (trigger base (bs n) r) (Ok (VResult (map VText xs))).
Proof.
  intros P D I N F Bn. eapply (trigger_texts True bitsize parse_float _ _ _ _ _ P D I).
  - clear. induction xs; constructor; [reflexivity|assumption].
  - destruct xs; [contradiction|discriminate].
  - intros x qs Ix. rewrite Forall_forall in F. exact (F (x, qs) Ix).
  - exact Bn.
Qed.
Ltac txts := repeat (constructor; [cbn [snd]; match goal with |- exists ws, ?q = _ => exists (texts q); reflexivity end|]); constructor.
Lemma literal_says l r : good_literal l -> pictures (literal_tree l) r -> says (literal_name l) r (literal_value bitsize parse_float l).
Proof.
  intros G P. destruct (literal_tree_is l) as (i & E). rewrite E in P. apply texts_parts in P. destruct l as [w|g w|m u g1 g2 v|[]|w]; cbn [literal_name literal_value literal_words good_literal] in *.
  - assert (X := natural_ok bitsize w G). cbn in P. destruct (_ && _)%bool eqn:C.
    + apply (me_uint bitsize parse_float r w _ P). apply parse_uint_iff. exact X.
    + eapply refused_body; [reflexivity|]. cbn [snd]. unfold ev_intValue. eapply ans_bind; [eapply ans_text; apply (texts_only _ _ "INT_PATTERN" [w] P); [nodup|left; reflexivity|discriminate|txts|reflexivity]|]. cbv beta. rewrite (has_parts _ _ _ P) by reflexivity. cbn [existsb fst String.eqb orb]. rewrite X. exact (ans_ret True _ _).
  - destruct G as [Gg D]. assert (X := negative_ok bitsize w B1 D). assert (P' : parts r [("MINUS", [T (bs "-")]); ("INT_PATTERN", [T w])]%string) by (destruct g; exact P). clear P. destruct (_ && _)%bool eqn:C.
    + apply (me_int bitsize parse_float r _ w _ P'). apply andb_prop in C. destruct C as [C1 C2]. apply N.leb_le in C1, C2. split; [apply numeral_iff, digits_parse, D|]. split; [exact C1|]. rewrite width_bits in C2. assert (H1 := half bitsize). assert (H2 := half_pos bitsize). split; [lia|exact C2].
    + eapply refused_body; [reflexivity|]. cbn [snd]. unfold ev_intValue. eapply ans_bind; [eapply ans_text; apply (texts_only _ _ "INT_PATTERN" [w] P'); [nodup|right; left; reflexivity|discriminate|txts|reflexivity]|]. cbv beta. rewrite (has_parts _ _ _ P') by reflexivity. cbn [existsb fst String.eqb orb]. rewrite X. exact (ans_ret True _ _).
  - destruct m as [g|].
    + assert (P' : parts r [("MINUS", [T (bs "-")]); ("INT_PATTERN", [T u; T v]); ("DOT", [T (bs ".")])]%string) by (destruct g, g1, g2; exact P). clear P. destruct (parse_float _ _) as [x|] eqn:X; cbn [option_map says].
      * exact (me_float_minus bitsize parse_float r _ u _ v x P' X).
      * eapply refused_body; [reflexivity|]. cbn [snd]. unfold ev_floatValue. eapply ans_bind; [apply ans_trig; apply (texts_only _ _ "INT_PATTERN" [u; v] P'); [nodup|right; left; reflexivity|discriminate|txts|reflexivity]|]. cbv beta. cbn [list_of map text_of]. rewrite (has_parts _ _ _ P') by reflexivity. cbn [existsb fst String.eqb orb]. match type of X with ?t = _ => match goal with |- context[parse_float ?w ?b] => change (parse_float w b) with t end end. rewrite X. exact (ans_ret True _ _).
    + assert (P' : parts r [("INT_PATTERN", [T u; T v]); ("DOT", [T (bs ".")])]%string) by (destruct g1, g2; exact P). clear P. destruct (parse_float _ _) as [x|] eqn:X; cbn [option_map says].
      * exact (me_float bitsize parse_float r u _ v x P' X).
      * eapply refused_body; [reflexivity|]. cbn [snd]. unfold ev_floatValue. eapply ans_bind; [apply ans_trig; apply (texts_only _ _ "INT_PATTERN" [u; v] P'); [nodup|left; reflexivity|discriminate|txts|reflexivity]|]. cbv beta. cbn [list_of map text_of]. rewrite (has_parts _ _ _ P') by reflexivity. cbn [existsb fst String.eqb orb]. match type of X with ?t = _ => match goal with |- context[parse_float ?w ?b] => change (parse_float w b) with t end end. rewrite X. exact (ans_ret True _ _).
  - exact (me_true bitsize parse_float r _ P).
  - exact (me_false bitsize parse_float r _ P).
  - exact (me_string bitsize parse_float r _ _ w P).
Qed.
Definition pairs := [("declarableValue", "computableValue"); ("declarableValue", "primitiveValue"); ("computableValue", "floatValue"); ("computableValue", "intValue"); ("primitiveValue", "boolValue"); ("primitiveValue", "stringValue")]%string.
Lemma under_says n m r q l : In (n, m) pairs -> (literal_value bitsize parse_float l = None -> In (n, m) (firstn 4 pairs)) -> parts r [(m, [K q])] -> clear r -> says m q (literal_value bitsize parse_float l) -> says n r (literal_value bitsize parse_float l).
Proof.
  intros I J P C S. destruct (literal_value bitsize parse_float l) as [v|]; cbn [says] in *; [exact (me_declarable bitsize parse_float n m r q v I P S)|]. exact (declarable_refused n m r q (J eq_refl) P C S).
Qed.
Ltac unlisted := cbn [channel_names In]; intuition discriminate.
Lemma literal_names l : token_tree (literal_tree l) = true /\ tree_name (literal_tree l) = bs (literal_name l).
Proof. destruct (literal_tree_is l) as (i & ->). auto. Qed.
Lemma group_names l : token_tree (group_tree l) = true /\ tree_name (group_tree l) = bs (group_name l).
Proof. destruct (group_tree_is l) as (i & ->). auto. Qed.
Lemma group_says l r : good_literal l -> pictures (group_tree l) r -> says (group_name l) r (literal_value bitsize parse_float l).
Proof.
  intros G P. assert (C := picture_clear _ _ P (group_own l) (group_clear l)). assert (O := group_own l). destruct (group_tree_is l) as (i & E). rewrite E in P, O. destruct (literal_names l) as [N1 N2]. destruct (one_token _ _ _ _ _ O P N1 N2) as (q & Pq & Q); [destruct l; unlisted|].
  eapply under_says; [| |exact Pq|exact C|exact (literal_says l q G Q)]; destruct l as [w|g w|m u g1 g2 v|b|w]; cbn; intuition discriminate.
Qed.
Lemma value_says l r : good_literal l -> pictures (value_tree l) r -> says "declarableValue" r (literal_value bitsize parse_float l).
Proof.
  intros G P. assert (C := picture_clear _ _ P (value_own l) (value_clear l)). assert (O := value_own l). destruct (value_tree_is l) as (i & E). rewrite E in P, O. destruct (group_names l) as [N1 N2]. destruct (one_token _ _ _ _ _ O P N1 N2) as (q & Pq & Q); [destruct l; unlisted|].
  eapply under_says; [| |exact Pq|exact C|exact (group_says l q G Q)]; destruct l as [w|g w|m u g1 g2 v|b|w]; cbn; intuition discriminate.
Qed.
End Means.
