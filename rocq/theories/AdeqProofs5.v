(* AdeqProofs5.v - one step per token of the base language. *)
From Coq Require Import Strings.String Strings.Byte Sorting.Permutation Lia.
From Verif Require Import Go GoLemmas DomainModel CardModel PatModel RuleModel PathModel PathSpec LexModel AstModel RootModel RootSpec RootProofs RootProofs2 TextModel BaseModel BaseSpec EvtModel EvtSpec AdeqSpec AdeqProofs AdeqProofs2 AdeqProofs3 AdeqProofs4 RootSpec.
Open Scope string_scope.
Open Scope list_scope.

Fixpoint zipped (l : list shape) (gss : list (list entry)) : list (string * list entry) :=
  match l, gss with
  | s :: l, g :: gss => match g with [] => zipped l gss | _ => (sh_name s, g) :: zipped l gss end
  | _, _ => []
  end.
Lemma mand_len {A} (l : list A) : is_valid CMandatory (N.of_nat (length l)) = true -> exists x, l = [x].
Proof. unfold is_valid. cbn [CardModel.delimiter]. intros H. apply andb_prop in H. destruct H as [H1 H2]. apply N.leb_le in H1, H2. destruct l as [|x [|y l]]; cbn [length] in *; [lia|exists x; reflexivity|lia]. Qed.
Lemma opt_len {A} (l : list A) : is_valid COptional (N.of_nat (length l)) = true -> l = [] \/ exists x, l = [x].
Proof. unfold is_valid. cbn [CardModel.delimiter]. intros H. apply andb_prop in H. destruct H as [H1 H2]. apply N.leb_le in H1, H2. destruct l as [|x [|y l]]; cbn [length] in *; [left; reflexivity|right; exists x; reflexivity|lia]. Qed.
Lemma nonzero_len {A} (l : list A) : is_valid CNonZero (N.of_nat (length l)) = true -> exists x l', l = x :: l'.
Proof. destruct l as [|x l]; [discriminate|exists x, l; reflexivity]. Qed.
Lemma f2_cons {A B} (P : A -> B -> Prop) a l m : Forall2 P (a :: l) m -> exists b m', m = b :: m' /\ P a b /\ Forall2 P l m'.
Proof. intros H. inversion H; subst. eauto. Qed.
Lemma f2_nil {A B} (P : A -> B -> Prop) m : Forall2 P [] m -> m = [].
Proof. intros H. inversion H. reflexivity. Qed.

Section Steps.
Variable ts : list token.
Hypothesis Hts : Forall2 (fun x t => token_is x t = true) shapes ts.
Variable bitsize : N.
Variable parse_float : bytes -> N -> option N.
Let conf := conforms ts blank_names False.
Let mean := means bitsize parse_float.
Let reads := reads_as bitsize parse_float.

Lemma zipped_ok l gss : Forall2 (sfill ts) l gss -> concat gss = concat (map snd (zipped l gss)) /\ Forall group_ok (zipped l gss).
Proof.
  induction 1 as [|s g l gss H F [IH1 IH2]]; [split; [reflexivity|constructor]|]. cbn [zipped]. destruct g as [|e g]; [split; [exact IH1|exact IH2]|]. cbn [map concat snd]. split; [f_equal; exact IH1|]. constructor; [|exact IH2]. split; [discriminate|]. cbn [fst snd]. apply Forall_forall. intros z Hz. eapply sfill_names; eassumption.
Qed.
(* what is known of a tree of one line *)
Record known (s : string) (l : list shape) (i : nat) (ms : list amatch) (r : root) (gss : list (list entry)) (L : list (string * list part)) : Prop := {
  k_conf : conf (bs s) (AToken (bs s) i ms);
  k_numbers : numbers_fit bitsize parse_float (AToken (bs s) i ms);
  k_fill : Forall2 (sfill ts) l gss;
  k_non : nonblank (entries ms) = concat gss;
  k_nb : forall n x, In (EToken n x) (entries ms) -> ~ In n blank_names;
  k_texts : forall m w, In (EText m w) (entries ms) -> w <> [];
  k_parts : parts r L;
  k_good : Forall2 (fun g x => fst x = fst g /\ Forall2 (part_good ts bitsize parse_float (RootSpec.within (AToken (bs s) i ms))) (snd g) (snd x)) (merge (zipped l gss)) L }.
Definition step (x : string * list (list shape)) : Prop :=
  forall l i ms r gss L, In l (snd x) -> known (fst x) l i ms r gss L -> reads (fst x) (AToken (bs (fst x)) i ms) r.
Lemma by_steps : Forall step shapes -> forall s a r, conf (bs s) a -> mirrors a r -> kinds_agree a -> numbers_fit bitsize parse_float a -> reads s a r.
Proof.
  intros St. assert (Q : forall k a r s, length (all_of a) < k -> conf (bs s) a -> mirrors a r -> kinds_agree a -> numbers_fit bitsize parse_float a -> reads s a r).
  { induction k as [|k IH]; [intros; lia|]. intros a r s Hk Hc Hm Ha Hn. destruct (conforms_shape ts Hts _ _ Hc) as (s' & ls & l & i & ms & gss & En & Hin & Hl & -> & F & B & C & D). apply bs_inj in En. subst s'.
    destruct (zipped_ok l gss F) as [Z1 Z2]. destruct (groups_read ts Hts bitsize parse_float k i ms r s (zipped l gss) Hc Hm Ha Hn) as (L & HL & FL); [|lia|congruence|exact Z2|exact C|].
    - intros b q m Hb. apply IH. exact Hb.
    - rewrite Forall_forall in St. apply (St (s, ls) Hin l i ms r gss L Hl). constructor; assumption. }
  intros s a r. apply (Q (S (length (all_of a)))). lia.
Qed.

Lemma good_text all n w p : part_good ts bitsize parse_float all (EText n w) p -> p = T w.
Proof. destruct p; cbn; [intros ->; reflexivity|intros []]. Qed.
Lemma good_token all n x p : part_good ts bitsize parse_float all (EToken (bs n) x) p -> exists q y, p = K q /\ last_with (at_discovery x) all y /\ conf (bs n) y /\ reads n y q.
Proof. destruct p as [|q]; cbn; [intros []|]. intros (y & A & B & H). exists q, y. split; [reflexivity|]. split; [exact A|]. split; [exact B|]. apply H. reflexivity. Qed.
Lemma good_tokens all n x l ps : Forall2 (part_good ts bitsize parse_float all) (EToken (bs n) x :: map (EToken (bs n)) l) ps -> exists qs, ps = map K qs /\ qs <> [] /\ Forall (fun q => exists y, reads n y q) qs /\ length qs = S (length l).
Proof. intros F. destruct (good_list ts bitsize parse_float all n (x :: l) ps F) as (qs & E & Q & Z). exists qs. split; [exact E|]. split; [destruct qs; [discriminate Z|discriminate]|]. split; [exact Q|exact Z]. Qed.

Ltac fill H := cbn [sfill] in H;
  lazymatch type of H with
  | _ \/ _ => destruct H as [[-> ?]|(? & ? & ->)]
  | exists _, _ => let V := fresh "V" in destruct H as (? & -> & V & ? & ?);
      first [apply mand_len in V; destruct V as (? & ->) | apply opt_len in V; destruct V as [->|(? & ->)] | apply nonzero_len in V; destruct V as (? & ? & ->) | match type of V with is_valid CZero (N.of_nat (length ?l)) = true => destruct l as [|? ?] end]
  end.
Ltac fills := repeat match goal with
  | F : Forall2 (sfill ts) (_ :: _) _ |- _ => let H := fresh "S" in apply f2_cons in F; destruct F as (? & ? & -> & H & F); fill H; try discriminate
  | F : Forall2 (sfill ts) [] _ |- _ => apply f2_nil in F; subst
  end.
Ltac goods := repeat match goal with
  | F : Forall2 _ (_ :: map _ _) _ |- _ => apply good_tokens in F; destruct F as (? & -> & ? & ? & ?)
  | F : Forall2 _ (_ :: _) _ |- _ => let H := fresh "H" in apply f2_cons in F; destruct F as (? & ? & -> & H & F)
  | F : Forall2 _ [] _ |- _ => apply f2_nil in F; subst
  | H : _ /\ _ |- _ => destruct H
  | H : fst ?x = _ |- _ => destruct x; cbn [fst snd] in *; subst
  | H : part_good _ _ _ _ (EText _ _) _ |- _ => apply good_text in H; subst
  | H : part_good _ _ _ _ (EToken _ _) _ |- _ => apply good_token in H; destruct H as (? & ? & -> & ? & ? & H)
  end.
Ltac start := intros l i ms r gss L Hl [Kc Kn Kf Kb Knb Kt Kp Kg]; cbn [fst snd] in *; repeat (destruct Hl as [<-|Hl]; [|]); [..|destruct Hl];
  fills; cbn [zipped sh_name map app] in Kg; unfold merge in Kg; cbn [fold_left add_group fst snd String.eqb Ascii.eqb Bool.eqb app] in Kg; goods.
Ltac open1 H := unfold reads, reads_as in H; cbn [String.eqb Ascii.eqb Bool.eqb] in H;
  lazymatch type of H with
  | exists w, spells _ w => destruct H as (? & H)
  | _ => let x := fresh "x" in let Hk := fresh "Hk" in let Hn := fresh "Hn" in destruct H as (x & H & Hk & Hn); first [apply bool_kind in H as Hb; destruct Hb as (? & ->); clear Hk | destruct x; cbn [kind In] in Hk; try (exfalso; clear -Hk; intuition discriminate); clear Hk]
  end.
Ltac opens := repeat match goal with H : reads _ _ _ |- _ => open1 H end.
Ltac finish := unfold reads, reads_as; cbn [String.eqb Ascii.eqb Bool.eqb]; eexists; split; [unfold mean; solve [econstructor; first [eassumption | assumption | cbn [In]; auto 12]]|split; [cbn [kind In]; auto 12|intros X; discriminate X]].
Ltac answer tac := unfold reads, reads_as; cbn [String.eqb Ascii.eqb Bool.eqb]; eexists; split; [unfold mean; tac|split; [cbn [kind In]; auto 12|intros X; discriminate X]].
Lemma reads_firsts (C : Type) (c : C -> obj) n qs : String.eqb n "variableName" = false -> (forall x, kind n x -> exists v, x = c v) -> Forall (fun q => exists y, reads n y q) qs -> exists v, each bitsize parse_float n qs (map c v) /\ length v = length qs.
Proof.
  intros E K F. apply each_list. eapply Forall_impl; [|exact F]. cbn. intros q (y & H). unfold reads, reads_as in H. rewrite E in H. destruct H as (x & H & Hk & _). destruct (K x Hk) as (v & ->). exists v. exact H.
Qed.
Ltac pick := let o := fresh "o" in let Ho := fresh "Ho" in intros o Ho; destruct o; cbn [kind In] in Ho; try (exfalso; clear -Ho; intuition discriminate); eexists; reflexivity.
Ltac several c := match goal with F : Forall (fun q => exists y, reads ?n y q) ?qs |- _ => destruct (reads_firsts _ c n qs eq_refl) as (v & Ev & Lv); [pick|exact F|]; clear F end.
Lemma filter_nonblank (f : entry -> bool) l : (forall e, In e l -> is_blank e = true -> f e = false) -> filter f (nonblank l) = filter f l.
Proof.
  unfold nonblank. induction l as [|e l IH]; intros H; [reflexivity|]. assert (IH' := IH (fun z Hz => H z (or_intror Hz))). cbn [filter]. destruct (is_blank e) eqn:Eb; cbn [negb filter].
  - rewrite (H e (or_introl eq_refl) Eb). exact IH'.
  - destruct (f e); [f_equal|]; exact IH'.
Qed.
Lemma named_nonblank n e : ~ In n channel_names -> is_blank e = true -> has_name (bs n) e = false.
Proof.
  intros Hn Eb. destruct (has_name (bs n) e) eqn:Eh; [|reflexivity]. apply has_name_true in Eh. apply is_blank_true in Eb. rewrite Eh in Eb. unfold blank_names in Eb. apply in_map_iff in Eb. destruct Eb as (m & Em & Im). apply bs_inj in Em. congruence.
Qed.
Lemma texts_nonblank n name i ms : ~ In n channel_names -> texts_named n (AToken name i ms) = map en_text (filter (has_name (bs n)) (nonblank (entries ms))).
Proof. intros Hn. unfold texts_named. cbn [at_matches]. rewrite filter_nonblank; [reflexivity|]. intros e _ Eb. apply named_nonblank; assumption. Qed.
Lemma count_nonblank n name i ms : ~ In n channel_names -> tokens_named (bs n) [AToken name i ms] = length (filter (fun e => match e with EToken _ _ => has_name (bs n) e | EText _ _ => false end) (nonblank (entries ms))).
Proof. intros Hn. unfold tokens_named. cbn [map at_matches concat]. rewrite app_nil_r. rewrite filter_nonblank; [reflexivity|]. intros [m w|m t] _ Eb; [reflexivity|]. apply named_nonblank; assumption. Qed.
Lemma has_name_other n m e : en_name e = bs m -> n <> m -> has_name (bs n) e = false.
Proof. intros E D. destruct (has_name (bs n) e) eqn:Eh; [|reflexivity]. apply has_name_true in Eh. rewrite E in Eh. apply bs_inj in Eh. congruence. Qed.
Lemma has_name_same n e : en_name e = bs n -> has_name (bs n) e = true.
Proof. intros E. apply has_name_true, E. Qed.
Lemma count_map n l : length (filter (fun e => match e with EToken _ _ => has_name (bs n) e | EText _ _ => false end) (map (EToken (bs n)) l)) = length l.
Proof. induction l as [|t l IH]; [reflexivity|]. cbn [map filter]. rewrite has_name_same by reflexivity. cbn [length]. congruence. Qed.
Lemma kids_nonblank l : (forall n x, In (EToken n x) l -> ~ In n blank_names) -> kids (nonblank l) = kids l.
Proof.
  unfold nonblank. induction l as [|e l IH]; intros H; [reflexivity|]. assert (IH' := IH (fun n x Hx => H n x (or_intror Hx))). cbn [filter]. destruct (is_blank e) eqn:Eb; cbn [negb].
  - rewrite IH'. destruct e as [n w|n x]; [reflexivity|]. exfalso. apply is_blank_true in Eb. exact (H n x (or_introl eq_refl) Eb).
  - unfold kids in *. cbn [map concat]. f_equal. exact IH'.
Qed.
(* the names that can occur in a tree *)
Definition closed (S : list string) : bool :=
  forallb (fun x => negb (existsb (String.eqb (fst x)) S) || forallb (forallb (fun s => match s with P n _ _ => existsb (String.eqb n) S | R _ _ => true end)) (snd x)) shapes.
Lemma closed_names S : closed S = true -> forall a s, conf (bs s) a -> In s S -> forall y, In y (all_of a) -> exists m, In m S /\ at_name y = bs m.
Proof.
  intros Cl. induction a as [name i ms IH] using atoken_ind_kids. intros s Hc Hs y Hy. assert (En := conforms_name _ _ _ Hc). cbn in En. subst name. destruct (all_of_step _ _ _ _ Hy) as [->|(m & x & Hx & Hy')]; [exists s; split; [exact Hs|reflexivity]|].
  destruct (conforms_shape ts Hts _ _ Hc) as (s' & ls & l & j & ms' & gss & En & Hin & Hl & Ea & F & B & C & _). apply bs_inj in En. subst s'. injection Ea as <- <-.
  assert (Z : In (EToken m x) (nonblank (entries ms))) by (apply filter_In; split; [exact Hx|destruct (is_blank (EToken m x)) eqn:Eb; [exfalso; apply is_blank_true in Eb; exact (C _ _ Hx Eb)|reflexivity]]).
  rewrite B in Z. apply in_concat in Z. destruct Z as (g & Hg & Z). destruct (Forall2_in_r _ _ _ _ F Hg) as (z & Hz & Sz). destruct z as [k c|k c sp]; cbn in Sz; [destruct Sz as [[-> _]|(w & _ & ->)]; [destruct Z|destruct Z as [Z|[]]; discriminate]|].
  destruct Sz as (l' & -> & _ & Fc & _). apply in_map_iff in Z. destruct Z as (x' & Z & Hx'). injection Z as <- <-. rewrite Forall_forall in Fc.
  apply (IH _ _ Hx k (Fc _ Hx')); [|exact Hy']. unfold closed in Cl. rewrite forallb_forall in Cl. specialize (Cl _ Hin). cbn [fst snd] in Cl. apply Bool.orb_true_iff in Cl. destruct Cl as [Cl|Cl].
  - apply Bool.negb_true_iff in Cl. assert (X : existsb (String.eqb s) S = true) by (apply existsb_exists; exists s; split; [exact Hs|apply String.eqb_refl]). congruence.
  - rewrite forallb_forall in Cl. specialize (Cl _ Hl). rewrite forallb_forall in Cl. specialize (Cl _ Hz). cbn in Cl. apply existsb_exists in Cl. destruct Cl as (k' & Hk' & Ek). apply String.eqb_eq in Ek. subst. exact Hk'.
Qed.
Definition in_values : list string := ["totalListValue"; "totalListAssignable"; "listAppend"; "singleAssignable"; "listFetchElement"; "listElementFetcher"; "indexValue"; "variableName"; "listAssignableToAssignables"; "operation"; "operationFuncCalls"; "isNullFuncCall"; "operationWithSuffix"; "operationSuffix"; "operationElement"; "computableValue"; "intValue"; "floatValue"; "boolValue"; "operator"; "operatorLogical"; "operatorRelational"; "operatorArithmetic"; "declarableValue"; "primitiveValue"; "stringValue"; "listValue"; "listAssignable"; "assignables"; "commaAssignable"; "assignable"; "slice"; "sliceDelimiter"].
Lemma only_names n i ms x x1 y : conf (bs "assigneeNames") x -> conf (bs "totalListValue") x1 -> kids (entries ms) = [x; x1] -> In y (RootSpec.within (AToken n i ms)) -> at_name y = bs "assigneeNames" -> y = x.
Proof.
  intros Hx H1 Ek Hy Ny. rewrite within_kids, Ek in Hy. cbn [map concat] in Hy. rewrite app_nil_r in Hy. apply in_app_iff in Hy. destruct Hy as [Hy|Hy].
  - destruct x as [m j ms']. assert (En := conforms_name _ _ _ Hx). cbn in En. subst m. destruct (all_of_step _ _ _ _ Hy) as [->|(m & z & Hz & Hy')]; [reflexivity|]. exfalso.
    assert (Cz := conforms_kid ts Hts _ _ _ _ _ Hx Hz). destruct (conforms_shape ts Hts _ _ Hx) as (s' & ls & l & j' & ms'' & gss & En & Hin & Hl & Ea & F & B & C & _). apply bs_inj in En. subst s'. injection Ea as <- <-.
    assert (Hm : exists k, In k ["assigneeName"; "commaAssigneeName"; "variableName"] /\ m = bs k).
    { assert (Z : In (EToken m z) (nonblank (entries ms'))) by (apply filter_In; split; [exact Hz|destruct (is_blank (EToken m z)) eqn:Eb; [exfalso; apply is_blank_true in Eb; exact (C _ _ Hz Eb)|reflexivity]]).
      rewrite B in Z. apply in_concat in Z. destruct Z as (g & Hg & Z). destruct (Forall2_in_r _ _ _ _ F Hg) as (k & Hk & Sk). assert (Nk := sfill_names _ _ _ _ Sk Z). cbn in Nk. exists (sh_name k). split; [|exact Nk].
      assert (Q : forallb (fun x => negb (String.eqb (fst x) "assigneeNames") || forallb (forallb (fun s => existsb (String.eqb (sh_name s)) ["assigneeName"; "commaAssigneeName"; "variableName"])) (snd x)) shapes = true) by (vm_compute; reflexivity).
      rewrite forallb_forall in Q. specialize (Q _ Hin). cbn [fst snd] in Q. rewrite String.eqb_refl in Q. cbn [negb orb] in Q. rewrite forallb_forall in Q. specialize (Q _ Hl). rewrite forallb_forall in Q. specialize (Q _ Hk). apply existsb_exists in Q. destruct Q as (u & Hu & Eu). apply String.eqb_eq in Eu. subst. exact Hu. }
    destruct Hm as (k & Hk & ->). destruct (closed_names ["assigneeName"; "commaAssigneeName"; "variableName"] ltac:(vm_compute; reflexivity) z k Cz Hk y Hy') as (u & Hu & Eu). rewrite Ny in Eu. apply bs_inj in Eu. subst u. cbn in Hu. intuition discriminate.
  - exfalso. destruct (closed_names in_values ltac:(vm_compute; reflexivity) x1 "totalListValue" H1 (or_introl eq_refl) y Hy) as (u & Hu & Eu). rewrite Ny in Eu. apply bs_inj in Eu. subst u. revert Hu. cbn [in_values In]. intuition discriminate.
Qed.
Ltac nb := cbn [channel_names In]; intuition discriminate.
Lemma st_program : step ("program", [[P "headerVariables" COptional []; P "instructions" CMandatory []]]).
Proof. start; opens; finish. Qed.
Lemma st_headerVariables : step ("headerVariables", [[P "headerVariable" CNonZero []]]).
Proof. start; opens; several OHeaderVariable; answer ltac:(eapply me_headers; eassumption). Qed.
Lemma st_headerVariable : step ("headerVariable", [[P "inputOutput" CMandatory []; P "variableDeclaration" CMandatory []; R "COLON" CMandatory; R "KEYNAME_PATTERN" CMandatory; R "QUESTION_MARK" COptional]]).
Proof. start; opens; finish. Qed.
Lemma st_inputOutput : step ("inputOutput", [[R "RIGHT_ARROW" CMandatory]; [R "LEFT_ARROW" CMandatory]]).
Proof. start; opens; finish. Qed.
Lemma st_instructions : step ("instructions", [[P "instruction" CNonZero []]]).
Proof. start; opens; several OInstruction; answer ltac:(eapply me_instructions; eassumption). Qed.
Lemma st_instruction : step ("instruction", [[P "assignment" CMandatory []]; [P "variableDeclaration" CMandatory []]; [P "ifDeclaration" CMandatory []]; [P "forDeclaration" CMandatory []]; [P "voidFuncCalls" CMandatory []]; [P "direction" CMandatory []]; [P "intIncrement" CMandatory []]]).
Proof. start; opens; finish. Qed.
Lemma st_direction : step ("direction", [[R "BREAK" CMandatory]; [R "CONTINUE" CMandatory]]).
Proof. start; opens; finish. Qed.
Lemma st_voidFuncCalls : step ("voidFuncCalls", [[P "logFuncCall" CMandatory []]]).
Proof. start; opens; finish. Qed.
Lemma st_logFuncCall : step ("logFuncCall", [[R "LOG_FUNC" CMandatory; R "OPEN_PARENTHESIS" CMandatory; P "assignable" CMandatory []; R "CLOSE_PARENTHESIS" CMandatory]]).
Proof. start; opens; finish. Qed.
Lemma st_listAppend : step ("listAppend", [[R "APPEND" CMandatory; P "listValue" CMandatory []; R "COMMA" CMandatory; P "singleAssignable" CMandatory []]]).
Proof. start; opens; finish. Qed.
Lemma st_slice : step ("slice", [[P "listValue" CMandatory []; R "OPEN_SQUARE_BRACKET" CMandatory; P "sliceDelimiter" CMandatory []; R "CLOSE_SQUARE_BRACKET" CMandatory]]).
Proof. start; opens; finish. Qed.
Lemma st_sliceDelimiter : step ("sliceDelimiter", [[P "indexValue" CMandatory []; R "COLON" CMandatory; P "indexValue" COptional []]]).
Proof. start; opens; finish. Qed.
Lemma st_indexValue : step ("indexValue", [[R "INT_PATTERN" CMandatory]; [P "variableName" CMandatory []]]).
Proof. start; opens; try finish. destruct (Kn _ (all_of_self _)) as [Kn1 _].
  match goal with P : parts r [("INT_PATTERN", [T ?w])] |- _ => assert (E : texts_named "INT_PATTERN" (AToken (bs "indexValue") i ms) = [w]) by (rewrite texts_nonblank by nb; rewrite Kb; cbn [concat app map filter]; repeat (first [rewrite has_name_same by reflexivity | match goal with |- context [has_name (bs ?n) (EText (bs ?m) ?w)] => rewrite (has_name_other n m (EText (bs m) w) eq_refl) by discriminate end]); reflexivity); destruct (Kn1 (or_introl eq_refl) w) as (n & Hn & _); [rewrite E; left; reflexivity|] end.
  answer ltac:(eapply me_index; eassumption). Qed.
Lemma st_forDeclaration : step ("forDeclaration", [[R "FOR" CMandatory; P "forStatement" CMandatory []; R "OPEN_BRACKET" CMandatory; P "instructions" COptional []; R "CLOSE_BRACKET" CMandatory]]).
Proof. start; opens; finish. Qed.
Lemma st_forStatement : step ("forStatement", [[P "assigneeNames" CMandatory [("commaAssigneeName", SAmount 1)]; R "COLON" CMandatory; R "EQUAL" CMandatory; P "totalListValue" CMandatory []]; [R "OPEN_PARENTHESIS" CMandatory; P "forStatement" CMandatory []; R "CLOSE_PARENTHESIS" CMandatory]]).
Proof. start; opens; try finish.
  match goal with H : [?x] <> [] -> forall z, In z [("commaAssigneeName", SAmount 1)] -> _ |- _ => assert (V := H ltac:(discriminate) _ (or_introl eq_refl)); clear H end. cbn [fst snd] in V.
  match goal with A : last_with (at_discovery ?x) _ ?y, B : conf (bs "assigneeNames") ?y, X : Forall _ [?x], Z : Forall (conforms _ _ _ (bs "totalListValue")) [?z] |- _ => assert (Y : y = x); [apply (only_names (bs "forStatement") i ms x z y)|] end.
  + apply Forall_cons_iff in H. apply H.
  + apply Forall_cons_iff in H3. apply H3.
  + rewrite <- kids_nonblank by exact Knb. rewrite Kb. reflexivity.
  + destruct H9 as (? & ? & El & _). rewrite El. apply in_or_app. right. left. reflexivity.
  + exact (conforms_name _ _ _ H10).
  + destruct (Hn0 eq_refl) as (l & El & Ll). injection El as ->. rewrite Y in Ll. unfold specific_is_valid in V. cbn [specific_delimiter] in V. apply andb_prop in V. destruct V as [V1 V2]. apply N.leb_le in V1, V2. assert (tokens_named (bs "commaAssigneeName") [x] = 1) by lia.
    destruct l as [|a [|b [|c l]]]; cbn [length] in Ll; try lia. answer ltac:(eapply me_for_statement; eassumption). Qed.
Lemma st_ifDeclaration : step ("ifDeclaration", [[P "ifOperation" CMandatory []; R "OPEN_BRACKET" CMandatory; P "instructions" COptional []; R "CLOSE_BRACKET" CMandatory]]).
Proof. start; opens; finish. Qed.
Lemma st_ifOperation : step ("ifOperation", [[R "IF" CMandatory; P "operation" CMandatory []]]).
Proof. start; opens; finish. Qed.
Lemma st_operation : step ("operation", [[P "operationWithSuffix" CMandatory []]; [P "operationFuncCalls" CMandatory []]; [R "OPEN_PARENTHESIS" CMandatory; P "operation" CMandatory []; R "CLOSE_PARENTHESIS" CMandatory]]).
Proof. start; opens; finish. Qed.
Lemma st_operationWithSuffix : step ("operationWithSuffix", [[P "operationElement" CMandatory []; P "operationSuffix" COptional []]]).
Proof. start; opens.
  - match goal with H : means _ _ "operationElement" _ (OElement ?e) |- _ => destruct e as [b|w|v|o|c] end; first [answer ltac:(eapply me_alone; [eassumption|eassumption|intros ? X; discriminate X])|answer ltac:(eapply me_alone_operation; eassumption)].
  - finish. Qed.
Lemma st_operationSuffix : step ("operationSuffix", [[P "operator" CMandatory []; P "operationElement" CMandatory []]]).
Proof. start; opens; finish. Qed.
Lemma st_operationElement : step ("operationElement", [[P "boolValue" CMandatory []]; [P "variableName" CMandatory []]; [P "computableValue" CMandatory []]; [P "operation" CMandatory []]]).
Proof. start; opens; finish. Qed.
Lemma st_operationFuncCalls : step ("operationFuncCalls", [[P "isNullFuncCall" CMandatory []]]).
Proof. start; opens; finish. Qed.
Lemma st_isNullFuncCall : step ("isNullFuncCall", [[R "IS_NULL_FUNC" CMandatory; R "OPEN_PARENTHESIS" CMandatory; P "operation" CMandatory []; R "CLOSE_PARENTHESIS" CMandatory]]).
Proof. start; opens; finish. Qed.
Lemma st_operator : step ("operator", [[P "operatorArithmetic" CMandatory []]; [P "operatorRelational" CMandatory []]; [P "operatorLogical" CMandatory []]]).
Proof. start; opens.
  - answer ltac:(eapply (me_operator _ _ "operatorArithmetic"); first [eassumption|discriminate|cbn [In]; auto 12]).
  - answer ltac:(eapply (me_operator _ _ "operatorRelational"); first [eassumption|discriminate|cbn [In]; auto 12]).
  - answer ltac:(eapply (me_operator _ _ "operatorLogical"); first [eassumption|discriminate|cbn [In]; auto 12]). Qed.
Lemma st_operatorArithmetic : step ("operatorArithmetic", [[R "PLUS" CMandatory]; [R "MINUS" CMandatory]; [R "STAR" CMandatory]; [R "DIV" CMandatory]]).
Proof. start; opens; finish. Qed.
Lemma st_operatorRelational : step ("operatorRelational", [[R "LESS" CMandatory; R "EQUAL" COptional]; [R "MORE" CMandatory; R "EQUAL" COptional]; [R "EXCLAMATION" CMandatory; R "EQUAL" CMandatory]; [R "EQUAL" (CSpecific (SAmount 2))]]).
Proof. start; opens; try finish. answer ltac:(eapply (me_equal _ _ _ [_]); first [eassumption|discriminate|cbn [In]; auto 12]). Qed.
Lemma st_operatorLogical : step ("operatorLogical", [[R "AND" (CSpecific (SAmount 2))]; [R "PIPE" (CSpecific (SAmount 2))]]).
Proof. start; opens.
  - answer ltac:(eapply (me_and _ _ _ [_]); first [eassumption|discriminate|cbn [In]; auto 12]).
  - answer ltac:(eapply (me_or _ _ _ [_]); first [eassumption|discriminate|cbn [In]; auto 12]). Qed.
Lemma st_assignment : step ("assignment", [[P "assignee" CMandatory []; P "assignables" CMandatory []]]).
Proof. start; opens; finish. Qed.
Lemma st_assignee : step ("assignee", [[P "assigneeNameFirsts" CMandatory []; R "COLON" CMandatory; R "EQUAL" CMandatory]; [P "assigneeNames" CMandatory []; R "EQUAL" CMandatory]]).
Proof. start; opens; finish. Qed.
Lemma st_assigneeNameFirsts : step ("assigneeNameFirsts", [[P "assigneeNameFirst" CMandatory []; P "commaAssigneeFirst" CZero []]]).
Proof. start; opens.
  - answer ltac:(eapply (me_firsts _ _ _ _ _ [] []); [eassumption|eassumption|constructor]).
  - several OFirst; match goal with D : ?q <> [] |- _ => destruct q; [congruence|] end; answer ltac:(eapply me_firsts; [|eassumption|eassumption]; eassumption). Qed.
Lemma st_commaAssigneeFirst : step ("commaAssigneeFirst", [[R "COMMA" CMandatory; P "assigneeNameFirst" CMandatory []]]).
Proof. start; opens; finish. Qed.
Lemma st_assigneeNameFirst : step ("assigneeNameFirst", [[P "variableDeclaration" CMandatory []]; [P "assigneeName" CMandatory []]]).
Proof. start; opens; finish. Qed.
Lemma st_assigneeNames : step ("assigneeNames", [[P "assigneeName" CMandatory []; P "commaAssigneeName" CZero []]]).
Proof. start; opens.
  - unfold reads, reads_as; cbn [String.eqb Ascii.eqb Bool.eqb]. eexists. split; [eapply (me_names _ _ _ _ _ [] []); [eassumption|eassumption|constructor]|]. split; [cbn [kind In]; auto 12|]. intros _. eexists. split; [reflexivity|].
    rewrite count_nonblank by nb. rewrite Kb. cbn [concat app map filter]. match goal with |- context [has_name (bs ?n) (EToken (bs ?m) ?w)] => rewrite (has_name_other n m (EToken (bs m) w) eq_refl) by discriminate end. reflexivity.
  - several OName. match goal with D : ?q <> [] |- _ => destruct q; [congruence|] end. unfold reads, reads_as; cbn [String.eqb Ascii.eqb Bool.eqb]. eexists. split; [eapply me_names; [|eassumption|eassumption]; eassumption|]. split; [cbn [kind In]; auto 12|]. intros _. eexists. split; [reflexivity|].
    rewrite count_nonblank by nb. rewrite Kb. cbn [concat map]. rewrite app_nil_r. cbn [app filter]. match goal with |- context [has_name (bs "commaAssigneeName") (EToken (bs "assigneeName") ?w)] => rewrite (has_name_other "commaAssigneeName" "assigneeName" (EToken (bs "assigneeName") w) eq_refl) by discriminate end.
    rewrite has_name_same by reflexivity. cbn [length]. rewrite count_map. congruence. Qed.
Lemma st_commaAssigneeName : step ("commaAssigneeName", [[R "COMMA" CMandatory; P "assigneeName" CMandatory []]]).
Proof. start; opens; finish. Qed.
Lemma st_assigneeName : step ("assigneeName", [[P "variableName" CMandatory []]; [R "UNDERSCORE" CMandatory]]).
Proof. start; opens; finish. Qed.
Lemma st_assignables : step ("assignables", [[P "assignable" CMandatory []; P "commaAssignable" CZero []]]).
Proof. start; opens.
  - answer ltac:(eapply (me_assignables _ _ _ _ _ [] []); [eassumption|eassumption|constructor]).
  - several OAssignable; match goal with D : ?q <> [] |- _ => destruct q; [congruence|] end; answer ltac:(eapply me_assignables; [|eassumption|eassumption]; eassumption). Qed.
Lemma st_commaAssignable : step ("commaAssignable", [[R "COMMA" CMandatory; P "assignable" CMandatory []]]).
Proof. start; opens; finish. Qed.
Lemma st_assignable : step ("assignable", [[P "totalListAssignable" CMandatory []]; [P "singleAssignable" CMandatory []]]).
Proof. start; opens; finish. Qed.
Lemma st_singleAssignable : step ("singleAssignable", [[P "declarableValue" CMandatory []]; [P "operation" CMandatory []]; [P "listAssignableToAssignables" CMandatory []]; [P "listFetchElement" CMandatory []]]).
Proof. start; opens; finish. Qed.
Lemma st_listFetchElement : step ("listFetchElement", [[P "totalListValue" CMandatory []; P "listElementFetcher" CMandatory []]]).
Proof. start; opens; finish. Qed.
Lemma st_listElementFetcher : step ("listElementFetcher", [[R "OPEN_SQUARE_BRACKET" CMandatory; P "indexValue" CMandatory []; R "CLOSE_SQUARE_BRACKET" CMandatory]]).
Proof. start; opens; finish. Qed.
Lemma st_listAssignableToAssignables : step ("listAssignableToAssignables", [[P "totalListAssignable" CMandatory []; R "DOT" (CSpecific (SAmount 3))]; [R "OPEN_PARENTHESIS" CMandatory; P "totalListAssignable" CMandatory []; R "CLOSE_PARENTHESIS" CMandatory; R "DOT" (CSpecific (SAmount 3))]]).
Proof. start; opens.
  - answer ltac:(eapply (me_extract _ _ _ _ _ [_]); first [eassumption|discriminate|cbn [In]; auto 12]).
  - answer ltac:(eapply (me_extract_group _ _ _ _ _ _ _ [_]); first [eassumption|discriminate|cbn [In]; auto 12]). Qed.
Lemma st_totalListValue : step ("totalListValue", [[P "variableName" CMandatory []]; [P "totalListAssignable" CMandatory []]]).
Proof. start; opens; finish. Qed.
Lemma st_totalListAssignable : step ("totalListAssignable", [[P "listValue" CMandatory []]; [P "slice" CMandatory []]; [P "listAppend" CMandatory []]]).
Proof. start; opens; finish. Qed.
Lemma st_listValue : step ("listValue", [[P "listAssignable" CMandatory []]; [P "variableName" CMandatory []]]).
Proof. start; opens; finish. Qed.
Lemma st_listAssignable : step ("listAssignable", [[R "OPEN_SQUARE_BRACKET" CMandatory; P "assignables" COptional []; R "CLOSE_SQUARE_BRACKET" CMandatory]]).
Proof. start; opens; finish. Qed.
Lemma st_intIncrement : step ("intIncrement", [[P "variableName" CMandatory []; P "intIncrementValue" CMandatory []]]).
Proof. start; opens; finish. Qed.
Lemma st_intIncrementValue : step ("intIncrementValue", [[R "PLUS" CMandatory; R "PLUS" CMandatory]; [R "MINUS" CMandatory; R "MINUS" CMandatory]]).
Proof. start; opens; finish. Qed.
Lemma st_declarableValue : step ("declarableValue", [[P "computableValue" CMandatory []]; [P "primitiveValue" CMandatory []]]).
Proof. start; opens.
  - answer ltac:(eapply (me_declarable _ _ _ "computableValue"); first [eassumption|discriminate|cbn [In]; auto 12]).
  - answer ltac:(eapply (me_declarable _ _ _ "primitiveValue"); first [eassumption|discriminate|cbn [In]; auto 12]). Qed.
Lemma st_computableValue : step ("computableValue", [[P "floatValue" CMandatory []]; [P "intValue" CMandatory []]]).
Proof. start; opens.
  - answer ltac:(eapply (me_declarable _ _ _ "floatValue"); first [eassumption|discriminate|cbn [In]; auto 12]).
  - answer ltac:(eapply (me_declarable _ _ _ "intValue"); first [eassumption|discriminate|cbn [In]; auto 12]). Qed.
Lemma st_primitiveValue : step ("primitiveValue", [[P "boolValue" CMandatory []]; [P "stringValue" CMandatory []]]).
Proof. start; opens.
  - answer ltac:(eapply (me_declarable _ _ _ "boolValue"); first [eassumption|discriminate|cbn [In]; auto 12]).
  - answer ltac:(eapply (me_declarable _ _ _ "stringValue"); first [eassumption|discriminate|cbn [In]; auto 12]). Qed.
Lemma st_stringValue : step ("stringValue", [[R "QUOTATION" CMandatory; R "EVERYTHING_EXCEPT_QUOTATION" CMandatory; R "QUOTATION" CMandatory]]).
Proof. start; opens; finish. Qed.
Lemma st_boolValue : step ("boolValue", [[R "TRUE" CMandatory]; [R "FALSE" CMandatory]]).
Proof. start; opens; finish. Qed.
Lemma st_intValue : step ("intValue", [[R "MINUS" COptional; R "INT_PATTERN" CMandatory]]).
Proof. start; opens; destruct (Kn _ (all_of_self _)) as [Kn1 _].
  - match goal with P : parts r [("INT_PATTERN", [T ?w])] |- _ => assert (E : texts_named "INT_PATTERN" (AToken (bs "intValue") i ms) = [w]) by (rewrite texts_nonblank by nb; rewrite Kb; cbn [concat app map filter]; repeat (first [rewrite has_name_same by reflexivity | match goal with |- context [has_name (bs ?n) (EText (bs ?m) ?w)] => rewrite (has_name_other n m (EText (bs m) w) eq_refl) by discriminate end]); reflexivity); destruct (Kn1 (or_intror eq_refl) w) as (n & Hn & _); [rewrite E; left; reflexivity|] end.
    answer ltac:(eapply me_uint; eassumption).
  - match goal with P : parts r [("MINUS", [T ?v]); ("INT_PATTERN", [T ?w])] |- _ => assert (E : texts_named "INT_PATTERN" (AToken (bs "intValue") i ms) = [w]) by (rewrite texts_nonblank by nb; rewrite Kb; cbn [concat app map filter]; repeat (first [rewrite has_name_same by reflexivity | match goal with |- context [has_name (bs ?n) (EText (bs ?m) ?w)] => rewrite (has_name_other n m (EText (bs m) w) eq_refl) by discriminate end]); reflexivity);
      assert (E' : texts_named "MINUS" (AToken (bs "intValue") i ms) = [v]) by (rewrite texts_nonblank by nb; rewrite Kb; cbn [concat app map filter]; repeat (first [rewrite has_name_same by reflexivity | match goal with |- context [has_name (bs ?n) (EText (bs ?m) ?w)] => rewrite (has_name_other n m (EText (bs m) w) eq_refl) by discriminate end]); reflexivity); destruct (Kn1 (or_intror eq_refl) w) as (n & Hn & Hm); [rewrite E; left; reflexivity|] end.
    rewrite E' in Hm. answer ltac:(eapply me_int; [eassumption|]; apply Hm; discriminate). Qed.
Lemma st_floatValue : step ("floatValue", [[R "MINUS" COptional; R "INT_PATTERN" CMandatory; R "DOT" CMandatory; R "INT_PATTERN" CMandatory]]).
Proof. start; opens; destruct (Kn _ (all_of_self _)) as [_ Kn1].
  - match goal with P : parts r [("INT_PATTERN", [T ?u; T ?w]); ("DOT", [T _])] |- _ => assert (E : texts_named "INT_PATTERN" (AToken (bs "floatValue") i ms) = [u; w]) by (rewrite texts_nonblank by nb; rewrite Kb; cbn [concat app map filter]; repeat (first [rewrite has_name_same by reflexivity | match goal with |- context [has_name (bs ?n) (EText (bs ?m) ?w)] => rewrite (has_name_other n m (EText (bs m) w) eq_refl) by discriminate end]); reflexivity);
      assert (E' : texts_named "MINUS" (AToken (bs "floatValue") i ms) = []) by (rewrite texts_nonblank by nb; rewrite Kb; cbn [concat app map filter]; repeat (first [rewrite has_name_same by reflexivity | match goal with |- context [has_name (bs ?n) (EText (bs ?m) ?w)] => rewrite (has_name_other n m (EText (bs m) w) eq_refl) by discriminate end]); reflexivity); destruct (Kn1 eq_refl u w E) as (n & Hn) end.
    rewrite E' in Hn. answer ltac:(eapply me_float; [eassumption|exact Hn]).
  - match goal with P : parts r [("MINUS", [T ?v]); ("INT_PATTERN", [T ?u; T ?w]); ("DOT", [T _])] |- _ => assert (E : texts_named "INT_PATTERN" (AToken (bs "floatValue") i ms) = [u; w]) by (rewrite texts_nonblank by nb; rewrite Kb; cbn [concat app map filter]; repeat (first [rewrite has_name_same by reflexivity | match goal with |- context [has_name (bs ?n) (EText (bs ?m) ?w)] => rewrite (has_name_other n m (EText (bs m) w) eq_refl) by discriminate end]); reflexivity);
      assert (E' : texts_named "MINUS" (AToken (bs "floatValue") i ms) = [v]) by (rewrite texts_nonblank by nb; rewrite Kb; cbn [concat app map filter]; repeat (first [rewrite has_name_same by reflexivity | match goal with |- context [has_name (bs ?n) (EText (bs ?m) ?w)] => rewrite (has_name_other n m (EText (bs m) w) eq_refl) by discriminate end]); reflexivity); destruct (Kn1 eq_refl u w E) as (n & Hn) end.
    rewrite E' in Hn. answer ltac:(eapply me_float_minus; [eassumption|exact Hn]). Qed.
Lemma st_variableDeclarations : step ("variableDeclarations", [[P "variableDeclaration" CMandatory []; P "commaVariableDeclaration" CZero []]]).
Proof. start; opens.
  - answer ltac:(eapply (me_declarations _ _ _ _ _ [] []); [eassumption|eassumption|constructor]).
  - several OVarDecl; match goal with D : ?q <> [] |- _ => destruct q; [congruence|] end; answer ltac:(eapply me_declarations; [|eassumption|eassumption]; eassumption). Qed.
Lemma st_commaVariableDeclaration : step ("commaVariableDeclaration", [[R "COMMA" CMandatory; P "variableDeclaration" CMandatory []]]).
Proof. start; opens; finish. Qed.
Lemma st_variableDeclaration : step ("variableDeclaration", [[P "declarativeType" CMandatory []; P "variableName" CMandatory []]]).
Proof. start; opens; finish. Qed.
Lemma st_declarativeType : step ("declarativeType", [[P "primitiveType" CMandatory []]; [P "computableType" CMandatory []]; [P "listType" CMandatory []]]).
Proof. start; opens.
  - answer ltac:(eapply (me_type_plain _ _ "primitiveType"); first [eassumption|discriminate|cbn [In]; auto 12]).
  - answer ltac:(eapply (me_type_plain _ _ "computableType"); first [eassumption|discriminate|cbn [In]; auto 12]).
  - answer ltac:(eapply (me_type_list); first [eassumption|discriminate|cbn [In]; auto 12]). Qed.
Lemma st_listType : step ("listType", [[R "LIST" CMandatory; R "LESS" CMandatory; P "declarativeType" CMandatory []; R "MORE" CMandatory]]).
Proof. start; opens; finish. Qed.
Lemma st_primitiveType : step ("primitiveType", [[R "BOOL" CMandatory]; [R "STRING" CMandatory]]).
Proof. start; opens; finish. Qed.
Lemma st_computableType : step ("computableType", [[R "FLOAT" CMandatory]; [R "UINT" CMandatory]; [R "INT" CMandatory]]).
Proof. start; opens; finish. Qed.
Lemma st_variableName : step ("variableName", [[R "FIRST_LETTER" CMandatory; R "MIN_MAJ_LETTERS" CMandatory]]).
Proof. start. unfold reads, reads_as; cbn [String.eqb Ascii.eqb Bool.eqb]. eexists. eapply (sp_name _ [_] [_]); [eassumption|reflexivity|]. cbn [concat]. rewrite !app_nil_r. intros X. apply app_eq_nil in X. tauto. Qed.
Lemma all_steps : Forall step shapes.
Proof. unfold shapes. apply Forall_cons; [exact st_program|]. apply Forall_cons; [exact st_headerVariables|]. apply Forall_cons; [exact st_headerVariable|]. apply Forall_cons; [exact st_inputOutput|]. apply Forall_cons; [exact st_instructions|]. apply Forall_cons; [exact st_instruction|]. apply Forall_cons; [exact st_direction|]. apply Forall_cons; [exact st_voidFuncCalls|]. apply Forall_cons; [exact st_logFuncCall|]. apply Forall_cons; [exact st_listAppend|]. apply Forall_cons; [exact st_slice|]. apply Forall_cons; [exact st_sliceDelimiter|]. apply Forall_cons; [exact st_indexValue|]. apply Forall_cons; [exact st_forDeclaration|]. apply Forall_cons; [exact st_forStatement|]. apply Forall_cons; [exact st_ifDeclaration|]. apply Forall_cons; [exact st_ifOperation|]. apply Forall_cons; [exact st_operation|]. apply Forall_cons; [exact st_operationWithSuffix|]. apply Forall_cons; [exact st_operationSuffix|]. apply Forall_cons; [exact st_operationElement|]. apply Forall_cons; [exact st_operationFuncCalls|]. apply Forall_cons; [exact st_isNullFuncCall|]. apply Forall_cons; [exact st_operator|]. apply Forall_cons; [exact st_operatorArithmetic|]. apply Forall_cons; [exact st_operatorRelational|]. apply Forall_cons; [exact st_operatorLogical|]. apply Forall_cons; [exact st_assignment|]. apply Forall_cons; [exact st_assignee|]. apply Forall_cons; [exact st_assigneeNameFirsts|]. apply Forall_cons; [exact st_commaAssigneeFirst|]. apply Forall_cons; [exact st_assigneeNameFirst|]. apply Forall_cons; [exact st_assigneeNames|]. apply Forall_cons; [exact st_commaAssigneeName|]. apply Forall_cons; [exact st_assigneeName|]. apply Forall_cons; [exact st_assignables|]. apply Forall_cons; [exact st_commaAssignable|]. apply Forall_cons; [exact st_assignable|]. apply Forall_cons; [exact st_singleAssignable|]. apply Forall_cons; [exact st_listFetchElement|]. apply Forall_cons; [exact st_listElementFetcher|]. apply Forall_cons; [exact st_listAssignableToAssignables|]. apply Forall_cons; [exact st_totalListValue|]. apply Forall_cons; [exact st_totalListAssignable|]. apply Forall_cons; [exact st_listValue|]. apply Forall_cons; [exact st_listAssignable|]. apply Forall_cons; [exact st_intIncrement|]. apply Forall_cons; [exact st_intIncrementValue|]. apply Forall_cons; [exact st_declarableValue|]. apply Forall_cons; [exact st_computableValue|]. apply Forall_cons; [exact st_primitiveValue|]. apply Forall_cons; [exact st_stringValue|]. apply Forall_cons; [exact st_boolValue|]. apply Forall_cons; [exact st_intValue|]. apply Forall_cons; [exact st_floatValue|]. apply Forall_cons; [exact st_variableDeclarations|]. apply Forall_cons; [exact st_commaVariableDeclaration|]. apply Forall_cons; [exact st_variableDeclaration|]. apply Forall_cons; [exact st_declarativeType|]. apply Forall_cons; [exact st_listType|]. apply Forall_cons; [exact st_primitiveType|]. apply Forall_cons; [exact st_computableType|]. apply Forall_cons; [exact st_variableName|]. constructor. Qed.
Lemma conforming_reads s a r : conf (bs s) a -> mirrors a r -> kinds_agree a -> numbers_fit bitsize parse_float a -> reads s a r.
Proof. apply by_steps, all_steps. Qed.
End Steps.
