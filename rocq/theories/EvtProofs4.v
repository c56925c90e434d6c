From Coq Require Import Strings.String Strings.Byte Sorting.Permutation Lia.
From Verif Require Import Go GoLemmas RuleModel RootModel RootSpec RootProofs RootProofs2 ParseModel ParseSpec ParseProofs BaseModel BaseSpec EvtModel EvtSpec EvtProofs EvtProofs2 EvtProofs3.
Open Scope string_scope.
Open Scope list_scope.

Scheme means_m := Minimality for means Sort Prop with each_m := Minimality for each Sort Prop.
Combined Scheme means_each_ind from means_m, each_m.

Lemma join_nil l : join [] l = concat l.
Proof. induction l as [|x l IH]; [reflexivity|]. destruct l as [|y l]; [cbn; rewrite app_nil_r; reflexivity|]. cbn [join concat] in *. rewrite IH. reflexivity. Qed.
Lemma fetch_parts r l n ps : parts r l -> NoDup (map fst l) -> In (n, ps) l -> blank_name n = false -> fetch r n = Ok (part_node (n, ps)).
Proof.
  intros P D I Bn. unfold fetch. destruct (find _ (ro_nodes r)) as [x|] eqn:F.
  - apply find_some in F. destruct F as [Ix E]. destruct (parts_names _ _ _ P Ix) as (k & qs & [Ik|Ik] & ->); [|exfalso; apply (proj1 (blank_absent n _ _ Ik Bn) (part_node (k, qs))); [apply ni_here; left; reflexivity|apply bytes_eqb_eq; exact E]]. cbn [no_name part_node fst] in E. rewrite bs_eqb in E. apply String.eqb_eq in E. subst k. do 2 f_equal. f_equal. clear - D I Ik. induction l as [|[a b] l IH]; [destruct I|]. inversion D as [|? ? Na Dl]; subst. cbn in *.
    destruct I as [I|I], Ik as [Ik|Ik]; [congruence| | |apply IH; assumption]; exfalso; apply Na; [injection I as <- <-; apply (in_map fst _ _ Ik)|injection Ik as <- <-; apply (in_map fst _ _ I)].
  - exfalso. assert (X := find_none _ _ F _ (parts_in _ _ _ P I)). cbn [no_name part_node fst] in X. rewrite bytes_eqb_refl in X. discriminate.
Qed.
Lemma texts_content n ws : no_content (part_node (n, map T ws)) = concat ws.
Proof. unfold no_content. cbn. rewrite join_nil. f_equal. rewrite !map_map. cbn. apply map_id. Qed.

Section Main.
Variable m : Prop.
Variable bitsize : N.
Variable parse_float : bytes -> N -> option N.
Notation gives := (gives m bitsize parse_float).
Notation means := (means bitsize parse_float).
Notation each := (each bitsize parse_float).
Notation part_gives := (part_gives m bitsize parse_float).

Lemma each_parts n l xs : Forall2 (fun q x => gives n q (VObj x)) l xs -> Forall2 (part_gives n) (map K l) (map (fun x => VObj x) xs).
Proof. induction 1; constructor; assumption. Qed.
Lemma each_all {X} (f : X -> obj) (g : obj -> option X) l : (forall x, g (f x) = Some x) -> EvtModel.all_of g (VResult (map (fun x => VObj x) (map f l))) = Ok l.
Proof. intros H. unfold EvtModel.all_of. cbn [list_of]. induction l as [|x l IH]; [reflexivity|]. cbn. rewrite H. cbn. rewrite IH. reflexivity. Qed.
Lemma spells_gives q w : spells q w -> gives "variableName" q (VText w).
Proof.
  intros H. inversion H as [r a b w' P -> Ne]; subst. eapply base_ans; [reflexivity| |].
  - unfold ev_variableName. eapply ans_bind; [rewrite (fetch_parts _ _ "FIRST_LETTER" (map T a) P); [apply ans_ret|repeat constructor; cbn; intuition discriminate|left; reflexivity|reflexivity]|].
    eapply ans_bind; [rewrite (fetch_parts _ _ "MIN_MAJ_LETTERS" (map T b) P); [apply ans_ret|repeat constructor; cbn; intuition discriminate|right; left; reflexivity|reflexivity]|]. apply ans_ret.
  - rewrite !texts_content. reflexivity.
Qed.
Definition texts (ps : list part) : list bytes := concat (map (fun p => match p with T w => [w] | K _ => [] end) ps).
Lemma trigger_texts r l n ps xs : parts r l -> NoDup (map fst l) -> In (n, ps) l -> Forall2 (part_gives n) ps xs -> ps <> [] ->
  (forall x qs, In (x, qs) l -> exists ws, qs = map T ws) -> blank_name n = false -> ans m (trigger (base_events bitsize parse_float) (bs n) r) (Ok (VResult xs)).
Proof.
  intros P D I F Ne H Bn. eapply trigger_parts; [exact P|exact D|exact I|exact F|exact Ne| |exact Bn]. intros _ x qs Ix Nx. destruct (H x qs Ix) as [ws ->]. apply texts_absent. exact Nx.
Qed.
Lemma trigger_tokens r l n ps xs : parts r l -> (m -> clear r) -> NoDup (map fst l) -> In (n, ps) l -> Forall2 (part_gives n) ps xs -> ps <> [] ->
  asked n ps -> blank_name n = false -> ans m (trigger (base_events bitsize parse_float) (bs n) r) (Ok (VResult xs)).
Proof.
  intros P C D I F Ne A Bn. eapply trigger_parts; [exact P|exact D|exact I|exact F|exact Ne| |exact Bn]. intros M. eapply clear_parts; [exact P|exact I|exact A|apply C; exact M].
Qed.
Lemma sub_clear r l q : parts r l -> (m -> clear r) -> In (K q) (concat (map snd l)) -> m -> clear q.
Proof. intros P C J M. apply in_concat in J. destruct J as (ps & I & J). apply in_map_iff in I. destruct I as ([n ps'] & E & I). cbn in E. subst ps'. eapply clear_inside; [eapply parts_inside; eassumption|apply C; exact M]. Qed.

Lemma each_clear r l n qs : parts r l -> (m -> clear r) -> In (n, map K qs) l -> m -> forall q, In q qs -> clear q.
Proof. intros P C I M q Hq. eapply (sub_clear _ _ _ P C); [|exact M]. apply in_concat. exists (map K qs). split; [apply (in_map snd _ _ I)|apply in_map; exact Hq]. Qed.
Lemma trigger_each r l n qs xs : parts r l -> (m -> clear r) -> NoDup (map fst l) -> In (n, map K qs) l -> qs <> [] -> Forall2 (fun q x => gives n q (VObj x)) qs xs -> blank_name n = false ->
  ans m (trigger (base_events bitsize parse_float) (bs n) r) (Ok (VResult (map (fun x => VObj x) xs))).
Proof.
  intros P C D I Ne F Bn. eapply (trigger_tokens _ _ _ _ _ P C D I); [apply each_parts; exact F|destruct qs; [congruence|discriminate]| |exact Bn]. left. destruct qs as [|q qs]; [congruence|]. exists q. left. reflexivity.
Qed.
Lemma ans_commas {X} (f : X -> obj) (g : obj -> option X) r n c q x cs l : (forall x, g (f x) = Some x) -> blank_name n = false -> blank_name c = false -> n <> c ->
  parts r ((n, [K q]) :: some c cs) -> (m -> clear r) -> ((m -> clear q) -> gives n q (VObj (f x))) -> ((m -> forall q, In q cs -> clear q) -> Forall2 (fun q x => gives c q (VObj x)) cs (map f l)) ->
  ans m (runs (fun name => trigger (base_events bitsize parse_float) name r) (with_commas r n c g)) (Ok (x :: l)).
Proof.
  intros G Bn Bc Ne P C Hq Hc. assert (D : NoDup (map fst ((n, [K q]) :: some c cs))) by (destruct cs; repeat constructor; cbn; intuition).
  unfold with_commas. eapply ans_bind.
  - eapply ans_get; [|apply G]. eapply (trigger_tokens _ _ _ _ _ P C D (or_introl eq_refl)); [constructor; [apply Hq; apply (sub_clear _ _ _ P C); cbn; auto|constructor]|discriminate|left; exists q; left; reflexivity|exact Bn].
  - cbv beta. destruct cs as [|p cs].
    + assert (F : Forall2 (fun q x => gives c q (VObj x)) [] (map f l)) by (apply Hc; intros _ ? []). inversion F as [E|]. destruct l; [|discriminate]. eapply ans_bind; [apply ans_opt_none; rewrite (has_parts _ _ _ P Bc); cbn; destruct (String.eqb_spec c n); [congruence|reflexivity]|]. apply ans_ret.
    + eapply ans_bind; [eapply ans_opt_some; [rewrite (has_parts _ _ _ P Bc); cbn; rewrite String.eqb_refl, orb_true_r; reflexivity|]|].
      * eapply ans_bind; [apply ans_trig; eapply (trigger_each _ _ _ (p :: cs) _ P C D); [right; left; reflexivity|discriminate|apply Hc; apply (each_clear _ _ c _ P C); right; left; reflexivity|exact Bc]|]. cbv beta. rewrite (each_all f g _ G). apply ans_ret.
      * apply ans_ret.
Qed.
Ltac unfold_head t := match t with ?f _ => unfold_head f | ?f => unfold f end.
Ltac nodup := repeat constructor; cbn; intuition discriminate.
Ltac is_in := cbn; repeat first [left; reflexivity | right].
Ltac giving := match goal with
  | |- part_gives _ (T _) _ => reflexivity
  | H : spells ?q ?w |- part_gives _ (K ?q) _ => exact (spells_gives q w H)
  | P : parts ?r _, C : m -> clear ?r, IH : (m -> clear ?q) -> gives _ ?q _ |- part_gives _ (K ?q) _ => apply IH; apply (sub_clear _ _ _ P C); is_in
  end.
Ltac giving_all := repeat (apply Forall2_cons || apply Forall2_nil); giving.
Ltac trg := match goal with
  | P : parts ?r _, C : m -> clear ?r |- ans m (trigger _ (bs _) ?r) _ =>
    first [ solve [eapply (trigger_texts _ _ _ _ _ P); [nodup|is_in|giving_all|discriminate|intros ? ? I; cbn in I; repeat (destruct I as [I|I]; [injection I as <- <-; first [eexists; reflexivity | match goal with |- exists ws, ?q = map T ws => exists (texts q); reflexivity end]|]); destruct I|reflexivity]]
          | eapply (trigger_tokens _ _ _ _ _ P C); [nodup|is_in|giving_all|discriminate|first [solve [left; eexists; is_in] | right; reflexivity]|reflexivity] ]
  end.
Ltac has_ := match goal with P : parts ?r _ |- has ?r _ = _ => rewrite (has_parts _ _ _ P) by reflexivity; reflexivity end.
Ltac use_float := match goal with E : parse_float ?w ?b = Some _ |- context[parse_float ?w' ?b] => change (parse_float w' b) with (parse_float w b); rewrite E | _ => idtac end.
Ltac use_eq := repeat match goal with E : ?t = Ok _ |- context[?t] => rewrite E end.
Ltac use_has := match goal with P : parts ?r _ |- _ => rewrite ?(has_parts _ _ _ P) by reflexivity end.
Ltac nonempty := repeat match goal with H : spells ?q ?w |- _ => is_var w; destruct w; [exfalso; inversion H; congruence|] | H : ?w <> [] |- _ => is_var w; destruct w; [congruence|] end.
Ltac go := cbv beta zeta; lazymatch goal with
  | |- ans m (runs _ (Ret _)) _ => use_eq; use_has; use_float; exact (ans_ret m _ _)
  | |- ans m (runs _ (match list_of _ with _ => _ end)) _ => cbn [list_of]; go
  | |- ans m (runs _ (now _ _)) _ => unfold now; use_has; exact (ans_ret m _ _)
  | |- ans m (runs _ (forward _)) _ => apply ans_trig; trg
  | |- ans m (runs _ (trig _)) _ => apply ans_trig; trg
  | |- ans m (runs _ (get _ _)) _ => eapply ans_get; [trg|reflexivity]
  | |- ans m (runs _ (get_text _)) _ => eapply ans_text; trg
  | |- ans m (runs _ (get_opt _ _ _)) _ => unfold get_opt; go
  | |- ans m (runs _ (opt _ _ _)) _ => first [apply ans_opt_none; has_ | eapply ans_opt_some; [has_|go]]
  | |- ans m (runs _ (name_opt _)) _ => first [apply ans_name_none; has_ | eapply ans_name_some; [has_|trg]]
  | |- ans m (runs _ (pbind _ _)) _ => eapply ans_bind; [go|go]
  | |- ans m (runs _ (if has ?r ?n then _ else _)) _ => first [replace (has r n) with true by (symmetry; has_) | replace (has r n) with false by (symmetry; has_)]; cbv iota; go
  end.
Ltac ev := eapply base_ans; [reflexivity| |]; cbn [snd]; [match goal with |- ans m (runs _ (?f ?r)) _ => let h := f in unfold_head h end; go|reflexivity].

Lemma means_gives :
  (forall n r x, means n r x -> (m -> clear r) -> gives n r (VObj x)) /\
  (forall n l xs, each n l xs -> (m -> forall q, In q l -> clear q) -> Forall2 (fun q x => gives n q (VObj x)) l xs).
Proof.
  apply means_each_ind; intros.
  all: try (solve [nonempty; ev]).
  all: try (solve [match goal with H : fits _ _ _ |- _ => apply parse_uint_iff in H | H : fits_negative _ _ _ |- _ => apply parse_neg_ok in H end; ev]).
  all: try (solve [repeat match goal with H : In _ (_ :: _) |- _ => destruct H as [H|H] | H : (_, _) = (_, _) |- _ => injection H as <- <- | H : In _ [] |- _ => destruct H end; subst; ev]).
  all: match goal with
    | H : parts ?r [(?n, map K ?l)], C : m -> clear ?r |- gives _ _ _ => idtac
    | E : forall o, ?e <> OEOperation o |- _ => destruct e; try (exfalso; eapply E; reflexivity); ev
    | H : parts ?r (_ :: some _ _) |- _ => idtac
    | _ => idtac end.
  - assert (D : NoDup (map fst [("headerVariable", map K l)])) by nodup. assert (F := H2 (each_clear _ _ _ _ H H3 (or_introl eq_refl))). eapply base_ans; [reflexivity| |]; cbn [snd]; [unfold ev_headerVariables; eapply ans_bind; [apply ans_trig; exact (trigger_each _ _ _ _ _ H H3 D (or_introl eq_refl) H0 F eq_refl)|]; cbv beta; rewrite (each_all OHeaderVariable) by reflexivity; eapply ans_bind; [apply ans_ret|]; destruct v; [inversion F; congruence|]; apply ans_ret|reflexivity].
  - assert (D : NoDup (map fst [("instruction", map K l)])) by nodup. assert (F := H2 (each_clear _ _ _ _ H H3 (or_introl eq_refl))). eapply base_ans; [reflexivity| |]; cbn [snd]; [unfold ev_instructions; eapply ans_bind; [apply ans_trig; exact (trigger_each _ _ _ _ _ H H3 D (or_introl eq_refl) H0 F eq_refl)|]; cbv beta; rewrite (each_all OInstruction) by reflexivity; eapply ans_bind; [apply ans_ret|]; destruct v; [inversion F; congruence|]; apply ans_ret|reflexivity].
  - eapply base_ans; [reflexivity| |]; cbn [snd]; [unfold ev_assigneeNameFirsts; eapply ans_bind; [eapply (ans_commas OFirst is_first); [reflexivity|reflexivity|reflexivity|discriminate|exact H|exact H4|exact H1|exact H3]|apply ans_ret]|reflexivity].
  - eapply base_ans; [reflexivity| |]; cbn [snd]; [unfold ev_assigneeNames; eapply ans_bind; [eapply (ans_commas OName is_name); [reflexivity|reflexivity|reflexivity|discriminate|exact H|exact H4|exact H1|exact H3]|apply ans_ret]|reflexivity].
  - eapply base_ans; [reflexivity| |]; cbn [snd]; [unfold ev_assignables; eapply ans_bind; [eapply (ans_commas OAssignable is_assignable); [reflexivity|reflexivity|reflexivity|discriminate|exact H|exact H4|exact H1|exact H3]|apply ans_ret]|reflexivity].
  - eapply base_ans; [reflexivity| |]; cbn [snd]; [unfold ev_variableDeclarations; eapply ans_bind; [eapply (ans_commas OVarDecl is_vardecl); [reflexivity|reflexivity|reflexivity|discriminate|exact H|exact H4|exact H1|exact H3]|apply ans_ret]|reflexivity].
  - constructor.
  - constructor; [apply H0; intros M; apply H3; [exact M|left; reflexivity]|apply H2; intros M p Hp; apply H3; [exact M|right; exact Hp]].
Qed.
End Main.
