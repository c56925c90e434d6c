(* LitProofs4.v - proofs for LitProps.v: from the text of a literal to its value. *)
From Coq Require Import Strings.String Strings.Byte Lia.
From Verif Require Import Go GoLemmas DomainModel DomainSpec CardModel CardSpec PatModel PatSpec RuleModel RuleSpec PathModel PathSpec LexModel LexSpec AstModel AstSpec TextModel SuiteModel AppModel AppSpec GramModel SuiteSpec RootModel BaseModel BaseSpec EvtModel EvtSpec EvtProofs EvtProofs2 EvtProps OrdSpec OrdProofs2 AdeqSpec AdeqProofs2 AdeqProofs8 AdeqConfProps EndProps PickSpec PickProofs2 PickProofs4 LitProofs LetterProofs ShapeProofs ProgSpec ShapeProofs2 ProgProofs ProgProofs2 ProgProofs3 ProgProofs5 ProgProofs6 ProgProofs7 ProgProofs8 ProgProofs9 ProgProofs10 ListSpec LitSpec LitProofs2 LitProofs3 RootSpec RootProofs RootProofs2.
Open Scope list_scope.

Notation check n s := (AdeqProofs8.holds (shipped_tokens base_tokens) (fun u => shape_check u n s)).

Section Shipped.
Variables rules_file tokens_file : bytes -> option bytes.
Variable order : list path -> nat -> list path.
Hypothesis O : an_order order.
Variables lex_fuel fuel : nat.
Notation ast_of n x := (fst (app_ast rules_file tokens_file order lex_fuel fuel [] {| rt_root := bs n; rt_rest := {| mu_container := base_texts; mu_channels := base_channels |} |} x)).
Lemma ast_tidy n u x a : shipped_tokens base_tokens = Ok u -> tx_prefix x = false -> ast_of n x = Ok (ASuccess a) -> tidy a.
Proof.
  intros Hu Hx H. assert (K := C93_shipped_conforms rules_file tokens_file order O lex_fuel fuel u (bs n) x a Hu Hx H). clear H. destruct K as [Cf _]. revert Cf. generalize (table_all (fst u)). intros ts Cf. exact (conforms_tidy ts _ _ a _ Cf).
Qed.
Lemma shape_read n s x t rest : check n s = true -> match s with HTok _ _ k => k = CMandatory | _ => False end ->
  (forall channels e, plain_channels channels -> blank_channels channels -> to s e -> picks channels e true (tx_content x) t rest) ->
  tx_prefix x = false -> (length (tx_content x) + 2) * 22 <= lex_fuel ->
  exists a, ast_of n x = Ok (ASuccess a) /\ drawn a = t /\ tx_content x = at_discovery a ++ rest /\ tidy a.
Proof.
  intros Ck Sk Pk Hx Hf. destruct s as [| |m ls k| | |]; try contradiction. subst k. destruct (holds_some _ _ Ck) as (u & Hu). destruct (holds_some _ _ base_channels_check) as (v & Hv).
  destruct (shape_checked u n _ (holds_ok _ _ u Ck Hu)) as (tk & p & It & Nt & Hp & Sh).
  destruct (shipped_lexer rules_file tokens_file order O lex_fuel fuel u v tk x Hu Hv Hx It) as (channels & p' & Hp' & Pp & Pc & Pq & Am & Ea). rewrite Hp in Hp'. injection Hp' as <-. rewrite Nt in Ea.
  assert (Hb : blank_channels channels). { apply (blank_channels_ok u v channels); [|exact Am]. assert (K := chans_check). rewrite Hu in K. cbn [AdeqProofs8.holds] in K. rewrite Hv in K. exact K. }
  apply has_tok in Sh. destruct Sh as (e & Ee & T). injection Ee as Ee. rewrite <- Ee in T. specialize (Pk channels (pa_element p) Pc Hb T).
  assert (De : is_declared (table_all (fst u)) (bs n)) by (exists tk; auto).
  destruct (C94_shipped_always_answers rules_file tokens_file order lex_fuel fuel u (bs n) x O Hu De Hx Hf) as (r & Hr). assert (Hr' : ast_of n x = Ok r) by exact Hr. apply (eq_trans (eq_sym Ea)) in Hr. clear Ea.
  destruct (read_by_picks channels Pc Pq p Pp lex_fuel (lst_init false) eq_refl _ _ _ _ Pk Hr) as (a & -> & Ed & Et).
  exists a. split; [exact Hr'|]. split; [exact Ed|]. split; [exact Et|].
  exact (ast_tidy n u x a Hu Hx Hr').
Qed.
Lemma checks : forallb (fun x => check (fst x) (snd x)) [("declarableValue", sh_value); ("computableValue", sh_number); ("primitiveValue", sh_prim); ("intValue", sh_int); ("floatValue", sh_float); ("boolValue", sh_truth); ("stringValue", sh_string)]%string = true.
Proof. vm_compute. reflexivity. Qed.
Lemma checked n s : In (n, s) [("declarableValue", sh_value); ("computableValue", sh_number); ("primitiveValue", sh_prim); ("intValue", sh_int); ("floatValue", sh_float); ("boolValue", sh_truth); ("stringValue", sh_string)]%string -> check n s = true.
Proof. intros I. assert (K := checks). rewrite forallb_forall in K. exact (K _ I). Qed.

Lemma literal_read l n t x rest : In (n, t) (readings l) -> good_literal l -> may_follow l rest -> tx_prefix x = false -> tx_content x = literal_text l ++ rest -> (length (tx_content x) + 2) * 22 <= lex_fuel ->
  exists a, ast_of n x = Ok (ASuccess a) /\ drawn a = t /\ at_discovery a = literal_text l /\ tidy a.
Proof.
  intros I G F Hx Es Hf. assert (K : exists a, ast_of n x = Ok (ASuccess a) /\ drawn a = t /\ tx_content x = at_discovery a ++ rest /\ tidy a).
  { destruct I as [I|[I|[I|[]]]]; injection I as <- <-.
    - apply (shape_read "declarableValue" sh_value x _ rest (checked "declarableValue" sh_value ltac:(cbn; tauto)) eq_refl); [|exact Hx|exact Hf]. intros ch e Pc Hb T. rewrite Es. apply (value_picks ch Pc Hb); assumption.
    - destruct l as [w|g w|m u g1 g2 v|b|w]; cbn [group_name group_tree].
      + apply (shape_read "computableValue" sh_number x _ rest (checked "computableValue" sh_number ltac:(cbn; tauto)) eq_refl); [|exact Hx|exact Hf]. intros ch e Pc Hb T. rewrite Es. exact (int_number ch Pc Hb e None w rest T I G F).
      + apply (shape_read "computableValue" sh_number x _ rest (checked "computableValue" sh_number ltac:(cbn; tauto)) eq_refl); [|exact Hx|exact Hf]. intros ch e Pc Hb T. rewrite Es. exact (int_number ch Pc Hb e (Some g) w rest T (proj1 G) (proj2 G) F).
      + apply (shape_read "computableValue" sh_number x _ rest (checked "computableValue" sh_number ltac:(cbn; tauto)) eq_refl); [|exact Hx|exact Hf]. intros ch e Pc Hb T. rewrite Es. apply (float_number ch Pc Hb); assumption.
      + apply (shape_read "primitiveValue" sh_prim x _ rest (checked "primitiveValue" sh_prim ltac:(cbn; tauto)) eq_refl); [|exact Hx|exact Hf]. intros ch e Pc Hb T. rewrite Es. apply (truth_prim ch Hb); assumption.
      + apply (shape_read "primitiveValue" sh_prim x _ rest (checked "primitiveValue" sh_prim ltac:(cbn; tauto)) eq_refl); [|exact Hx|exact Hf]. intros ch e Pc Hb T. rewrite Es. apply (string_prim ch Hb); assumption.
    - destruct l as [w|g w|m u g1 g2 v|b|w]; cbn [literal_name].
      + apply (shape_read "intValue" sh_int x _ rest (checked "intValue" sh_int ltac:(cbn; tauto)) eq_refl); [|exact Hx|exact Hf]. intros ch e Pc Hb T. rewrite Es. exact (int_picks ch Pc Hb e None w rest T I G (proj1 F)).
      + apply (shape_read "intValue" sh_int x _ rest (checked "intValue" sh_int ltac:(cbn; tauto)) eq_refl); [|exact Hx|exact Hf]. intros ch e Pc Hb T. rewrite Es. exact (int_picks ch Pc Hb e (Some g) w rest T (proj1 G) (proj2 G) (proj1 F)).
      + apply (shape_read "floatValue" sh_float x _ rest (checked "floatValue" sh_float ltac:(cbn; tauto)) eq_refl); [|exact Hx|exact Hf]. intros ch e Pc Hb T. rewrite Es. apply (float_picks ch Pc Hb); assumption.
      + apply (shape_read "boolValue" sh_truth x _ rest (checked "boolValue" sh_truth ltac:(cbn; tauto)) eq_refl); [|exact Hx|exact Hf]. intros ch e Pc Hb T. rewrite Es. apply (truth_picks ch Hb); assumption.
      + apply (shape_read "stringValue" sh_string x _ rest (checked "stringValue" sh_string ltac:(cbn; tauto)) eq_refl); [|exact Hx|exact Hf]. intros ch e Pc Hb T. rewrite Es. apply (string_picks ch Hb); assumption. }
  destruct K as (a & Ha & Ed & Et & Ti). exists a. split; [exact Ha|]. split; [exact Ed|]. split; [|exact Ti]. rewrite Es in Et. apply app_inv_tail in Et. symmetry. exact Et.
Qed.
Lemma literal_executes bitsize parse_float l n t x rest s : bitsize <> 1%N -> In (n, t) (readings l) -> good_literal l -> may_follow l rest -> tx_prefix x = false -> tx_content x = literal_text l ++ rest -> (length (tx_content x) + 2) * 22 <= lex_fuel ->
  exists a r, ast_of n x = Ok (ASuccess a) /\ drawn a = t /\ at_discovery a = literal_text l /\ fst (to_root a s) = Ok (Some r) /\
    forall o, app_execute (base_events bitsize parse_float) r o <-> o = match literal_value bitsize parse_float l with Some v => Ok (VObj (OValue v)) | None => Err end.
Proof.
  intros B I G F Hx Es Hf. destruct (literal_read l n t x rest I G F Hx Es Hf) as (a & Ha & Ed & Et & Ti).
  assert (Q : own t /\ whole t /\ clear_b t = true /\ tree_name t = bs n /\ forall r, pictures t r -> says bitsize parse_float n r (literal_value bitsize parse_float l)).
  { destruct I as [I|[I|[I|[]]]]; injection I as <- <-.
    - split; [apply value_own|]. split; [apply value_whole, G|]. split; [apply value_clear|]. split; [destruct (value_tree_is l) as (i & ->); reflexivity|]. intros r. apply value_says; assumption.
    - split; [apply group_own|]. split; [apply group_whole, G|]. split; [apply group_clear|]. split; [apply group_names|]. intros r. apply group_says; assumption.
    - split; [apply literal_own|]. split; [apply literal_whole, G|]. split; [apply literal_clear|]. split; [apply literal_names|]. intros r. apply literal_says; assumption. }
  destruct Q as (Qo & Qw & Qc & Qn & Qs). destruct (root_answers a s) as [Ra _]. destruct (Ra (whole_solid a Ti ltac:(rewrite Ed; exact Qw))) as (r & Er & M). exists a, r. split; [exact Ha|]. split; [exact Ed|]. split; [exact Et|]. split; [exact Er|].
  assert (Pi : pictures (drawn a) r) by (exists a; auto). rewrite Ed in Pi. specialize (Qs r Pi). assert (Nr : ro_name r = bs n). { rewrite (mirrors_name _ _ M). destruct a as [k i ms]. rewrite drawn_entries in Ed. subst t. cbn in Qn. exact Qn. }
  destruct (literal_value bitsize parse_float l) as [v|]; cbn [says] in Qs.
  - apply C87_only_reading_when_clear with (n := n); [exact Qs|exact Nr|]. exact (picture_clear _ _ Pi Qo Qc).
  - exact (refused_execute bitsize parse_float n r Nr Qs).
Qed.
End Shipped.
