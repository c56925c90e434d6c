(* AsgProofs7.v - proofs for AsgProps.v: from the text of an assignment to its value. *)
From Coq Require Import Strings.String Strings.Byte Lia.
From Verif Require Import Go GoLemmas DomainModel DomainSpec CardModel CardSpec PatModel PatSpec RuleModel RuleSpec PathModel PathSpec LexModel LexSpec LexProofs2 AstModel AstSpec AstProofs AstProofs2 AstProofs3 TextModel SuiteModel AppModel AppSpec GramModel SuiteSpec RootModel BaseModel BaseSpec EvtModel EvtSpec EvtProofs EvtProofs2 EvtProps OrdSpec OrdProofs2 AdeqSpec AdeqProofs2 AdeqProofs8 AdeqConfProps EndProps PickSpec PickProofs2 PickProofs3 PickProofs4 LitProofs LetterProofs ShapeProofs ProgSpec ShapeProofs2 ProgProofs ProgProofs2 ProgProofs3 ProgProofs5 ProgProofs6 ProgProofs7 ProgProofs8 ProgProofs9 ProgProofs10 ListSpec LitSpec LitProofs2 LitProofs3 LitProofs4 AsgSpec AsgProofs AsgProofs2 AsgProofs3 AsgProofs4 AsgProofs5 AsgProofs6 RootSpec RootProofs RootProofs2.
Open Scope list_scope.

(* what a text of an assignment is read as, under both names, and what comes of it *)
Definition setting_readings (bitsize : N) (parse_float : bytes -> N -> option N) (a : setting) : list (string * (tree * option obj)) :=
  [("program", (alone_shape a, option_map (fun x => OProgram (Program [IAssignment x] None)) (setting_value bitsize parse_float a)));
   ("assignment", (setting_shape a, option_map OAssignment (setting_value bitsize parse_float a)))]%string.
Section Shipped.
Variables rules_file tokens_file : bytes -> option bytes.
Variable order : list path -> nat -> list path.
Hypothesis O : an_order order.
Variables lex_fuel fuel : nat.
Notation ast_of n x := (fst (app_ast rules_file tokens_file order lex_fuel fuel [] {| rt_root := bs n; rt_rest := {| mu_container := base_texts; mu_channels := base_channels |} |} x)).
Lemma setting_executes bitsize parse_float n t v a x s : bitsize <> 1%N -> In (n, (t, v)) (setting_readings bitsize parse_float a) -> good_setting a -> tx_prefix x = false -> tx_content x = setting_text a -> (length (tx_content x) + 2) * 22 <= lex_fuel ->
  exists k r, ast_of n x = Ok (ASuccess k) /\ drawn k = t /\ at_discovery k = setting_text a /\ fst (to_root k s) = Ok (Some r) /\
    forall o, app_execute (base_events bitsize parse_float) r o <-> o = match v with Some v => Ok (VObj v) | None => Err end.
Proof.
  intros B I G Hx Es Hf. assert (J : In (n, t) [("program", alone_shape a); ("assignment", setting_shape a)]%string) by (destruct I as [I|[I|[]]]; injection I as <- <- _; cbn; tauto).
  destruct (setting_read rules_file tokens_file order O lex_fuel fuel n a t x J G Hx Es Hf) as (k & Ha & Ed & Et & Ti).
  assert (Q : own t /\ whole t /\ clear_b t = true /\ tree_name t = bs n /\ forall r, pictures t r -> tells bitsize parse_float n r v).
  { destruct I as [I|[I|[]]]; injection I as <- <- <-.
    - split; [apply alone_own, G|]. split; [apply alone_whole, G|]. split; [apply alone_clear, G|]. split; [reflexivity|]. intros r. apply alone_tells; assumption.
    - split; [apply setting_own, G|]. split; [apply setting_whole, G|]. split; [apply setting_clear, G|]. split; [reflexivity|]. intros r. apply setting_tells; assumption. }
  destruct Q as (Qo & Qw & Qc & Qn & Qs). destruct (root_answers k s) as [Ra _]. destruct (Ra (whole_solid k Ti ltac:(rewrite Ed; exact Qw))) as (r & Er & M). exists k, r. split; [exact Ha|]. split; [exact Ed|]. split; [exact Et|]. split; [exact Er|].
  assert (Pi : pictures (drawn k) r) by (exists k; auto). rewrite Ed in Pi. specialize (Qs r Pi). assert (Nr : ro_name r = bs n). { rewrite (mirrors_name _ _ M). destruct k as [m i ms]. rewrite drawn_entries in Ed. subst t. cbn in Qn. exact Qn. }
  destruct v as [v|]; cbn [tells] in Qs.
  - apply C87_only_reading_when_clear with (n := n); [exact Qs|exact Nr|]. exact (picture_clear _ _ Pi Qo Qc).
  - exact (refused_execute bitsize parse_float n r Nr Qs).
Qed.
End Shipped.
