(* AsgProofs4.v - proofs for AsgProps.v: the parser on an assignment. *)
From Coq Require Import Strings.String Strings.Byte Lia.
From Verif Require Import Go GoLemmas DomainModel DomainSpec CardModel CardSpec PatModel PatSpec RuleModel RuleSpec PathModel PathSpec LexModel LexSpec LexProofs2 AstModel AstSpec AstProofs AstProofs2 AstProofs3 TextModel SuiteModel AppModel AppSpec GramModel SuiteSpec RootModel BaseModel BaseSpec EvtModel EvtSpec EvtProofs EvtProofs2 EvtProps OrdSpec OrdProofs2 AdeqSpec AdeqProofs2 AdeqProofs8 AdeqConfProps EndProps PickSpec PickProofs2 PickProofs3 PickProofs4 LitProofs LetterProofs ShapeProofs ProgSpec ShapeProofs2 ProgProofs ProgProofs2 ProgProofs3 ProgProofs5 ProgProofs6 ProgProofs7 ProgProofs8 ProgProofs9 ProgProofs10 ListSpec LitSpec LitProofs2 LitProofs3 LitProofs4 AsgSpec AsgProofs AsgProofs2 AsgProofs3 RootSpec RootProofs RootProofs2.
Open Scope list_scope.

Notation check n s := (AdeqProofs8.holds (shipped_tokens base_tokens) (fun u => shape_check u n s)).
Lemma setting_checks : forallb (fun x => check (fst x) (snd x)) [("program", sh_setprog); ("assignment", sh_setting)]%string = true.
Proof. vm_compute. reflexivity. Qed.
Lemma setting_checked n s : In (n, s) [("program", sh_setprog); ("assignment", sh_setting)]%string -> check n s = true.
Proof. intros I. assert (K := setting_checks). rewrite forallb_forall in K. exact (K _ I). Qed.

Section Top.
Variable channels : nat -> list path.
Hypothesis Hc : plain_channels channels.
Hypothesis Hp : forall p, among channels p -> plain p.
Variable root : path.
Hypothesis Hr : plain root.
Variables (fuel : nat) (st : lst).
Hypothesis Pst : ls_pre st = false.
Lemma read_by_PK script t rest r : PickProofs3.PK channels (pa_element root) true script t rest -> fst (to_ast channels fuel root false script st) = Ok r ->
  exists a, r = ASuccess a /\ drawn a = t /\ script = at_discovery a ++ rest.
Proof.
  intros Pk H. destruct (tok_of_ast channels root fuel st _ _ H) as (x & Ex). destruct (Pk fuel (pa_deps root) {| ls_rec := []; ls_pre := ls_pre st; ls_tick := ls_tick st |} x (snd (to_token channels fuel root script st)) Pst) as (m & a & Ec & V & _ & Es & _ & Ea & Da & _).
  { rewrite <- Ex. unfold to_token. destruct (element_to_token _ _ _ _ _ _). reflexivity. }
  destruct (proj1 (ast_decides channels root fuel script st x Hp Hr Ex) V) as (a' & Ea' & D & _). rewrite H in Ea'. injection Ea' as ->. exists a'. split; [reflexivity|].
  unfold to_ast in H. destruct (to_token channels fuel root script st) as [o s'] eqn:E. cbn [fst] in Ex. subst o. cbn [fst] in H. destruct (to_mistake false x) as [[mk|]| | |]; cbn [bind] in H; try discriminate. rewrite Ea in H. cbn [bind] in H. injection H as <-. split; [exact Da|]. rewrite D. exact Es.
Qed.
End Top.

Section Shipped.
Variables rules_file tokens_file : bytes -> option bytes.
Variable order : list path -> nat -> list path.
Hypothesis O : an_order order.
Variables lex_fuel fuel : nat.
Notation ast_of n x := (fst (app_ast rules_file tokens_file order lex_fuel fuel [] {| rt_root := bs n; rt_rest := {| mu_container := base_texts; mu_channels := base_channels |} |} x)).
Lemma shape_reads n s x t rest : check n s = true -> match s with HTok _ _ k => k = CMandatory | _ => False end ->
  (forall channels e, plain_channels channels -> blank_channels channels -> to s e -> PickProofs3.PK channels e true (tx_content x) t rest) ->
  tx_prefix x = false -> (length (tx_content x) + 2) * 22 <= lex_fuel ->
  exists a, ast_of n x = Ok (ASuccess a) /\ drawn a = t /\ tx_content x = at_discovery a ++ rest /\ tidy a.
Proof.
  intros Ck Sk Pk Hx Hf. destruct s as [| |m ls k| | |]; try contradiction. subst k. destruct (holds_some _ _ Ck) as (u & Hu). destruct (holds_some _ _ base_channels_check) as (v & Hv).
  destruct (shape_checked u n _ (holds_ok _ _ u Ck Hu)) as (tk & p & It & Nt & Hp & Sh).
  destruct (shipped_lexer rules_file tokens_file order O lex_fuel fuel u v tk x Hu Hv Hx It) as (channels & p' & Hp' & Pp & Pc & Pq & Am & Ea). rewrite Hp in Hp'. injection Hp' as <-. rewrite Nt in Ea.
  assert (Hb : blank_channels channels). { apply (blank_channels_ok u v channels); [|exact Am]. assert (K := chans_check). rewrite Hu in K. cbn [AdeqProofs8.holds] in K. rewrite Hv in K. exact K. }
  apply has_tok in Sh. destruct Sh as (e & Ee & T). injection Ee as Ee. rewrite <- Ee in T. specialize (Pk channels (pa_element p) Pc Hb T).
  assert (De : is_declared (table_all (fst u)) (bs n)) by (exists tk; auto).
  destruct (C94_shipped_always_answers rules_file tokens_file order lex_fuel fuel u (bs n) x O Hu De Hx Hf) as (r & Hr). assert (Hr' : ast_of n x = Ok r) by exact Hr. apply (eq_trans (eq_sym Ea)) in Hr. clear Ea.
  destruct (read_by_PK channels Pq p Pp lex_fuel (lst_init false) eq_refl _ _ _ _ Pk Hr) as (a & -> & Ed & Et).
  exists a. split; [exact Hr'|]. split; [exact Ed|]. split; [exact Et|].
  exact (ast_tidy rules_file tokens_file order O lex_fuel fuel n u x a Hu Hx Hr').
Qed.
Lemma setting_read n a t x : In (n, t) [("program", alone_shape a); ("assignment", setting_shape a)]%string -> good_setting a -> tx_prefix x = false -> tx_content x = setting_text a -> (length (tx_content x) + 2) * 22 <= lex_fuel ->
  exists r, ast_of n x = Ok (ASuccess r) /\ drawn r = t /\ at_discovery r = setting_text a /\ tidy r.
Proof.
  intros I G Hx Es Hf. assert (K : exists r, ast_of n x = Ok (ASuccess r) /\ drawn r = t /\ tx_content x = at_discovery r ++ [] /\ tidy r).
  { destruct I as [I|[I|[]]]; injection I as <- <-.
    - apply (shape_reads "program" sh_setprog x _ [] (setting_checked "program" sh_setprog ltac:(cbn; tauto)) eq_refl); [|exact Hx|exact Hf]. intros ch e Pc Hb T. rewrite Es. apply (alone_PK ch Pc Hb); assumption.
    - apply (shape_reads "assignment" sh_setting x _ [] (setting_checked "assignment" sh_setting ltac:(cbn; tauto)) eq_refl); [|exact Hx|exact Hf]. intros ch e Pc Hb T. rewrite Es. apply (setting_PK ch Pc Hb); assumption. }
  destruct K as (r & Ha & Ed & Et & Ti). exists r. split; [exact Ha|]. split; [exact Ed|]. split; [|exact Ti]. rewrite Es, app_nil_r in Et. symmetry. exact Et.
Qed.
End Shipped.
