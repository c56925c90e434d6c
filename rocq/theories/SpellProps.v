(* SpellProps.v - property theorem C109: every text in an accepted syntax tree is one its rule
   reads.  spelled is defined in SpellSpec.v. *)
From Coq Require Import Strings.String Strings.Byte Sorting.Permutation Lia.
From Verif Require Import Go GoLemmas DomainModel CardModel PatModel RuleModel RuleSpec PathModel PathSpec LexModel LexSpec AstModel AstSpec TextModel TextSpec TextTokSpec TextRefSpec SuiteModel SuiteSpec AppModel AppSpec GramModel RootModel ParseModel TextRefProofs2 EvtSpec OrdSpec OrdProofs2 AdeqSpec AdeqProofs8 AdeqProps RootSpec AdeqConfProps RootProofs SpellSpec SpellProofs SpellProofs2.
Open Scope string_scope.
Open Scope list_scope.

(* ---- C109 ---- *)
(* the channels are single rules, these are theirs *)
Definition channels_of (ts : list token) (blanks : list rule) : Prop :=
  forall t, In t ts -> simple_token t /\ exists r, rule_channel t r /\ In r blanks.

(* the lexer of a token of a table, whatever the schedule of its channels *)
Theorem C109_accepted_trees_are_spelled :
  forall T C root p m channels blanks fuel script st a,
  good_table T -> good_channels C -> ordinary (table_all T) -> channels_of (channel_list C) blanks -> In root (table_all T) ->
  new_lexer T none none root C = Ok (p, m) -> (forall q, among channels q -> In q (map snd m)) ->
  fst (to_ast channels fuel p false script st) = Ok (ASuccess a) ->
  spelled (table_all T) blanks (t_name root) a.
Proof.
  intros T C root p m channels blanks fuel script st a G Gc [O1 O2] Ch I H Hc E. apply (accepted_spelled T C root p m channels blanks fuel script st a G Gc); auto.
  - intros t [Ht|Ht]; [apply O1; exact Ht|apply Ch; exact Ht].
  - intros t Ht. apply Ch. exact Ht.
Qed.
Print Assumptions C109_accepted_trees_are_spelled.

Section C109.
Variables rules_file tokens_file : bytes -> option bytes.
Variable order : list path -> nat -> list path.
Hypothesis O : an_order order.
Variables lex_fuel fuel : nat.
(* Parser.AST on a grammar given as texts, without references *)
Theorem C109_ast_is_spelled : forall r x l k blanks a,
  means_grammar (mu_container (rt_rest r)) (mu_channels (rt_rest r)) l k -> means_references (ct_tokens (mu_container (rt_rest r))) no_links ->
  ordinary (map fst l) -> channels_of (match k with Some ts => ts | None => [] end) blanks -> tx_prefix x = false ->
  fst (app_ast rules_file tokens_file order lex_fuel fuel [] r x) = Ok (ASuccess a) ->
  spelled (map fst l) blanks (rt_root r) a /\ exists rest, tx_content x = at_discovery a ++ rest /\ at_discovery a <> [].
Proof.
  intros r x l k blanks a M R [O1 O2] Ch Hx H. apply (ast_spelled rules_file tokens_file order O lex_fuel fuel r x l k blanks a M R); auto.
  - intros t [Ht|Ht]; [apply O1; exact Ht|apply Ch; exact Ht].
  - intros t Ht. apply Ch. exact Ht.
Qed.
(* and on the shipped one *)
Theorem C109_shipped_is_spelled : forall u v n x a,
  shipped_tokens base_tokens = Ok u -> shipped_tokens base_channels = Ok v -> tx_prefix x = false ->
  fst (app_ast rules_file tokens_file order lex_fuel fuel [] {| rt_root := n; rt_rest := {| mu_container := base_texts; mu_channels := base_channels |} |} x) = Ok (ASuccess a) ->
  spelled (table_all (fst u)) (rules_of (table_all (fst v))) n a /\ exists rest, tx_content x = at_discovery a ++ rest /\ at_discovery a <> [].
Proof. exact (shipped_spelled rules_file tokens_file order O lex_fuel fuel). Qed.
End C109.
Print Assumptions C109_ast_is_spelled.
Print Assumptions C109_shipped_is_spelled.

(* a spelled tree conforms, as C93 states it *)
Scheme spelled_m := Minimality for spelled Sort Prop
with line_m := Minimality for line_spelled Sort Prop
with elem_m := Minimality for element_spelled Sort Prop
with all_m := Minimality for all_spelled Sort Prop.
Combined Scheme spelled_all from spelled_m, line_m, elem_m, all_m.

Section Ways.
Variable ts : list token.
Variable blanks : list rule.
Lemma to_conforms :
  (forall n a, spelled ts blanks n a -> conforms ts (map rl_name blanks) True n a) /\
  (forall es l, line_spelled ts blanks es l -> line_fills ts (map rl_name blanks) True es l) /\
  (forall e l, element_spelled ts blanks e l -> fills ts (map rl_name blanks) True e l) /\
  (forall n l, all_spelled ts blanks n l -> all_conform ts (map rl_name blanks) True n l).
Proof.
  apply spelled_all.
  - intros t i l ms I N _ F. exact (AdeqSpec.co_token _ _ _ t i l ms I N F).
  - constructor.
  - intros es r k w l I [W _] _ F. constructor; [apply in_map; exact I|exact W|exact F].
  - intros. constructor; assumption.
  - intros e es H. constructor; [exact I|exact H].
  - intros. constructor. assumption.
  - intros e r c k w Er _ _ [W _]. apply (AdeqSpec.fi_rule _ _ _ e r w Er W).
  - intros e r c l Er Hc N V _ F S. eapply AdeqSpec.fi_token; eassumption.
  - constructor.
  - intros. constructor; assumption.
Qed.
(* every text of the tree, however deep, is one of a rule of that name *)
Definition read_by_a_rule (a : atoken) : Prop :=
  forall b n w, In b (all_of a) -> In (EText n w) (entries (at_matches b)) ->
  exists r k, In r (rules_of ts ++ blanks) /\ rl_name r = n /\ rule_spells r k w.
Definition read_entries (es : list entry) : Prop :=
  (forall n w, In (EText n w) es -> exists r k, In r (rules_of ts ++ blanks) /\ rl_name r = n /\ rule_spells r k w) /\
  (forall n t, In (EToken n t) es -> read_by_a_rule t).
Lemma read_app a b : read_entries a -> read_entries b -> read_entries (a ++ b).
Proof. intros [A1 A2] [B1 B2]. split; intros n w H; apply in_app_or in H; destruct H; eauto. Qed.
Lemma line_rule_in t i l e r : In t ts -> nth_error (t_must t) i = Some l -> In e (elements l) -> te_content e = TRule r -> In r (rules_of ts).
Proof.
  intros I N Ie Er. apply in_concat. eexists. split; [apply in_map_iff; exists t; split; [reflexivity|exact I]|]. apply in_concat. eexists. split; [apply in_map_iff; exists l; split; [reflexivity|eapply nth_error_In; exact N]|].
  apply in_concat. eexists. split; [apply in_map_iff; exists e; split; [reflexivity|exact Ie]|]. rewrite Er. left. reflexivity.
Qed.
Lemma step_down y name i ms : In y (all_of (AToken name i ms)) -> y = AToken name i ms \/ exists m x, In (EToken m x) (entries ms) /\ In y (all_of x).
Proof. rewrite all_of_kids, in_app_iff. intros [H|[<-|[]]]; [right|left; reflexivity]. apply in_concat in H. destruct H as (l & Hl & Hy). apply in_map_iff in Hl. destruct Hl as (x & <- & Hx). apply kids_in in Hx. destruct Hx as (m & Hx). exists m, x. split; assumption. Qed.
Lemma to_read :
  (forall n a, spelled ts blanks n a -> read_by_a_rule a) /\
  (forall es l, line_spelled ts blanks es l -> (forall e r, In e es -> te_content e = TRule r -> In r (rules_of ts)) -> read_entries l) /\
  (forall e l, element_spelled ts blanks e l -> (forall r, te_content e = TRule r -> In r (rules_of ts)) -> read_entries l) /\
  (forall n l, all_spelled ts blanks n l -> forall t, In t l -> read_by_a_rule t).
Proof.
  assert (nil : read_entries []) by (split; intros ? ? []).
  apply spelled_all.
  - intros t i l ms I N _ F. destruct (F (fun e r Ie => line_rule_in t i l e r I N Ie)) as [F1 F2]. intros b n w Hb He. apply step_down in Hb. destruct Hb as [->|(m & x & Hm & Hb)]; [eapply F1; exact He|]. exact (F2 m x Hm b n w Hb He).
  - intros _. exact nil.
  - intros es r k w l I W _ F H. destruct (F H) as [F1 F2]. split; intros n z [E|Hz]; try discriminate; eauto. injection E as <- <-. exists r, k. split; [apply in_or_app; right; exact I|]. auto.
  - intros e es a b _ A _ B H. apply read_app; [apply A; intros r; apply H; left; reflexivity|apply B; intros e' r He; apply H; right; exact He].
  - intros e es _ _. exact nil.
  - intros e _ _. exact nil.
  - intros e r c k w Er _ _ W H. split; intros n z [E|[]]; try discriminate. injection E as <- <-. exists r, k. split; [apply in_or_app; left; apply H; exact Er|]. auto.
  - intros e r c l Er Hc N V _ F S _. split; intros n z Hz; apply in_map_iff in Hz; destruct Hz as (t & Et & It); [discriminate|]. injection Et as _ <-. apply F. exact It.
  - intros n t [].
  - intros n t l _ A _ B x [<-|Hx]; auto.
Qed.
End Ways.

Theorem C109_spelled_conforms : forall ts blanks n a, spelled ts blanks n a -> conforms ts (map rl_name blanks) True n a.
Proof. intros ts blanks. exact (proj1 (to_conforms ts blanks)). Qed.
Print Assumptions C109_spelled_conforms.
(* every text of a spelled tree, however deep, is one of a rule of that name *)
Theorem C109_every_text_is_read : forall ts blanks n a, spelled ts blanks n a ->
  forall b m w, In b (all_of a) -> In (EText m w) (entries (at_matches b)) ->
  exists r k, In r (rules_of ts ++ blanks) /\ rl_name r = m /\ rule_spells r k w.
Proof. intros ts blanks. exact (proj1 (to_read ts blanks)). Qed.
Print Assumptions C109_every_text_is_read.
(* so the texts of a constant are that constant, over and over *)
Lemma times_constant r c : rl_content r = RConstant c -> forall k s rest, rule_times r k s rest -> s = concat (repeat c k) ++ rest.
Proof.
  intros Ec k s rest H. induction H as [s|k s s1 s2 Ht _ IH]; [reflexivity|]. cbn. rewrite <- app_assoc, <- IH. destruct Ht as [c' rest E _|]; congruence.
Qed.
Theorem C109_constants_are_themselves : forall ts blanks n a, spelled ts blanks n a ->
  forall b m w c, In b (all_of a) -> In (EText m w) (entries (at_matches b)) ->
  (forall r, In r (rules_of ts ++ blanks) -> rl_name r = m -> rl_content r = RConstant c) ->
  exists k, w = concat (repeat c (S k)).
Proof.
  intros ts blanks n a H b m w c Hb Hw Hc. destruct (C109_every_text_is_read ts blanks n a H b m w Hb Hw) as (r & k & Ir & Er & Nw & rest & Ht). apply (times_constant r c (Hc r Ir Er)) in Ht. apply app_inv_tail in Ht.
  destruct k; [subst w; destruct Nw; reflexivity|]. exists k. exact Ht.
Qed.
Print Assumptions C109_constants_are_themselves.

(* the program of C93_cases: accepted, so spelled *)
Lemma shipped_ast_spelled u v n c t : shipped_tokens base_tokens = Ok u -> shipped_tokens base_channels = Ok v -> shipped_ast n c = Ok (ASuccess t) ->
  spelled (table_all (fst u)) (rules_of (table_all (fst v))) (bs n) t.
Proof.
  intros Hu Hv H. rewrite shipped_ast_is in H. apply (C109_shipped_is_spelled no_files no_files in_order (fun l _ => Permutation_refl l) 1000 1 u v (bs n) {| tx_content := bs c; tx_prefix := false; tx_suffix := false |} t Hu Hv eq_refl H).
Qed.
(* a table of one token, whose line is the rule "a": the tree of "b" conforms, and is not spelled *)
Definition an_a : rule := {| rl_name := bs "LETTER"; rl_code := bs "L"; rl_content := RConstant (bs "a") |}.
Definition an_elem : telem := {| te_content := TRule an_a; te_card := None |}.
Definition letter : token := {| t_name := bs "letter"; t_must := [[TElem an_elem]]; t_not := None |}.
Definition of_text (w : string) : atoken :=
  AToken (bs "letter") 0 [AMRule (bs "LETTER") {| ar_input := bs w; ar_disc := [{| d_index := 0; d_content := bs w; d_container := CGroup {| g_name := bs "a"; g_list := [bs w] |} |}]; ar_prefix := []; ar_suffix := [] |}].
Lemma letters_entries w : entries (at_matches (of_text w)) = [EText (bs "LETTER") (bs w)].
Proof. reflexivity. Qed.
Example C109_conforms_is_less :
  spelled [letter] [] (bs "letter") (of_text "a") /\ conforms [letter] [] False (bs "letter") (of_text "b") /\ ~ spelled [letter] [] (bs "letter") (of_text "b").
Proof.
  split; [|split].
  - apply (SpellSpec.co_token [letter] [] letter 0 _ _ (or_introl eq_refl) eq_refl). apply (SpellSpec.lf_elem _ _ an_elem [] [EText (bs "LETTER") (bs "a")] []); [|constructor].
    apply (SpellSpec.fi_rule _ _ an_elem an_a CMandatory 1 (bs "a") eq_refl); [right; split; reflexivity|reflexivity|]. split; [discriminate|]. exists []. apply (rn_more an_a 0 _ [] []); [|constructor]. apply (rt_const an_a (bs "a") []); [reflexivity|discriminate].
  - apply (AdeqSpec.co_token [letter] [] False letter 0 _ _ (or_introl eq_refl) eq_refl). apply (AdeqSpec.lf_elem _ _ _ an_elem [] [EText (bs "LETTER") (bs "b")] []); [|constructor]. apply (AdeqSpec.fi_rule _ _ _ an_elem an_a (bs "b") eq_refl). discriminate.
  - intros H. assert (K := C109_constants_are_themselves _ _ _ _ H (of_text "b") (bs "LETTER") (bs "b") (bs "a") (all_of_self _)). rewrite letters_entries in K. destruct K as (k & K); [left; reflexivity| |discriminate K].
    intros r [<-|[]] _. reflexivity.
Qed.
Print Assumptions C109_conforms_is_less.

(* in the shipped grammar the rules named COLON are the constant : *)
Definition colons_b (rs : list rule) : bool :=
  forallb (fun r => negb (bytes_eqb (rl_name r) (bs "COLON")) || match rl_content r with RConstant c => bytes_eqb c (bs ":") | RPattern _ _ => false end) rs.
Lemma colons_check : AdeqProofs8.holds (shipped_tokens base_tokens) (fun u => AdeqProofs8.holds (shipped_tokens base_channels) (fun v => colons_b (rules_of (table_all (fst u)) ++ rules_of (table_all (fst v))))) = true.
Proof. vm_compute. reflexivity. Qed.
Lemma colons_ok rs : colons_b rs = true -> forall r, In r rs -> rl_name r = bs "COLON" -> rl_content r = RConstant (bs ":").
Proof.
  intros H r I E. unfold colons_b in H. rewrite forallb_forall in H. specialize (H r I). rewrite E in H. rewrite bytes_eqb_refl in H. cbn [negb orb] in H. destruct (rl_content r) as [c|]; [|discriminate]. apply bytes_eqb_eq in H. rewrite H. reflexivity.
Qed.
Definition has_colon (a : atoken) : bool :=
  existsb (fun b => existsb (fun e => match e with EText n _ => bytes_eqb n (bs "COLON") | EToken _ _ => false end) (entries (at_matches b))) (all_of a).
Lemma colons_program_check : case_check "program" some_program (fun _ a => has_colon a) = true.
Proof. vm_compute. reflexivity. Qed.
(* the program of C93_cases is accepted, so it is spelled; every COLON of it reads : *)
Example C109_shipped_case : exists u v a,
  shipped_tokens base_tokens = Ok u /\ shipped_tokens base_channels = Ok v /\ shipped_ast "program" some_program = Ok (ASuccess a) /\
  at_discovery a = bs some_program /\ spelled (table_all (fst u)) (rules_of (table_all (fst v))) (bs "program") a /\
  (exists b w, In b (all_of a) /\ In (EText (bs "COLON") w) (entries (at_matches b))) /\
  forall b w, In b (all_of a) -> In (EText (bs "COLON") w) (entries (at_matches b)) -> exists k, w = concat (repeat (bs ":") (S k)).
Proof.
  destruct (holds_some _ _ base_channels_check) as (v & Hv). destruct (case_ok _ _ _ colons_program_check) as (u & a & Hu & Ha & Ed & H). exists u, v, a.
  assert (S := shipped_ast_spelled u v _ _ a Hu Hv Ha). repeat (split; [assumption|]). split.
  - unfold has_colon in H. apply existsb_exists in H. destruct H as (b & Hb & H). apply existsb_exists in H. destruct H as (e & He & H). destruct e as [n w|]; [|discriminate]. apply bytes_eqb_eq in H. subst n. exists b, w. split; assumption.
  - intros b w Hb Hw. apply (C109_constants_are_themselves _ _ _ _ S b (bs "COLON") w (bs ":") Hb Hw). apply colons_ok. exact (holds_ok _ _ v (holds_ok _ _ u colons_check Hu) Hv).
Qed.
Print Assumptions C109_shipped_case.
