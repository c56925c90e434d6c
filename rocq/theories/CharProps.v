(* CharProps.v - property theorems C104: when the texts of a grammar and the script are in
   UTF-8, no answer cuts a character.  The vocabulary is in CharSpec.v (utf8_text: characters, in
   the sense of Utf8Spec.v, one after the other; path_utf8; made_of; part_utf8). *)
From Coq Require Import Strings.String Strings.Byte Sorting.Permutation Lia.
From Verif Require Import Go GoLemmas DomainModel DomainSpec CardModel PatModel RuleModel PathModel PathSpec PathProofs LexModel LexSpec LexProofs AstModel AstSpec AstProofs AstProofs2 AstProofs3 SuiteModel SuiteSpec SuiteProofs TextModel TextSpec TextTokSpec TextRefSpec TextRefProofs2 AppModel AppSpec AppProofs AppProofs2 AppProofs3 GramModel OrdSpec OrdProofs2 AdeqProofs8 Utf8Spec CharSpec CharProofs CharProofs2 CharProofs3 CharProofs4 AppProps.
Open Scope list_scope.

(* a rule with texts in UTF-8 finds texts in UTF-8 in a script in UTF-8: neither the matches nor
   the content of the answer begin or end inside a character *)
Theorem C104_rule_finds_characters :
  forall r script x, good_rule r -> rule_utf8 r -> utf8_text script -> to_result r script = Ok x -> result_utf8 x.
Proof. exact to_result_utf8. Qed.
Print Assumptions C104_rule_finds_characters.

(* every part of a valid answer of a lexer, and what it leaves of the script *)
Theorem C104_answers_are_characters :
  forall channels root fuel script st t,
  (forall p, among channels p -> good_path p) -> (forall p, among channels p -> path_utf8 p) ->
  good_path root -> path_utf8 root -> utf8_text script ->
  fst (to_token channels fuel root script st) = Ok t -> tok_valid t = true ->
  (exists rest, script = tok_disc t ++ rest /\ utf8_text rest) /\
  forall x, made_of x (NTok t) -> part_utf8 x.
Proof. intros channels root fuel script st t Hg Hu. apply (answer_utf8 channels Hg Hu). Qed.
Print Assumptions C104_answers_are_characters.

(* a grammar written in UTF-8 has rules in UTF-8: nothing the readers do to a text (quotes hidden
   and shown again, sections cut at semicolons, lists cut at commas) cuts a character *)
Theorem C104_grammar_texts :
  forall patterns rules ps rs, utf8_text patterns -> utf8_text rules ->
  means_patterns patterns ps -> means_rules (last_named p_name ps) rules rs ->
  Forall pattern_utf8 ps /\ Forall rule_utf8 rs.
Proof. intros patterns rules ps rs Hp Hr Mp Mr. assert (U := patterns_utf8 _ _ Hp Mp). split; [exact U|]. exact (rules_utf8 ps rules rs Hr U Mr). Qed.
Print Assumptions C104_grammar_texts.

(* and the paths made from such tokens hold no other rule *)
Theorem C104_paths :
  forall T ts t p, good_table T -> Forall (fun u => token_ok u = true) ts -> token_ok t = true ->
  fst (to_path T none none (after_calls T none none ts) t) = Ok p ->
  (forall v r, (v = t \/ In v (table_all T)) -> has_rule v r -> rule_utf8 r) -> path_utf8 p.
Proof. exact made_rules_utf8. Qed.
Print Assumptions C104_paths.

(* so what the application recognises of a script is made of characters, and so is the rest,
   whatever the order of the channels *)
Theorem C104_trees_cut_no_character :
  forall rules_file tokens_file order lex_fuel n r x l k a, an_order order ->
  means_grammar (mu_container (rt_rest r)) (mu_channels (rt_rest r)) l k -> means_references (ct_tokens (mu_container (rt_rest r))) no_links ->
  (forall t, In t (map fst l) \/ In t (match k with Some ts => ts | None => [] end) -> simple_token t) ->
  utf8_text (ct_patterns (mu_container (rt_rest r))) -> utf8_text (ct_rules (mu_container (rt_rest r))) -> utf8_text (tx_content x) ->
  tx_prefix x = false -> fst (app_ast rules_file tokens_file order lex_fuel n [] r x) = Ok (ASuccess a) ->
  utf8_text (at_discovery a) /\ exists rest, tx_content x = at_discovery a ++ rest /\ utf8_text rest.
Proof. intros rf tf order lex_fuel n r x l k a O. apply (ast_utf8 rf tf order O lex_fuel n r x l k a). Qed.
Print Assumptions C104_trees_cut_no_character.

(* for the grammar shipped with the program nothing is asked but a script in UTF-8 *)
Definition ascii_b (s : bytes) : bool := forallb (fun b => N.ltb (Byte.to_N b) 0x80) s.
Lemma ascii_b_ok s : ascii_b s = true -> utf8_text s.
Proof. intros H. apply ascii_utf8. apply Forall_forall. unfold ascii_b in H. rewrite forallb_forall in H. intros b Hb. apply N.ltb_lt. apply H. exact Hb. Qed.
Lemma base_ascii : ascii_b base_patterns && ascii_b base_rules = true.
Proof. vm_compute. reflexivity. Qed.
Theorem C104_shipped_grammar :
  forall rules_file tokens_file order lex_fuel fuel n x a, an_order order -> utf8_text (tx_content x) -> tx_prefix x = false ->
  fst (app_ast rules_file tokens_file order lex_fuel fuel [] {| rt_root := n; rt_rest := {| mu_container := base_texts; mu_channels := base_channels |} |} x) = Ok (ASuccess a) ->
  utf8_text (at_discovery a) /\ exists rest, tx_content x = at_discovery a ++ rest /\ utf8_text rest.
Proof.
  intros rules_file tokens_file order lex_fuel fuel n x a O Us Hx H. assert (H' := H). destruct (app_ast _ _ _ _ _ _ _ _) as [o m'] eqn:E in H'. cbn [fst] in H'. subst o. destruct (ast_answers _ _ _ _ _ _ _ _ _ _ E) as (l & k & _ & _ & _ & _ & M & _). cbn [rt_rest] in M.
  assert (B := base_check). destruct (shipped_tokens base_tokens) as [u| | |] eqn:Hu; try discriminate B. cbn [holds] in B.
  destruct (shipped_grammar l k u M Hu) as (El & v & -> & K). unfold channels_fine in K. apply andb_prop in K. destruct K as [K K3]. apply andb_prop in K. destruct K as [K1 K2]. rewrite forallb_forall in K1.
  unfold base_fine in B. apply andb_prop in B. destruct B as [S1 S2]. rewrite forallb_forall in S1. assert (A := base_ascii). apply andb_prop in A. destruct A as [A1 A2].
  apply (ast_utf8 rules_file tokens_file order O lex_fuel fuel {| rt_root := n; rt_rest := {| mu_container := base_texts; mu_channels := base_channels |} |} x l (Some (table_all (fst v))) a M).
  - apply to_references_exact. exact base_references_check.
  - rewrite El. intros t [Ht|Ht]; apply simple_b_ok; [apply S1|apply K1]; exact Ht.
  - apply ascii_b_ok. exact A1.
  - apply ascii_b_ok. exact A2.
  - exact Us.
  - exact Hx.
  - exact H.
Qed.
Print Assumptions C104_shipped_grammar.

(* "no field of an answer cuts a character" is false: the text a group leaves is counted from the
   number of texts read, not from where they are.  Here a is found after the two bytes of é, and
   the answer says that the second byte of é and a are left *)
Definition cut_rule : rule := {| rl_name := bs "AA"; rl_code := bs "AA"; rl_content := RConstant (bs "a") |}.
Lemma e_acute : character (bs "é").
Proof. exists 0xE9%N. split; [left; reflexivity|reflexivity]. Qed.
Lemma euro : character (bs "€").
Proof. exists 0x20AC%N. split; [left; reflexivity|reflexivity]. Qed.
Lemma not_first b s : (0x80 <= Byte.to_N b < 0xC0)%N -> ~ utf8_text (b :: s).
Proof.
  intros B H. inversion H as [|w r Hw Hr E]. destruct w as [|b' w]; [|injection E as -> _]; destruct Hw as (c & Sc & Ec); unfold utf8 in Ec.
  - destruct (N.ltb c 0x80); [discriminate|]. destruct (N.ltb c 0x800); [discriminate|]. destruct (N.ltb c 0x10000); discriminate.
  - apply (f_equal (hd 0%N)) in Ec. cbn [map hd] in Ec. destruct (N.ltb_spec c 0x80); [cbn [hd] in Ec; lia|]. destruct (N.ltb_spec c 0x800); [cbn [hd] in Ec; lia|]. destruct (N.ltb_spec c 0x10000); cbn [hd] in Ec; lia.
Qed.
Theorem C104_every_field_refuted :
  exists r script x m, good_rule r /\ rule_utf8 r /\ utf8_text script /\ to_result r script = Ok x /\ rr_matches x = Some [m] /\ ~ utf8_text (r_rem m).
Proof.
  exists cut_rule, (bs "éa"). eexists. eexists. split; [split; [reflexivity|exact I]|]. split; [apply ascii_b_ok; reflexivity|]. split; [apply (utf8_more (bs "é") (bs "a") e_acute); apply ascii_b_ok; reflexivity|]. split; [vm_compute; reflexivity|]. split; [reflexivity|].
  apply not_first. vm_compute. split; [discriminate|reflexivity].
Qed.
Print Assumptions C104_every_field_refuted.

(* an instance: everything but a quotation mark, in a script that is not ASCII *)
Definition char_texts : texts := {| ct_patterns := bs "body:@QUOTE;QUOTE:$QUOTE;$QUOTE:""\"""";"; ct_rules := bs "BODY:[body]{1};QQ:""\"""";"; ct_tokens := bs "one: .QQ.BODY.QQ;" |}.
Lemma char_check : holds (create_tokens char_texts []) (fun x => forallb simple_b (table_all (fst (fst x))) && match snd x with None => true | Some _ => false end) = true.
Proof. vm_compute. reflexivity. Qed.
Theorem C104_example :
  exists l a rest, let x := ex_content """é€x""rest" in
  utf8_text (ct_patterns char_texts) /\ utf8_text (ct_rules char_texts) /\ utf8_text (tx_content x) /\
  means_grammar char_texts [] l None /\ means_references (ct_tokens char_texts) no_links /\ (forall t, In t (map fst l) -> simple_token t) /\
  fst (app_ast (fun _ => None) (fun _ => None) keep 30 5 [] (ex_single char_texts "") x) = Ok (ASuccess a) /\
  at_discovery a = bs """é€x""" /\ utf8_text (at_discovery a) /\ tx_content x = at_discovery a ++ rest /\ utf8_text rest.
Proof.
  assert (K := char_check). destruct (create_tokens char_texts []) as [y| | |] eqn:E; try discriminate K. cbn [holds] in K. apply andb_prop in K. destruct K as [K1 K2]. rewrite forallb_forall in K1.
  destruct (create_answer _ _ _ E) as (l & k & M & _ & (A & _) & B). destruct (snd y); [discriminate K2|]. destruct k as [ks|]; [destruct B|].
  exists l. eexists. exists (bs "rest"). cbv zeta.
  split; [apply ascii_b_ok; reflexivity|]. split; [apply ascii_b_ok; reflexivity|].
  assert (U : utf8_text (bs """é€x""")) by (apply (utf8_more (bs """") (bs "é€x""")); [exists 0x22%N; split; [left; reflexivity|reflexivity]|]; apply (utf8_more (bs "é") (bs "€x""") e_acute); apply (utf8_more (bs "€") (bs "x""") euro); apply ascii_b_ok; reflexivity).
  assert (R : utf8_text (bs "rest")) by (apply ascii_b_ok; reflexivity).
  split; [change (tx_content _) with (bs """é€x""" ++ bs "rest"); apply utf8_app; [exact U|exact R]|]. split; [exact M|]. split; [apply to_references_exact; vm_compute; reflexivity|]. split; [rewrite <- A; intros t Ht; apply simple_b_ok, K1; exact Ht|].
  split; [vm_compute; reflexivity|]. split; [vm_compute; reflexivity|]. split; [exact U|]. split; [vm_compute; reflexivity|exact R].
Qed.
Print Assumptions C104_example.
