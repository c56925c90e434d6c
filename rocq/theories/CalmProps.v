(* CalmProps.v - property theorem C101: builders answer with an object or an error.
   The fields of the builder are arbitrary: whatever calls were made before Now. *)
From Coq Require Import Strings.String Strings.Byte.
From Verif Require Import Go DomainModel CardModel PatModel PathModel TextModel AppModel BaseModel BuildModel.
Open Scope list_scope.

(* an object or an error: no panic *)
Definition calm {A} (r : res A) : Prop := (exists x, r = Ok x) \/ r = Err.
Ltac calmly := repeat match goal with
  | |- calm (Ok ?x) => left; exists x; reflexivity
  | |- calm Err => right; reflexivity
  | |- calm (fst (Ok ?x, _)) => left; exists x; reflexivity
  | |- calm (fst (Err, _)) => right; reflexivity
  | |- context [match ?x with _ => _ end] => lazymatch x with context [match _ with _ => _ end] => fail | _ => destruct x end
  end.

(* blocks, transactions, genesis, identities, rings, peers *)
Theorem C101_chain_builders : forall sha512,
  (forall A (h : A -> bytes) s, calm (list_now sha512 h s)) /\
  (forall (A : Type) (s : option (list A)), calm (DomainModel.peers_now s)) /\
  (forall min max s, calm (ring_now sha512 min max s)) /\
  (forall s, calm (DomainModel.uc_now sha512 s)) /\
  (forall s, calm (DomainModel.gu_now sha512 s)) /\
  (forall s, calm (DomainModel.g_now sha512 s)) /\
  (forall s, calm (DomainModel.gp_now sha512 s)) /\
  (forall (s : o_builder), calm (DomainModel.o_now s)) /\
  (forall s, calm (DomainModel.tc_now sha512 s)) /\
  (forall s, calm (DomainModel.t_now sha512 s)) /\
  (forall s, calm (DomainModel.s_now sha512 s)) /\
  (forall s, calm (DomainModel.rc_now sha512 s)) /\
  (forall s, calm (DomainModel.tp_now sha512 s)) /\
  (forall s, calm (DomainModel.b_now sha512 s)) /\
  (forall s, calm (DomainModel.c_now sha512 s)) /\
  (forall (s : id_trx), calm (DomainModel.it_now s)) /\
  (forall (s : id_builder), calm (DomainModel.id_now s)) /\
  (forall (s : p_builder), calm (DomainModel.p_now s)).
Proof.
  intros sha512. repeat match goal with |- _ /\ _ => split end; intros; unfold bind; unfold DomainModel.p_now, DomainModel.id_now, DomainModel.it_now, DomainModel.c_now, DomainModel.b_now, DomainModel.tp_now, DomainModel.rc_now, DomainModel.s_now, DomainModel.t_now, DomainModel.tc_now, DomainModel.o_now, DomainModel.gp_now, DomainModel.g_now, DomainModel.gu_now, DomainModel.uc_now, DomainModel.ring_now, DomainModel.peers_now, DomainModel.list_now; calmly.
Qed.
Print Assumptions C101_chain_builders.

(* cardinalities *)
Theorem C101_card_builders :
  (forall (s : cb_builder), calm (CardModel.cb_now s)) /\
  (forall (s : sp_builder), calm (CardModel.sp_now s)) /\
  (forall (s : rg_builder), calm (CardModel.rg_now s)).
Proof.
  repeat match goal with |- _ /\ _ => split end; intros; unfold bind; unfold CardModel.rg_now, CardModel.sp_now, CardModel.cb_now; calmly.
Qed.
Print Assumptions C101_card_builders.

(* the applications' inputs *)
Theorem C101_app_builders :
  (forall (s : texts), calm (AppModel.ct_now s)) /\
  (forall (s : mu_builder), calm (AppModel.mu_now s)) /\
  (forall (A : Type) (s : rt_builder A), calm (AppModel.rt_now s)) /\
  (forall (s : text_content), calm (AppModel.tx_now s)) /\
  (forall (s : rpaths), calm (AppModel.rp_now s)).
Proof.
  repeat match goal with |- _ /\ _ => split end; intros; unfold bind; unfold AppModel.rp_now, AppModel.tx_now, AppModel.rt_now, AppModel.mu_now, AppModel.ct_now; calmly.
Qed.
Print Assumptions C101_app_builders.

(* programs of the base language *)
Theorem C101_program_builders :
  (forall (s : option lvalue * option single), calm (BaseModel.append_now s)) /\
  (forall (s : option totallist * option single), calm (BaseModel.assignable_now s)) /\
  (forall (s : option (list assignable)), calm (BaseModel.assignables_now s)) /\
  (forall (s : option (list afirst) * option (list aname)), calm (BaseModel.assignee_now s)) /\
  (forall (s : bool * bytes), calm (BaseModel.aname_now s)) /\
  (forall (s : option vardecl * option aname), calm (BaseModel.afirst_now s)) /\
  (forall (A : Type) (s : option (list A)), calm (BaseModel.nonempty_now s)) /\
  (forall (s : option assignee * option (list assignable)), calm (BaseModel.assignment_now s)) /\
  (forall (s : bool * bool), calm (BaseModel.direction_now s)) /\
  (forall (s : option forstatement * option (list instruction)), calm (BaseModel.fordecl_now s)) /\
  (forall (s : option aname * option aname * option totalvalue), calm (BaseModel.forstatement_now s)) /\
  (forall (s : bool * bool * option vardecl * bytes), calm (BaseModel.headervar_now s)) /\
  (forall (s : option operation * option (list instruction)), calm (BaseModel.ifdecl_now s)) /\
  (forall (s : option bvalue * bytes), calm (BaseModel.ivalue_now s)) /\
  (forall (s : option assignment * option vardecl * option ifdecl * option fordecl * option voidcall * option direction * option increment), calm (BaseModel.instruction_now s)) /\
  (forall (s : bytes * option bvalue), calm (BaseModel.increment_now s)) /\
  (forall (s : option totalvalue * option ivalue), calm (BaseModel.fetch_now s)) /\
  (forall (s : option (list assignable) * bytes), calm (BaseModel.lvalue_now s)) /\
  (forall (s : option opelement * option opsuffix), calm (BaseModel.operation_now s)) /\
  (forall (s : option bool * option bytes * option bvalue * option operation * option opcall), calm (BaseModel.element_now s)) /\
  (forall (s : option operation), calm (BaseModel.opcall_now s)) /\
  (forall (s : option N * option opelement), calm (BaseModel.suffix_now s)) /\
  (forall (s : option (list instruction) * option (list headervar)), calm (BaseModel.program_now s)) /\
  (forall (s : option bvalue * option operation * option totallist * option fetchelement), calm (BaseModel.single_now s)) /\
  (forall (s : option lvalue * option delimiter), calm (BaseModel.slice_now s)) /\
  (forall (s : option ivalue * option ivalue), calm (BaseModel.delimiter_now s)) /\
  (forall (s : option lvalue * option slice * option appending), calm (BaseModel.totallist_now s)) /\
  (forall (s : option totallist * bytes), calm (BaseModel.totalvalue_now s)) /\
  (forall (s : N * option N), calm (BaseModel.type_now s)) /\
  (forall (s : option btype * bytes), calm (BaseModel.vardecl_now s)) /\
  (forall (s : option (list vardecl)), calm (BaseModel.vardecls_now s)) /\
  (forall (s : option assignable), calm (BaseModel.voidcall_now s)) /\
  (forall s, calm (fst (BaseModel.vb_now s))).
Proof.
  repeat match goal with |- _ /\ _ => split end; intros; unfold bind; unfold BaseModel.vb_now, BaseModel.voidcall_now, BaseModel.vardecls_now, BaseModel.vardecl_now, BaseModel.type_now, BaseModel.totalvalue_now, BaseModel.totallist_now, BaseModel.delimiter_now, BaseModel.slice_now, BaseModel.single_now, BaseModel.program_now, BaseModel.suffix_now, BaseModel.opcall_now, BaseModel.element_now, BaseModel.operation_now, BaseModel.lvalue_now, BaseModel.fetch_now, BaseModel.increment_now, BaseModel.instruction_now, BaseModel.ivalue_now, BaseModel.ifdecl_now, BaseModel.headervar_now, BaseModel.forstatement_now, BaseModel.fordecl_now, BaseModel.direction_now, BaseModel.assignment_now, BaseModel.nonempty_now, BaseModel.afirst_now, BaseModel.aname_now, BaseModel.assignee_now, BaseModel.assignables_now, BaseModel.assignable_now, BaseModel.append_now; calmly.
Qed.
Print Assumptions C101_program_builders.

(* match trees, mistakes, grammars, paths, suites *)
Theorem C101_lexer_builders :
  (forall (T1 T2 : Type) (s : bytes * option T1 * option T2), calm (BuildModel.token_now s)) /\
  (forall (T0 T1 : Type) (s : option T0 * option T1), calm (BuildModel.token_content_now s)) /\
  (forall (T1 : Type) (s : option N * option T1), calm (BuildModel.line_match_now s)) /\
  (forall (T0 : Type) (s : option (list T0)), calm (BuildModel.matches_now s)) /\
  (forall (T0 T1 : Type) (s : option T0 * option T1 * bool), calm (BuildModel.rule_match_now s)) /\
  (forall (T0 T1 : Type) (s : option T0 * option T1), calm (BuildModel.rule_match_result_now s)) /\
  (forall (T1 T2 : Type) (s : bytes * option T1 * option T2), calm (BuildModel.specifier_now s)) /\
  (forall (T0 T1 T2 : Type) (s : option T0 * option T1 * option (list T2)), calm (BuildModel.token_match_now s)) /\
  (forall (T1 T2 : Type) (s : bytes * option T1 * option T2), calm (BuildModel.token_result_now s)) /\
  (forall (T0 : Type) (s : option (list T0)), calm (BuildModel.token_result_matches_now s)) /\
  (forall (T0 : Type) (s : option (list T0)), calm (BuildModel.result_now s)) /\
  (forall (T0 T1 T2 : Type) (s : option T0 * option T1 * option T2), calm (BuildModel.mistake_now s)) /\
  (forall (s : option N * option N * option N), calm (BuildModel.mistake_index_now s)) /\
  (forall (s : option N), calm (BuildModel.valid_not_now s)) /\
  (forall (T1 : Type) (s : bytes * option T1 * option N), calm (BuildModel.specifier_do_not_match_now s)) /\
  (forall (T0 : Type) (s : option T0), calm (BuildModel.contains_next_now s)) /\
  (forall (T0 : Type) (s : option T0 * option N), calm (BuildModel.cardinality_is_invalid_now s)) /\
  (forall (s : bytes), calm (BuildModel.contains_prefix_now s)) /\
  (forall (T1 : Type) (s : bytes * option T1), calm (BuildModel.tree_token_now s)) /\
  (forall (T1 : Type) (s : option N * option (list T1)), calm (BuildModel.tree_line_now s)) /\
  (forall (T1 : Type) (s : bytes * option T1), calm (BuildModel.tree_rule_now s)) /\
  (forall (T1 : Type) (s : bytes * option (list T1)), calm (BuildModel.tree_tokens_now s)) /\
  (forall (T1 : Type) (s : bytes * option T1 * bytes * bytes), calm (BuildModel.tree_result_now s)) /\
  (forall (T0 T1 : Type) (s : option T0 * option T1), calm (BuildModel.path_now s)) /\
  (forall (T1 T2 : Type) (s : bytes * option (list T1) * option (list T2)), calm (BuildModel.element_now s)) /\
  (forall (T0 : Type) (s : option (list T0)), calm (BuildModel.path_line_now s)) /\
  (forall (T1 T2 : Type) (s : bytes * option T1 * option (list T2)), calm (BuildModel.recursive_token_now s)) /\
  (forall (T0 T1 : Type) (s : option T0 * option T1), calm (BuildModel.path_rule_now s)) /\
  (forall (T1 : Type) (s : bytes * option T1), calm (BuildModel.path_specifier_now s)) /\
  (forall (T0 T1 : Type) (s : option T0 * option T1), calm (BuildModel.path_token_now s)) /\
  (forall (T0 T1 : Type) (s : option T0 * option (list T1)), calm (BuildModel.token_path_now s)) /\
  (forall (T1 : Type) (s : bool * option T1), calm (BuildModel.next_now s)) /\
  (forall (T0 : Type) (s : option T0 * bool), calm (BuildModel.choice_now s)) /\
  (forall (T1 : Type) (s : bytes * option (list T1)), calm (BuildModel.serie_now s)) /\
  (forall (T1 : Type) (s : bytes * option (list T1)), calm (BuildModel.group_now s)) /\
  (forall (T1 : Type) (s : bytes * option (list T1)), calm (BuildModel.pattern_now s)) /\
  (forall (T0 T2 : Type) (s : option T0 * bytes * option T2), calm (BuildModel.discovery_now s)) /\
  (forall (T0 : Type) (s : option T0 * bytes), calm (BuildModel.rule_element_now s)) /\
  (forall (T2 : Type) (s : bytes * bytes * option T2), calm (BuildModel.rule_now s)) /\
  (forall (T0 T1 : Type) (s : option T0 * option T1), calm (BuildModel.rule_pattern_now s)) /\
  (forall (T0 T1 : Type) (s : option T0 * option T1), calm (BuildModel.grammar_block_now s)) /\
  (forall (T1 : Type) (s : bytes * option T1), calm (BuildModel.token_reference_now s)) /\
  (forall (T0 T2 : Type) (s : option T0 * bytes * option T2), calm (BuildModel.grammar_element_now s)) /\
  (forall (T0 T1 : Type) (s : option T0 * option T1), calm (BuildModel.token_specifier_now s)) /\
  (forall (T0 : Type) (s : option (list T0)), calm (BuildModel.grammar_lines_now s)) /\
  (forall (T1 T2 : Type) (s : bytes * option T1 * option T2), calm (BuildModel.grammar_token_now s)) /\
  (forall (s : option N * bool), calm (BuildModel.suite_line_now s)) /\
  (forall (T1 : Type) (s : bytes * option (list T1)), calm (BuildModel.suite_now s)) /\
  (forall (T0 T1 T2 T3 : Type) (s : option T0 * option T1 * option T2 * option T3), calm (BuildModel.suite_application_now s)) /\
  (forall (T2 : Type) (s : bytes * bytes * option T2), calm (BuildModel.link_now s)) /\
  (forall (T1 : Type) (s : bytes * option T1), calm (BuildModel.include_now s)) /\
  (forall (T0 T1 : Type) (s : option T0 * option T1), calm (BuildModel.references_now s)) /\
  (forall (s : bytes * bool * bool), calm (BuildModel.content_now s)) /\
  (forall (T0 T1 : Type) (s : option T0 * option T1), calm (BuildModel.rule_result_now s)) /\
  (forall (T1 : Type) (s : bytes * option T1), calm (BuildModel.next_element_now s)) /\
  (forall (T0 T1 T2 T3 : Type) (s : option T0 * option T1 * option T2 * option T3), calm (BuildModel.match_now s)) /\
  (forall (T0 T1 : Type) (s : option T0 * option T1), calm (BuildModel.skip_match_now s)) /\
  (forall (T0 T1 T2 T3 : Type) (s : option T0 * option T1 * option T2 * option T3), calm (BuildModel.block_match_now s)) /\
  (forall (T1 T2 T3 T4 T5 : Type) (s : bool * option T1 * option T2 * option T3 * option T4 * option T5), calm (BuildModel.mistake_content_now s)) /\
  (forall (T2 : Type) (s : bytes * bytes * option (list T2)), calm (BuildModel.mistake_path_now s)) /\
  (forall (T0 T1 : Type) (s : option T0 * option T1), calm (BuildModel.answer_now s)) /\
  (forall (T0 T1 : Type) (s : option T0 * option T1), calm (BuildModel.tree_match_now s)) /\
  (forall (T0 T1 T2 T3 : Type) (s : option T0 * option T1 * option T2 * option (list T3)), calm (BuildModel.path_container_now s)) /\
  (forall (T1 : Type) (s : bool * option T1), calm (BuildModel.path_instruction_now s)) /\
  (forall (T0 T1 : Type) (s : option T0 * option T1), calm (BuildModel.pattern_container_now s)) /\
  (forall (T0 T1 : Type) (s : option T0 * option T1), calm (BuildModel.grammar_content_now s)) /\
  (forall (T1 : Type) (s : bool * option T1), calm (BuildModel.grammar_instruction_now s)) /\
  (forall (T1 : Type) (s : bytes * option T1), calm (BuildModel.token_specifier_content_now s)).
Proof.
  repeat match goal with |- _ /\ _ => split end; intros; unfold bind; unfold BuildModel.token_specifier_content_now, BuildModel.grammar_instruction_now, BuildModel.grammar_content_now, BuildModel.pattern_container_now, BuildModel.path_instruction_now, BuildModel.path_container_now, BuildModel.tree_match_now, BuildModel.answer_now, BuildModel.mistake_path_now, BuildModel.mistake_content_now, BuildModel.block_match_now, BuildModel.skip_match_now, BuildModel.match_now, BuildModel.next_element_now, BuildModel.rule_result_now, BuildModel.content_now, BuildModel.references_now, BuildModel.include_now, BuildModel.link_now, BuildModel.suite_application_now, BuildModel.suite_now, BuildModel.suite_line_now, BuildModel.grammar_token_now, BuildModel.grammar_lines_now, BuildModel.token_specifier_now, BuildModel.grammar_element_now, BuildModel.token_reference_now, BuildModel.grammar_block_now, BuildModel.rule_pattern_now, BuildModel.rule_now, BuildModel.rule_element_now, BuildModel.discovery_now, BuildModel.pattern_now, BuildModel.group_now, BuildModel.serie_now, BuildModel.choice_now, BuildModel.next_now, BuildModel.token_path_now, BuildModel.path_token_now, BuildModel.path_specifier_now, BuildModel.path_rule_now, BuildModel.recursive_token_now, BuildModel.path_line_now, BuildModel.element_now, BuildModel.path_now, BuildModel.tree_result_now, BuildModel.tree_tokens_now, BuildModel.tree_rule_now, BuildModel.tree_line_now, BuildModel.tree_token_now, BuildModel.contains_prefix_now, BuildModel.cardinality_is_invalid_now, BuildModel.contains_next_now, BuildModel.specifier_do_not_match_now, BuildModel.valid_not_now, BuildModel.mistake_index_now, BuildModel.mistake_now, BuildModel.result_now, BuildModel.token_result_matches_now, BuildModel.token_result_now, BuildModel.token_match_now, BuildModel.specifier_now, BuildModel.rule_match_result_now, BuildModel.rule_match_now, BuildModel.matches_now, BuildModel.line_match_now, BuildModel.token_content_now, BuildModel.token_now; calmly.
Qed.
Print Assumptions C101_lexer_builders.

(* what the adapters build on their way: results of patterns, elements and lines of paths, links *)
Theorem C101_inner_builders :
  (forall i w c, calm (new_discovery i w c)) /\
  (forall i d r n, calm (new_presult i d r n)) /\
  (forall n m x, calm (new_element n m x)) /\
  (forall l, calm (new_line l)) /\
  (forall n s c, calm (new_rec n s c)) /\
  (forall i n l r, calm (new_link i n l r)).
Proof.
  repeat match goal with |- _ /\ _ => split end; intros; unfold bind; unfold new_link, new_rec, new_line, new_element, new_presult, new_discovery; calmly.
Qed.
Print Assumptions C101_inner_builders.

(* a builder of each kind that fails, with an error *)
Example C101_case : forall sha512,
  rc_now sha512 (run rc_step rc_init []) = Err /\ rp_now (run rp_step rp_init []) = Err /\ BaseModel.program_now (None, None) = Err /\ new_element [] [] None = Err.
Proof. intros. repeat split; reflexivity. Qed.
