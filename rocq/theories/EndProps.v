(* EndProps.v - property theorem C94: the parser of the shipped language answers every text,
   although its grammar is left recursive (operation, operationWithSuffix, operationElement,
   operation).  settles is defined in EndSpec.v. *)
From Coq Require Import Strings.String Strings.Byte Sorting.Permutation Lia.
From Verif Require Import Go GoLemmas DomainModel RuleModel PathModel PathSpec LexModel LexSpec CardModel AstModel AstSpec TextModel TextSpec TextTokSpec TextRefSpec SuiteModel SuiteSpec AppModel AppSpec GramModel RootModel ParseModel OrdSpec OrdProofs2 AdeqProofs8 AdeqProps AdeqConfProps EndSpec EndProofs EndProofs4 EndLexProps EndProofs5 EndProofs6 EndProofs7.
Open Scope string_scope.
Open Scope list_scope.

(* ---- C94 ---- *)
(* and the parser answers, a tree or a mistake *)
Theorem C94_guarded_recursion_answers :
  forall channels still depth root script st fuel,
  same_map channels -> (forall q, among channels q -> exists r, simple_channel q r) -> (forall q, among channels q -> plain q /\ resolved q) ->
  plain root -> resolved root -> settles still depth root ->
  ls_pre st = false -> (length script + 2) * (depth + 2) <= fuel ->
  exists a, fst (to_ast channels fuel root false script st) = Ok a.
Proof. intros channels still depth root script st fuel Hm Hs Hc Hr Hv He E L. exact (settled_answers channels root still depth fuel script st Hm Hs Hc Hr Hv He E L). Qed.
Print Assumptions C94_guarded_recursion_answers.
(* Parser.AST of the shipped language: every declared token as root, every text, every order
   of the channels *)
Theorem C94_shipped_always_answers :
  forall rules_file tokens_file order lex_fuel fuel u n x,
  an_order order -> shipped_tokens base_tokens = Ok u -> is_declared (table_all (fst u)) n -> tx_prefix x = false ->
  (length (tx_content x) + 2) * 22 <= lex_fuel ->
  exists a, fst (app_ast rules_file tokens_file order lex_fuel fuel [] {| rt_root := n; rt_rest := {| mu_container := base_texts; mu_channels := base_channels |} |} x) = Ok a.
Proof. intros rules_file tokens_file order lex_fuel fuel u n x O Hu Hn Hx Lf. exact (shipped_answers rules_file tokens_file order O lex_fuel fuel u n x Hu Hn Hx Lf). Qed.
Print Assumptions C94_shipped_always_answers.
(* Parser.Tests of the shipped language always reports *)
Theorem C94_shipped_tests_always_report :
  forall rules_file tokens_file order lex_fuel fuel,
  (forall n j, an_order (order n j)) -> (263 + 2) * 22 <= lex_fuel ->
  exists ss, fst (app_tests rules_file tokens_file order lex_fuel fuel [] {| mu_container := base_texts; mu_channels := base_channels |}) = Ok ss.
Proof. exact shipped_tests_answer. Qed.
Print Assumptions C94_shipped_tests_always_report.

(* the shipped grammar settles and is left recursive: the element of an operation starts with
   itself, nothing being read in between *)
Definition starts_with (d : gmap element) (name next : bytes) : bool :=
  match mlookup d name with
  | Some e => match el_must e with [] => false | _ => existsb (fun l => match first_container l with
      | Some (PToken e' _ _) => bytes_eqb (el_name e') next | Some (PRec x _ _) => bytes_eqb x next | _ => false end) (el_must e) end
  | None => false
  end.
Definition left_recursive_b (u : table token * list (bytes * option (list bytes))) : bool :=
  match find (fun t => bytes_eqb (t_name t) (bs "program")) (table_all (fst u)) with
  | Some t => match path_for (fst u) none none t with
      | Ok p => starts_with (pa_deps p) (bs "operation") (bs "operationWithSuffix") && starts_with (pa_deps p) (bs "operationWithSuffix") (bs "operationElement") &&
                starts_with (pa_deps p) (bs "operationElement") (bs "operation")
      | _ => false
      end
  | None => false
  end.
Lemma base_left_recursive : AdeqProofs8.holds (shipped_tokens base_tokens) left_recursive_b = true.
Proof. vm_compute. reflexivity. Qed.
Definition declares (n : string) (u : table token * list (bytes * option (list bytes))) : bool := existsb (fun t => bytes_eqb (t_name t) (bs n)) (table_all (fst u)).
Lemma base_declares : AdeqProofs8.holds (shipped_tokens base_tokens) (fun u => declares "program" u && declares "operation" u) = true.
Proof. vm_compute. reflexivity. Qed.
Lemma declares_ok n u : declares n u = true -> is_declared (table_all (fst u)) (bs n).
Proof. unfold declares. rewrite existsb_exists. intros (t & Ht & E). apply bytes_eqb_eq in E. exists t. auto. Qed.
Lemma left_recursive_path u : left_recursive_b u = true -> exists t p, In t (table_all (fst u)) /\ t_name t = bs "program" /\ path_for (fst u) none none t = Ok p.
Proof.
  intros H. unfold left_recursive_b in H. destruct (find _ (table_all (fst u))) as [t|] eqn:Ft; [|discriminate]. apply find_some in Ft. destruct Ft as [It En]. apply bytes_eqb_eq in En.
  destruct (path_for (fst u) none none t) as [p| | |] eqn:Ep; [|discriminate H|discriminate H|discriminate H]. exists t, p. auto.
Qed.
Lemma settles_somewhere : exists u t p, shipped_tokens base_tokens = Ok u /\ In t (table_all (fst u)) /\ t_name t = bs "program" /\ path_for (fst u) none none t = Ok p /\ left_recursive_b u = true.
Proof.
  destruct (holds_made _ _ base_left_recursive) as (u & Hu & H). destruct (left_recursive_path u H) as (t & p & A & B & C). exists u, t, p. exact (conj Hu (conj A (conj B (conj C H)))).
Qed.
Example C94_shipped_is_left_recursive : exists u t p, shipped_tokens base_tokens = Ok u /\ In t (table_all (fst u)) /\ t_name t = bs "program" /\ path_for (fst u) none none t = Ok p /\ left_recursive_b u = true.
Proof. exact settles_somewhere. Qed.
Print Assumptions C94_shipped_is_left_recursive.
(* a text no operation starts, read as an operation *)
Example C94_open_brackets : exists a, shipped_ast "operation" "((((((" = Ok a.
Proof.
  destruct (holds_made _ _ base_declares) as (u & Hu & H). apply andb_prop in H. destruct H as [_ H].
  rewrite shipped_ast_is. apply (C94_shipped_always_answers no_files no_files in_order 1000 1 u (bs "operation") {| tx_content := bs "(((((("; tx_prefix := false; tx_suffix := false |} (fun l _ => Permutation_refl l) Hu (declares_ok _ _ H) eq_refl).
  apply Nat.leb_le. reflexivity.
Qed.
Print Assumptions C94_open_brackets.
