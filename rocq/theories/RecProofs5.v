(* RecProofs5.v - proofs for RecProps.v: list types read by the shipped language. *)
From Coq Require Import Strings.String Strings.Byte Lia.
From Verif Require Import Go GoLemmas DomainModel DomainSpec CardModel CardSpec PatModel PatSpec RuleModel RuleSpec PathModel PathSpec LexModel LexSpec AstModel AstSpec TextModel SuiteModel AppModel AppSpec GramModel SuiteSpec OrdSpec OrdProofs2 AdeqSpec AdeqProofs2 AdeqProofs8 AdeqConfProps EndProps PickSpec PickProofs2 PickProofs4 LitProofs LetterProofs ShapeProofs ProgSpec ShapeProofs2 ProgProofs ProgProofs2 ProgProofs3 RecSpec RecProofs2 RecProofs3 ListSpec RecProofs4.
Open Scope list_scope.

Definition dep_b (p : path) (n : string) (s : shape) : bool := match mlookup (pa_deps p) (bs n) with Some e => has_b s (ICont (PToken e [] CMandatory)) | None => false end.
Definition list_check (u : table token * list (bytes * option (list bytes))) (n : string) (s : shape) : bool :=
  match find (fun t => bytes_eqb (t_name t) (bs n)) (table_all (fst u)) with
  | Some t => match path_for (fst u) none none t with Ok p => has_b s (ICont (PToken (pa_element p) [] CMandatory)) && dep_b p "declarativeType" sh_b && dep_b p "listType" sh_l | _ => false end
  | None => false
  end.
Lemma dep_ok p n m ls : dep_b p n (HTok m ls CMandatory) = true -> exists e, mlookup (pa_deps p) (bs n) = Some e /\ tok_is m ls e.
Proof. unfold dep_b. intros H. destruct (mlookup _ _) as [e|]; [|discriminate]. apply has_ok, has_tok in H. destruct H as (e' & [= <-] & T). eauto. Qed.
Lemma list_checked u n m ls : list_check u n (HTok m ls CMandatory) = true -> exists t p eb el, In t (table_all (fst u)) /\ t_name t = bs n /\ path_for (fst u) none none t = Ok p /\ tok_is m ls (pa_element p) /\
  mlookup (pa_deps p) (bs "declarativeType") = Some eb /\ to sh_b eb /\ mlookup (pa_deps p) (bs "listType") = Some el /\ to sh_l el.
Proof.
  unfold list_check. intros H. destruct (find _ _) as [t|] eqn:F; [|discriminate]. apply find_some in F. destruct F as [I E]. apply bytes_eqb_eq in E. destruct (path_for _ _ _ t) as [p| | |] eqn:P; try discriminate. apply andb_prop in H. destruct H as [H H3]. apply andb_prop in H. destruct H as [H1 H2]. apply dep_ok in H2, H3. destruct H2 as (eb & E2 & T2). destruct H3 as (el & E3 & T3).
  apply has_ok, has_tok in H1. destruct H1 as (e & [= <-] & T). exists t, p, eb, el. auto 10.
Qed.
Lemma ldecl_check : holds (shipped_tokens base_tokens) (fun u => list_check u "variableDeclaration" sh_ldecl) = true.
Proof. vm_compute. reflexivity. Qed.

Section Shipped.
Variables rules_file tokens_file : bytes -> option bytes.
Variable order : list path -> nat -> list path.
Hypothesis O : an_order order.
Variables lex_fuel fuel : nat.
Notation decl_ast x := (fst (app_ast rules_file tokens_file order lex_fuel fuel [] {| rt_root := bs "variableDeclaration"; rt_rest := {| mu_container := base_texts; mu_channels := base_channels |} |} x)).
Lemma ldecl_shipped t g w x rest : good_ltype t -> blank g -> is_name w -> ends_class letters rest -> tx_prefix x = false -> tx_content x = ldecl_text t g w ++ rest -> (length (tx_content x) + 2) * 22 <= lex_fuel ->
  exists a, decl_ast x = Ok (ASuccess a) /\ drawn a = ldecl_tree t g w /\ at_discovery a = ldecl_text t g w.
Proof.
  intros Gt G W R Hx Es Hf. destruct (holds_some _ _ ldecl_check) as (u & Hu). destruct (holds_some _ _ base_channels_check) as (v & Hv).
  destruct (list_checked u "variableDeclaration" _ _ (holds_ok _ _ u ldecl_check Hu)) as (tk & p & eb & el & It & Nt & Hp & T & Lb & Tb & Ll & Tl).
  destruct (shipped_lexer rules_file tokens_file order O lex_fuel fuel u v tk x Hu Hv Hx It) as (channels & p' & Hp' & Pp & Pc & Pq & Am & Ea). rewrite Hp in Hp'. injection Hp' as <-. rewrite Nt in Ea.
  assert (Hb : blank_channels channels). { apply (blank_channels_ok u v channels); [|exact Am]. assert (K := chans_check). rewrite Hu in K. cbn [AdeqProofs8.holds] in K. rewrite Hv in K. exact K. }
  destruct (ldecl_read channels Pc Hb (mlookup (pa_deps p)) eb el Lb Ll Tb Tl (pa_element p) t g w rest T Gt G W R) as (N1 & Ch). rewrite <- Es in Ch.
  assert (De : is_declared (table_all (fst u)) (bs "variableDeclaration")) by (exists tk; auto).
  destruct (C94_shipped_always_answers rules_file tokens_file order lex_fuel fuel u (bs "variableDeclaration") x O Hu De Hx Hf) as (r & Hr). assert (Hr' : decl_ast x = Ok r) by exact Hr. apply (eq_trans (eq_sym Ea)) in Hr. clear Ea.
  destruct (read_by_choice channels Pc Pq p Pp lex_fuel (lst_init false) eq_refl _ _ _ _ _ Ch Hr) as (a & -> & Ed & Et). rewrite Es in Et. apply app_inv_tail in Et.
  exists a. split; [exact Hr'|]. split; [exact Ed|]. symmetry. exact Et.
Qed.
End Shipped.
