(* ListProps.v - what declarations with list types mean: C105, continued. *)
From Coq Require Import Strings.String Strings.Byte Lia.
From Verif Require Import Go GoLemmas DomainModel PathModel LexModel AstModel TextModel AppModel AppSpec AppProps GramModel RootModel BaseModel EvtModel LetterProofs OrdSpec ProgSpec ListSpec RecProofs6.
Open Scope list_scope.

(* the declaration is executed to a declaration of that name, whose type has the flags of the word
   inside all lists and, as depth, the number of lists around it (a uint, so modulo 2^64) *)
Theorem C105_shipped_executes_list_declarations :
  forall rules_file tokens_file order lex_fuel fuel bitsize parse_float t g w x rest s,
  an_order order -> good_ltype t -> blank g -> is_name w -> ltype_text t <> w -> (forall b r, rest = b :: r -> ~ In b (lower ++ upper)) ->
  tx_prefix x = false -> tx_content x = ldecl_text t g w ++ rest -> (length (tx_content x) + 2) * 22 <= lex_fuel ->
  exists a r,
    fst (app_ast rules_file tokens_file order lex_fuel fuel [] {| rt_root := bs "variableDeclaration"; rt_rest := {| mu_container := base_texts; mu_channels := base_channels |} |} x) = Ok (ASuccess a) /\
    fst (to_root a s) = Ok (Some r) /\
    forall o, app_execute (base_events bitsize parse_float) r o <->
      o = Ok (VObj (OVarDecl (VarDecl (BType (N.of_nat (ltype_depth t) mod 2 ^ 64) (type_value (core t))) w))).
Proof. intros rf tf order lf f bz pf t g w x rest s O Gt G W N R Hx Es Hf. exact (ldecl_executes rf tf order O lf f bz pf t g w x rest s Gt G W N R Hx Es Hf). Qed.
Print Assumptions C105_shipped_executes_list_declarations.

(* for instance "list<list< uint>> myList" *)
Definition two_lists : ltype := LList [] [] (LList [] [x20] (LPlain SUint) []) [].
Example C105_execute_example :
  good_ltype two_lists /\ blank [x20] /\ is_name (bs "myList") /\ ltype_text two_lists <> bs "myList" /\
  ldecl_text two_lists [x20] (bs "myList") = bs "list<list< uint>> myList" /\ ltype_depth two_lists = 2 /\ type_value (core two_lists) = (TypeIntegerFlag + TypeUnsignedFlag)%N.
Proof.
  assert (B : forall a l, forallb (fun b => existsb (Byte.eqb b) a) l = true -> Forall (fun b => In b a) l).
  { intros a l H. apply Forall_forall. intros b I. rewrite forallb_forall in H. specialize (H b I). apply existsb_exists in H. destruct H as (y & J & E). apply Byte.byte_dec_bl in E. subst. exact J. }
  split; [repeat split; apply B; reflexivity|]. split; [apply B; reflexivity|]. split; [|repeat split; discriminate].
  exists x6d, (bs "yList"). split; [reflexivity|]. split; [assert (F := B lower [x6d] eq_refl); inversion F; assumption|]. split; [discriminate|]. apply B. reflexivity.
Qed.
Print Assumptions C105_execute_example.
