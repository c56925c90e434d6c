(* PartProps.v - property theorems C108: the builders of roots
   (domain/languages/lexers/roots) and the lookups of their parts by name.  ops is any
   sequence of calls on a builder, after2 ... the builder after these calls, a2, b2, ... the
   argument last given to each of its methods since the last Create (BaseSpec.v,
   BuildSpec.v); entries: what a token is directly made of (RootSpec.v). *)
From Coq Require Import Strings.String Strings.Byte Lia.
From Verif Require Import Go GoLemmas DomainModel DomainSpec BaseModel BaseSpec BaseProofs RuleModel LexModel AstModel RootModel BuildModel BuildSpec BuildProofs PartModel PartProofs RootProofs RootProps RootSpec.
Open Scope list_scope.

(* ---- the builders ---- *)
Theorem C108_container :
  forall (R : Type) (ops : list (op3 bytes bytes (option R))),
  builds (container_now (after3 [] [] None ops)) (fun x => exists content name, a3 [] ops = content /\ content <> [] /\ b3 [] ops = name /\ name <> [] /\ x = MkContainer content name (c3 None ops)).
Proof. parts_made. Qed.
Print Assumptions C108_container.

Theorem C108_node :
  forall (T : Type) (ops : list (op2 bytes (option T))),
  builds (node_now (after2 [] None ops)) (fun x => exists name containers, a2 [] ops = name /\ name <> [] /\ b2 None ops = Some containers /\ x = MkNode name containers).
Proof. parts_made. Qed.
Print Assumptions C108_node.

Theorem C108_root :
  forall (T : Type) (ops : list (op3 bytes bytes (option T))),
  builds (root_now (after3 [] [] None ops)) (fun x => exists content name nodes, a3 [] ops = content /\ content <> [] /\ b3 [] ops = name /\ name <> [] /\ c3 None ops = Some nodes /\ x = MkRoot content name nodes).
Proof. parts_made. Qed.
Print Assumptions C108_root.

Theorem C108_nodes :
  forall (T : Type) (ops : list (op1 (option (list (bytes * T))))),
  builds (nodes_now (after1 None ops)) (fun x => exists l, a1 None ops = Some l /\ l <> [] /\ x = MkNodes l).
Proof. parts_made. Qed.
Print Assumptions C108_nodes.

(* ---- containers: the list as given, a name gives the last container that has it ---- *)
Theorem C108_containers :
  forall (C : Type) (name content : C -> bytes) (ops : list (op1 (option (list C)))),
  match a1 None ops with
  | Some (c :: l) =>
    exists x, containers_now name (after1 None ops) = Ok x /\ containers_list x = c :: l /\ containers_content content x = concat (map content (c :: l)) /\
    forall n, match containers_fetch x n with
              | Ok y => exists a b, c :: l = a ++ y :: b /\ name y = n /\ Forall (fun z => name z <> n) b
              | Err => Forall (fun z => name z <> n) (c :: l)
              | _ => False
              end
  | _ => containers_now name (after1 None ops) = Err
  end.
Proof. exact @containers_lemma. Qed.
Print Assumptions C108_containers.
Example C108_containers_case :
  exists x, containers_now co_name (after1 None [A1 (Some []); N1; A1 (Some [Container (bs "x") (bs "a") None; Container (bs "y") (bs "b") None; Container (bs "z") (bs "a") None])]) = Ok x /\
  containers_content co_content x = bs "xyz" /\ containers_fetch x (bs "a") = Ok (Container (bs "z") (bs "a") None) /\ containers_fetch x (bs "c") = Err.
Proof. eexists. repeat split. Qed.

(* ---- nodes: the key of the map finds them ---- *)
Theorem C108_nodes_by_key :
  forall (T : Type) (l : list (bytes * T)) (n : bytes),
  NoDup (map fst l) ->
  nodes_amount (MkNodes l) = N.of_nat (length l) /\
  (forall x, nodes_fetch (MkNodes l) n = Ok x <-> In (n, x) l) /\
  (nodes_fetch (MkNodes l) n = Err <-> ~ In n (map fst l)) /\
  (nodes_exists (MkNodes l) n = true <-> In n (map fst l)).
Proof. exact @nodes_lemma. Qed.
Print Assumptions C108_nodes_by_key.
(* the key need not be the node's name when the nodes are put together by hand *)
Theorem C108_key_is_the_name_refuted :
  exists l x, nodes_now (after1 None [A1 (Some l)]) = Ok (MkNodes l) /\ NoDup (map fst l) /\
  nodes_fetch (MkNodes l) (bs "a") = Ok x /\ no_name x = bs "b" /\ nodes_fetch (MkNodes l) (bs "b") = Err.
Proof.
  exists [(bs "a", Node (bs "b") [Container (bs "x") (bs "b") None])], (Node (bs "b") [Container (bs "x") (bs "b") None]).
  repeat split. constructor; [intros []|constructor].
Qed.
Print Assumptions C108_key_is_the_name_refuted.

(* ---- the root of a syntax tree ---- *)
(* one node per name of the parts of the token *)
Theorem C108_nodes_of_a_tree :
  forall t s r, fst (to_root t s) = Ok (Some r) ->
  exists names, NoDup names /\ (forall n, In n names <-> exists e, In e (entries (at_matches t)) /\ en_name e = n) /\
  nodes_amount (root_nodes r) = N.of_nat (length names) /\ (nodes_amount (root_nodes r) <= N.of_nat (length (entries (at_matches t))))%N /\ nodes_amount (root_nodes r) <> 0%N.
Proof. exact amount_lemma. Qed.
Print Assumptions C108_nodes_of_a_tree.
(* a name finds the node of the parts with this name: its content is their texts, and the
   name finds in it the last of them and no other name finds anything *)
Theorem C108_parts_by_name :
  forall t s r n, fst (to_root t s) = Ok (Some r) ->
  let own := filter (has_name n) (entries (at_matches t)) in
  (nodes_exists (root_nodes r) n = true <-> own <> []) /\
  match nodes_fetch (root_nodes r) n with
  | Ok x =>
    no_name x = n /\ containers_content co_content (node_containers x) = concat (map en_text own) /\
    (forall m, m <> n -> containers_fetch (node_containers x) m = Err) /\
    exists before e c, own = before ++ [e] /\ containers_fetch (node_containers x) n = Ok c /\ co_content c = en_text e /\ co_name c = n
  | Err => own = []
  | _ => False
  end.
Proof. exact parts_lemma. Qed.
Print Assumptions C108_parts_by_name.
(* r: a{.X} b{c{.Y} .Z} a{.W} *)
Example C108_tree_case :
  exists r x, fst (to_root ex_tree []) = Ok (Some r) /\ nodes_amount (root_nodes r) = 2%N /\ nodes_fetch (root_nodes r) (bs "a") = Ok x /\
  containers_content co_content (node_containers x) = bs "xw" /\
  (exists c, containers_fetch (node_containers x) (bs "a") = Ok c /\ co_content c = bs "w") /\ nodes_fetch (root_nodes r) (bs "c") = Err.
Proof. eexists _, _. split; [vm_compute; reflexivity|]. split; [reflexivity|]. split; [reflexivity|]. split; [reflexivity|]. split; [eexists; split; reflexivity|reflexivity]. Qed.
