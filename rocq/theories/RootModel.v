(* RootModel.v - domain/languages/lexers/roots: the name-indexed view of a syntax tree
   and Scan; applications/languages/parsers: event dispatch.  Definitions only.
   Nodes.Fetch and Exists, plain lookups, are in EvtModel.v (fetch, has) and, for the map
   itself, in PartModel.v, with Nodes.Amount, Containers.Fetch and the builders. *)
From Coq Require Import Strings.String Strings.Byte.
From Verif Require Export Go DomainModel CardModel PatModel RuleModel PathModel LexModel AstModel.
From Coq Require Import Sorting.Permutation.
Open Scope list_scope.

(* root.go, nodes.go, node.go, containers.go, container.go.  The nodes are a Go map keyed
   by name (nodes.go:9): a list in no particular order *)
Inductive root := Root (content name : bytes) (nodes : list node)
with node := Node (name : bytes) (list : list container)
with container := Container (content name : bytes) (root : option root).
Definition ro_content (r : root) := match r with Root c _ _ => c end.
Definition ro_name (r : root) := match r with Root _ n _ => n end.
Definition ro_nodes (r : root) := match r with Root _ _ l => l end.
Definition no_name (n : node) := match n with Node x _ => x end.
Definition no_list (n : node) := match n with Node _ l => l end.
Definition co_content (c : container) := match c with Container x _ _ => x end.
Definition co_name (c : container) := match c with Container _ n _ => n end.
Definition co_root (c : container) := match c with Container _ _ o => o end.
(* containers.go:26-34 Content, node.go:20-22 *)
Definition no_content (n : node) : bytes := join [] (map co_content (no_list n)).

(* ---- adapter.go ---- *)
(* tokenRoots (:13) is the state; the cache key is the text *)
Definition RM (A : Type) : Type := gmap root -> res A * gmap root.
Definition rm_ret {A} (a : A) : RM A := fun s => (Ok a, s).
Definition rm_err {A} : RM A := fun s => (Err, s).
Definition rm_bind {A B} (m : RM A) (f : A -> RM B) : RM B := fun s =>
  match m s with
  | (Ok a, s') => f a s'
  | (Err, s') => (Err, s')
  | (Panic, s') => (Panic, s')
  | (NoFuel, s') => (NoFuel, s')
  end.
Section Loops.
(* loops that stop at the first error *)
Context {A B : Type} (g : A -> RM B) (f : B -> A -> RM B).
Fixpoint rm_each (l : list A) : RM unit :=
  match l with [] => rm_ret tt | x :: r => rm_bind (g x) (fun _ => rm_each r) end.
Fixpoint rm_fold (b : B) (l : list A) : RM B :=
  match l with [] => rm_ret b | x :: r => rm_bind (f b x) (fun b' => rm_fold b' r) end.
End Loops.
(* containersMap[name] = append(containersMap[name], c) (:86, :99) *)
Fixpoint add_to (m : list (bytes * list container)) (n : bytes) (c : container) : list (bytes * list container) :=
  match m with
  | [] => [(n, [c])]
  | (k, l) :: r => if bytes_eqb k n then (k, l ++ [c]) :: r else (k, l) :: add_to r n c
  end.
(* container_builder.go:43-59 *)
Definition build_container (content name : bytes) (o : option root) : res container :=
  match content, name with [], _ => Err | _, [] => Err | _, _ => Ok (Container content name o) end.
(* containers_builder.go:27-44, node_builder.go:36-46, nodes_builder.go:30-40; adapter.go:103-121 *)
Fixpoint build_node_list (m : list (bytes * list container)) : res (list node) :=
  match m with
  | [] => Ok []
  | (n, l) :: r =>
    match l, n with
    | [], _ => Err
    | _, [] => Err
    | _, _ => let* x := build_node_list r in Ok (Node n l :: x)
    end
  end.
Definition build_nodes (m : list (bytes * list container)) : res (list node) :=
  let* l := build_node_list m in match l with [] => Err | _ => Ok l end.
(* builder.go:43-58 *)
Definition build_root (content name : bytes) (l : list node) : res root :=
  match content, name with [], _ => Err | _, [] => Err | _, _ => Ok (Root content name l) end.
(* :133-140 toRootWithCache *)
Definition with_cache (to_root : atoken -> RM (option root)) (t : atoken) : RM (option root) := fun s =>
  match mlookup s (at_discovery t) with
  | Some r => (Ok (Some r), s)
  | None => to_root t s
  end.
(* :74-87, :91-99 the containers of one match *)
Definition add_match (to_root : atoken -> RM (option root)) (m : list (bytes * list container)) (x : amatch) : RM (list (bytes * list container)) :=
  match x with
  | AMToken n toks =>
    rm_fold (fun m t =>
      rm_bind (with_cache to_root t) (fun o s =>
      (let* c := build_container (at_discovery t) n o in Ok (add_to m n c), s))) m toks
  | AMRule n r => fun s => (let* c := build_container (disc_content (ar_disc r)) n None in Ok (add_to m n c), s)
  end.
(* :45-131 toRoot.  Token() and Rule() of a match are exclusive (match.go) *)
Fixpoint to_root_in (t : atoken) : RM (option root) :=
  match t with
  | AToken name line [] => rm_ret None
  | AToken name line ms =>
    rm_bind (rm_each (fun x => match x with AMToken _ toks => rm_each to_root_in toks | AMRule _ _ => rm_ret tt end) ms) (fun _ =>
    rm_bind (rm_fold (add_match to_root_in) [] ms) (fun m s =>
    match (let* l := build_nodes m in build_root (at_discovery t) name l) with
    | Ok r => (Ok (Some r), minsert s (at_discovery t) r)
    | Err => (Err, s)
    | Panic => (Panic, s)
    | NoFuel => (NoFuel, s)
    end))
  end.
(* :39-43 ToRoot: the cache is emptied first; an answer without root (nil, nil) is None *)
Definition to_root (t : atoken) (s : gmap root) : res (option root) * gmap root := to_root_in t [].

(* ---- Scan ---- *)
Inductive finding := FRoot (r : root) | FNode (n : node) | FContainer (c : container).
(* the outcome of a Scan: something, (nil, nil, nil, "", nil), or an error.  No Scan sets
   the content (fourth) result *)
Inductive scanned := SFound (x : finding) | SNothing | SError.
(* Nodes.Scan ranges over a Go map: any order of the nodes (nodes.go:43-66).
   Containers.Scan visits the list in order (containers.go:52-77) and
   Container.Scan skips the root's own name (container.go:36-46). *)
Inductive scan_nodes (name : bytes) : list node -> scanned -> Prop :=
| sn_order l l' o : Permutation l l' -> scan_node_list name l' o -> scan_nodes name l o
with scan_node_list (name : bytes) : list node -> scanned -> Prop :=
| snl_nil : scan_node_list name [] SError
| snl_found n l x : scan_node name n (SFound x) -> scan_node_list name (n :: l) (SFound x)
| snl_next n l o o' : scan_node name n o -> (forall x, o <> SFound x) -> scan_node_list name l o' -> scan_node_list name (n :: l) o'
with scan_node (name : bytes) : node -> scanned -> Prop :=   (* node.go:35-41 *)
| sd_here l : scan_node name (Node name l) (SFound (FNode (Node name l)))
| sd_in n l o : n <> name -> scan_containers name l o -> scan_node name (Node n l) o
with scan_containers (name : bytes) : list container -> scanned -> Prop :=
| sc_nil : scan_containers name [] SError
| sc_found c l x : scan_container name c (SFound x) -> scan_containers name (c :: l) (SFound x)
| sc_next c l o o' : scan_container name c o -> (forall x, o <> SFound x) -> scan_containers name l o' -> scan_containers name (c :: l) o'
with scan_container (name : bytes) : container -> scanned -> Prop :=
| sk_here t o : scan_container name (Container t name o) (SFound (FContainer (Container t name o)))
| sk_no_root t n : n <> name -> scan_container name (Container t n None) SNothing
| sk_root t n r o : n <> name -> scan_nodes name (ro_nodes r) o -> scan_container name (Container t n (Some r)) o.
(* root.go:38-44 *)
Inductive scan_root (name : bytes) (r : root) : scanned -> Prop :=
| sr_self : ro_name r = name -> scan_root name r (SFound (FRoot r))
| sr_in o : ro_name r <> name -> scan_nodes name (ro_nodes r) o -> scan_root name r o.
