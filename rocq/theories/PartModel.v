(* PartModel.v - domain/languages/lexers/roots: the five builders and the lookups by name,
   for objects built by hand as well as for those of the adapter.  Definitions only.
   As in BuildModel.v a builder is the tuple of its fields, its methods are the steps of
   BaseModel.v and Now is below; the parts of an object are of any type, so that the names
   under which they are put need not be their own.
   SIMPLIFICATION: a Go map is the list of its keys and values, each key once. *)
From Coq Require Import Strings.String Strings.Byte.
From Verif Require Export Go BaseModel RuleModel RootModel BuildModel.
Open Scope list_scope.

(* container.go:3-34; "" is no content or name *)
Inductive x_container (R : Type) := MkContainer (content name : bytes) (root : option R).
Arguments MkContainer {R}.
(* container_builder.go: create 11-19, With.. 27-42, Now 45-59 *)
Definition container_now {R : Type} (b : bytes * bytes * option R) : res (x_container R) :=
  let '(content, name, root) := b in
  match content with [] => Err | _ => match name with [] => Err | _ => Ok (MkContainer content name root) end end.
(* containers.go:9-23: the list and the map *)
Inductive x_containers (C : Type) := MkContainers (list : list C) (mp : gmap C).
Arguments MkContainers {C}.
Section Containers.
Context {C : Type} (name content : C -> bytes).
(* containers_builder.go: create 9-15, With.. 23-26, Now 29-45; mp[name] = oneContainer *)
Fixpoint by_name (l : list C) (m : gmap C) : gmap C := match l with [] => m | c :: r => by_name r (minsert m (name c) c) end.
Definition containers_now (b : option (list C)) : res (x_containers C) :=
  match no_empty b with None => Err | Some l => Ok (MkContainers l (by_name l [])) end.
(* containers.go:26-33 Content *)
Definition containers_content (x : x_containers C) : bytes := match x with MkContainers l _ => join [] (map content l) end.
(* containers.go:36-38 List *)
Definition containers_list (x : x_containers C) : list C := match x with MkContainers l _ => l end.
(* containers.go:41-49 Fetch *)
Definition containers_fetch (x : x_containers C) (n : bytes) : res C :=
  match x with MkContainers _ m => match mlookup m n with Some c => Ok c | None => Err end end.
End Containers.
(* node.go:3-33 *)
Inductive x_node (T : Type) := MkNode (name : bytes) (containers : T).
Arguments MkNode {T}.
(* node_builder.go: create 10-17, With.. 25-34, Now 37-47 *)
Definition node_now {T : Type} (b : bytes * option T) : res (x_node T) :=
  let '(name, containers) := b in
  match name with [] => Err | _ => match containers with None => Err | Some c => Ok (MkNode name c) end end.
(* nodes.go:8-20 *)
Inductive x_nodes (T : Type) := MkNodes (list : list (bytes * T)).
Arguments MkNodes {T}.
(* nodes_builder.go: create 11-17, With.. 25-28, Now 31-41 *)
Definition nodes_now {T : Type} (b : option (list (bytes * T))) : res (x_nodes T) :=
  match no_empty b with None => Err | Some l => Ok (MkNodes l) end.
(* nodes.go:22-25 All *)
Definition nodes_all {T} (x : x_nodes T) : list (bytes * T) := match x with MkNodes l => l end.
(* nodes.go:27-30 Amount *)
Definition nodes_amount {T} (x : x_nodes T) : N := N.of_nat (length (nodes_all x)).
(* nodes.go:32-40 Fetch *)
Definition nodes_fetch {T} (x : x_nodes T) (n : bytes) : res T := match mlookup (nodes_all x) n with Some y => Ok y | None => Err end.
(* nodes.go:71-78 Exists *)
Definition nodes_exists {T} (x : x_nodes T) (n : bytes) : bool := match mlookup (nodes_all x) n with Some _ => true | None => false end.
(* root.go:3-37 *)
Inductive x_root (T : Type) := MkRoot (content name : bytes) (nodes : T).
Arguments MkRoot {T}.
(* builder.go: create 11-19, With.. 27-42, Now 45-59 *)
Definition root_now {T : Type} (b : bytes * bytes * option T) : res (x_root T) :=
  let '(content, name, nodes) := b in
  match content with [] => Err | _ => match name with [] => Err | _ => match nodes with None => Err | Some l => Ok (MkRoot content name l) end end end.

(* the parts of a root that the adapter made (adapter.go:103-121): the map of the nodes is
   keyed by their names, the containers of a node went through containers_builder.go *)
Definition root_nodes (r : root) : x_nodes node := MkNodes (map (fun x => (no_name x, x)) (ro_nodes r)).
Definition node_containers (x : node) : x_containers container := MkContainers (no_list x) (by_name co_name (no_list x) []).
