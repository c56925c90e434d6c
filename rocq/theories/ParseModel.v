(* ParseModel.v - applications/languages/parsers: the event manager.  Definitions only.
   Simplification: an event function is a relation between the root it is given and its
   possible outcomes, since it may call the manager back and Scan depends on Go's map
   iteration (RootModel.v); events have no other state.  log.Printf is not modelled. *)
From Coq Require Import Strings.String Strings.Byte.
From Verif Require Export Go RootModel.
Open Scope list_scope.

(* interface{}: nil, a string, a Result with its list (result.go), a list, or any other
   value, of a type O that depends on the events *)
Inductive value (O : Type) := VNil | VText (w : bytes) | VResult (l : list (value O)) | VList (l : list (value O)) | VObj (o : O).
Arguments VNil {O}. Arguments VText {O} w. Arguments VResult {O} l. Arguments VList {O} l. Arguments VObj {O} o.
Section Events.
Variable O : Type.
Notation value := (value O).
(* sdk.go:8 EventFunc *)
Definition event : Type := root -> res value -> Prop.
(* map[string][]EventFunc *)
Definition events : Type := gmap (list event).

(* result.go:29-31 IsSingle, :19-21 First, :24-26 List; manager.go:108-114: (list, ins); a nil
   list is None *)
Definition unwrap (v : value) : option (list value) * value :=
  match v with
  | VResult l => if length l <=? 1 then (None, nth 0 l VNil) else (Some l, VNil)
  | _ => (None, v)
  end.
(* manager.go:98-126 executeEvents: the loop *)
Inductive event_loop (r : root) : list event -> res (option (list value) * value) -> Prop :=
| el_none : event_loop r [] Err
| el_ok (e : event) l v : e r (Ok v) -> event_loop r (e :: l) (Ok (unwrap v))
| el_fail (e : event) l o : e r Err -> event_loop r l o -> event_loop r (e :: l) o
| el_panic (e : event) l : e r Panic -> event_loop r (e :: l) Panic.
Inductive execute_events (evs : events) (name : bytes) (r : root) : res (option (list value) * value) -> Prop :=
| ee_found l o : mlookup evs name = Some l -> event_loop r l o -> execute_events evs name r o
| ee_absent : mlookup evs name = None -> execute_events evs name r Err.
(* result_builder.go:36-52 Now; an element that is nil was not given *)
Definition build_result (list : option (list value)) (ins : value) : res value :=
  let list := match ins with VNil => list | _ => Some [ins] end in
  match list with None => Err | Some [] => Err | Some l => Ok (VResult l) end.
(* manager.go:28-45 Execute *)
Inductive execute (evs : events) (r : root) : res value -> Prop :=
| ex_outcome o : execute_events evs (ro_name r) r o -> execute evs r (let* x := o in build_result (fst x) (snd x)).

(* manager.go:150-157 fetchContentOrExecuteEvent *)
Inductive fetch_or_execute (evs : events) (name : bytes) (c : container) : res (option (list value) * value) -> Prop :=
| fe_text : co_root c = None -> fetch_or_execute evs name c (Ok (None, VText (co_content c)))
| fe_root r o : co_root c = Some r -> execute_events evs name r o -> fetch_or_execute evs name c o.
(* manager.go:128-148 executeEventList *)
Inductive event_list (evs : events) (name : bytes) : list container -> res (list value) -> Prop :=
| el_nil : event_list evs name [] (Ok [])
| el_value c cs list ins o : fetch_or_execute evs name c (Ok (list, ins)) -> event_list evs name cs o ->
    event_list evs name (c :: cs) (let* l := o in Ok (match list with Some x => VList x | None => ins end :: l))
| el_err c cs : fetch_or_execute evs name c Err -> event_list evs name (c :: cs) Err
| el_pan c cs : fetch_or_execute evs name c Panic -> event_list evs name (c :: cs) Panic.
(* manager.go:47-96 Trigger; input.Nodes().Scan(name) *)
Inductive trigger (evs : events) (name : bytes) (input : root) : res value -> Prop :=
| tr_error : scan_nodes name (ro_nodes input) SError -> trigger evs name input Err
| tr_nothing : scan_nodes name (ro_nodes input) SNothing -> trigger evs name input (build_result None VNil)
| tr_root r o : scan_nodes name (ro_nodes input) (SFound (FRoot r)) -> execute_events evs name r o ->
    trigger evs name input (let* x := o in build_result (fst x) (snd x))
| tr_node n o : scan_nodes name (ro_nodes input) (SFound (FNode n)) -> event_list evs name (no_list n) o ->
    trigger evs name input (let* l := o in build_result (Some l) VNil)
| tr_container c o : scan_nodes name (ro_nodes input) (SFound (FContainer c)) -> fetch_or_execute evs name c o ->
    trigger evs name input (let* x := o in build_result (fst x) (snd x)).
(* application.go:21-34 Execute; manager_builder.go:33-43: there must be events *)
Inductive app_execute (evs : events) (r : root) : res value -> Prop :=
| ae_none : evs = [] -> app_execute evs r Err
| ae_some o : evs <> [] -> execute evs r o -> app_execute evs r (let* v := o in Ok (match v with VResult l => nth 0 l VNil | _ => VNil end)).
End Events.
Arguments unwrap {O}. Arguments event_loop {O}. Arguments execute_events {O}. Arguments build_result {O}. Arguments execute {O}.
Arguments fetch_or_execute {O}. Arguments event_list {O}. Arguments trigger {O}. Arguments app_execute {O}.
Arguments el_none {O}.
Arguments el_ok {O}.
Arguments el_fail {O}.
Arguments el_panic {O}.
Arguments ee_found {O}.
Arguments ee_absent {O}.
Arguments ex_outcome {O}.
Arguments fe_text {O}.
Arguments fe_root {O}.
Arguments el_nil {O}.
Arguments el_value {O}.
Arguments el_err {O}.
Arguments el_pan {O}.
Arguments tr_error {O}.
Arguments tr_nothing {O}.
Arguments tr_root {O}.
Arguments tr_node {O}.
Arguments tr_container {O}.
Arguments ae_none {O}.
Arguments ae_some {O}.
