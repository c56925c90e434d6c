(* LinkModel.v - domain/languages/lexers/references/links (builder.go, links.go).
   Links and includes are those of TextModel.v.  Definitions only. *)
From Coq Require Import Strings.String Strings.Byte.
From Verif Require Export Go DomainModel CardModel PatModel RuleModel TextModel.
Open Scope list_scope.

(* links.go:8-26: the list and the two maps *)
Record links := { ks_list : list link; ks_local : gmap link; ks_ref : gmap (gmap link) }.
(* builder.go:38-42 *)
Definition local_map (l : list link) : gmap link := fold_left (fun m x => minsert m (lk_local x) x) l [].
(* builder.go:44-53: the map of an include is made when it is first seen *)
Definition ref_step (m : gmap (gmap link)) (x : link) : gmap (gmap link) :=
  let name := in_name (lk_include x) in
  let m' := match mlookup m name with Some _ => m | None => minsert m name [] end in
  match mlookup m' name with Some i => minsert m' name (minsert i (lk_reference x) x) | None => m' end.
Definition ref_map (l : list link) : gmap (gmap link) := fold_left ref_step l [].
(* builder.go:28-56 Now; the argument is what WithLinks was last given since Create *)
Definition links_now (s : option (list link)) : res links :=
  match norm_list s with
  | None => Err
  | Some l => Ok {| ks_list := l; ks_local := local_map l; ks_ref := ref_map l |}
  end.
(* links.go:29-31 All *)
Definition links_all (k : links) : list link := ks_list k.
(* links.go:34-41 FetchByLocalToken *)
Definition fetch_by_local (k : links) (name : bytes) : res link :=
  match mlookup (ks_local k) name with Some x => Ok x | None => Err end.
(* links.go:44-56 FetchByReferenceToken *)
Definition fetch_by_reference (k : links) (include ref : bytes) : res link :=
  match mlookup (ks_ref k) include with
  | Some i => match mlookup i ref with Some x => Ok x | None => Err end
  | None => Err
  end.
