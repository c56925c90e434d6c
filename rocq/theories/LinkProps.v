(* LinkProps.v - property theorems C98: lookups in the links of a references text.
   [links_now s] is Now of the builder after WithLinks(s) ([None]: nil), [links_all],
   [fetch_by_local] and [fetch_by_reference] are All, FetchByLocalToken and
   FetchByReferenceToken.  LinkSpec.v: last_such P l x - x is the last element of l with P. *)
From Coq Require Import Strings.String Strings.Byte.
From Verif Require Import Go GoLemmas DomainModel RuleModel TextModel TextSpec LinkModel LinkSpec LinkProofs.
Open Scope list_scope.

Theorem C98_built_iff_not_empty :
  forall s,
  ((exists k, links_now s = Ok k) <-> exists x l, s = Some (x :: l)) /\ (links_now s = Err <-> s = None \/ s = Some []).
Proof. intros s. split; [apply links_built|apply links_refused]. Qed.
Print Assumptions C98_built_iff_not_empty.

Theorem C98_all_in_order :
  forall l k,
  links_now (Some l) = Ok k -> links_all k = l.
Proof. intros l k H. destruct (links_now_iff _ _ H) as (l' & [= <-] & _ & ->). reflexivity. Qed.
Print Assumptions C98_all_in_order.

Theorem C98_last_link_of_a_local_name :
  forall l k, links_now (Some l) = Ok k ->
  forall name, (forall x, fetch_by_local k name = Ok x <-> last_such (is_local name) l x) /\
  (fetch_by_local k name = Err <-> forall x, In x l -> ~ is_local name x).
Proof. intros l k H name. split; [intros x; exact (local_exact l k x H name)|exact (local_fails l k name H)]. Qed.
Print Assumptions C98_last_link_of_a_local_name.

Theorem C98_last_link_of_a_reference :
  forall l k, links_now (Some l) = Ok k ->
  forall include ref, (forall x, fetch_by_reference k include ref = Ok x <-> last_such (is_reference include ref) l x) /\
  (fetch_by_reference k include ref = Err <-> forall x, In x l -> ~ is_reference include ref x).
Proof. intros l k H i r. split; [intros x; exact (reference_exact l k x H i r)|exact (reference_fails l k i r H)]. Qed.
Print Assumptions C98_last_link_of_a_reference.

(* the links and the replacements of a text are such collections *)
Theorem C98_links_of_a_text :
  forall text r o l,
  to_references text = Ok r -> o = rf_references r \/ o = rf_replacements r -> o = Some l -> exists k, links_now o = Ok k /\ links_all k = l.
Proof. exact @links_of_text. Qed.
Print Assumptions C98_links_of_a_text.

Definition ex_links (l : list link) : links := {| ks_list := l; ks_local := local_map l; ks_ref := ref_map l |}.
Definition ex_include (n : string) : include := {| in_name := bs n; in_paths := {| rp_rules := bs "a"; rp_tokens := bs "b"; rp_channels := [] |} |}.
Definition ex_link (l i r : string) : link := {| lk_local := bs l; lk_reference := bs r; lk_include := ex_include i |}.
Definition ex_text : bytes := bs "include m ""a;b"" include k ""a;b"" reference add m.sum reference plus m.sum reference add k.sum ".
Example C98_example :
  exists r l k, to_references ex_text = Ok r /\ rf_references r = Some l /\ links_now (Some l) = Ok k /\
    links_all k = [ex_link "add" "m" "sum"; ex_link "plus" "m" "sum"; ex_link "add" "k" "sum"] /\
    fetch_by_local k (bs "add") = Ok (ex_link "add" "k" "sum") /\ fetch_by_local k (bs "sum") = Err /\
    fetch_by_reference k (bs "m") (bs "sum") = Ok (ex_link "plus" "m" "sum") /\ fetch_by_reference k (bs "k") (bs "add") = Err.
Proof. eexists _, _, _. split; [vm_compute; reflexivity|]. split; [reflexivity|]. split; [reflexivity|]. repeat split; vm_compute; reflexivity. Qed.
(* A user expects every link to be found again by its local name and by its reference.
   The earlier of two links with the same names is only in All. *)
Theorem C98_every_link_is_found_refuted :
  exists l k x, links_now (Some l) = Ok k /\ In x l /\ (forall n, fetch_by_local k n <> Ok x) /\ (exists i r, is_reference i r x /\ fetch_by_reference k i r <> Ok x).
Proof.
  exists [ex_link "add" "m" "sum"; ex_link "plus" "m" "sum"; ex_link "add" "k" "sum"]. eexists. exists (ex_link "add" "m" "sum"). split; [reflexivity|]. split; [left; reflexivity|]. split.
  - intros n H. assert (E := H). apply (proj1 (C98_last_link_of_a_local_name [ex_link "add" "m" "sum"; ex_link "plus" "m" "sum"; ex_link "add" "k" "sum"] _ eq_refl n)) in E.
    assert (X : n = bs "add") by (destruct E as (? & ? & _ & X & _); symmetry; exact X). subst n. vm_compute in H. discriminate.
  - exists (bs "m"), (bs "sum"). split; [split; reflexivity|]. vm_compute. discriminate.
Qed.
Print Assumptions C98_every_link_is_found_refuted.
