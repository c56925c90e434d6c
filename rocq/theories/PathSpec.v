(* PathSpec.v - what the element tree of a token is. *)
From Coq Require Import Strings.String Strings.Byte.
From Verif Require Import Go DomainModel DomainSpec CardModel PatModel RuleModel PathModel.

(* the elements of a line, without the channel switches; a line with at most one *)
Definition elements (l : tline) : list telem := concat (map (fun i => match i with TElem e => [e] | TSwitch => [] end) l).
Definition lonely (l : tline) : Prop := length (elements l) <= 1.
(* all lines of a token *)
Definition all_lines (t : token) : list tline := t_must t ++ match t_not t with Some l => l | None => [] end.
(* no cardinality means exactly one *)
Definition card_is (e : telem) (c : cardinality) : Prop := te_card e = Some c \/ (te_card e = None /\ c = CMandatory).
Definition specs_are (r : tref) (l : list pspec) : Prop :=
  map (fun s => (sp_name s, sp_card s)) l =
  match tr_specs r with Some x => map (fun s => (ts_name s, ts_card s)) x | None => [] end.

Section Unfold.
Variable declared : list token.
Variable not_found replace : bytes -> option (element * list element).

(* the tree of a token: references are replaced by the referenced token's tree,
   except references to a token being unfolded (the list of names), which stay
   references.  The last component collects the elements brought in by the two
   functions. *)
Inductive unfolds : list bytes -> token -> element -> list element -> Prop :=
| unf_must s t must ext : t_not t = None -> lines_unfold s (t_name t) (t_must t) must ext ->
    unfolds s t (Element (t_name t) must None) ext
| unf_not s t ls must not ext ext' : t_not t = Some ls -> lines_unfold s (t_name t) (t_must t) must ext ->
    lines_unfold s (t_name t) ls not ext' -> unfolds s t (Element (t_name t) must (Some not)) (ext ++ ext')
with lines_unfold : list bytes -> bytes -> list tline -> list line -> list element -> Prop :=
| lu_nil s p : lines_unfold s p [] [] []
| lu_cons s p l x ext ls xs ext' : instrs_unfold s p (lonely l) l x ext -> lines_unfold s p ls xs ext' ->
    lines_unfold s p (l :: ls) (x :: xs) (ext ++ ext')
with instrs_unfold : list bytes -> bytes -> Prop -> list tinstr -> list instr -> list element -> Prop :=
| iu_nil s p alone : instrs_unfold s p alone [] [] []
| iu_switch s p alone l x ext : instrs_unfold s p alone l x ext -> instrs_unfold s p alone (TSwitch :: l) (ISwitch :: x) ext
| iu_elem s p alone e c ext l x ext' : elem_unfolds s p alone e c ext -> instrs_unfold s p alone l x ext' ->
    instrs_unfold s p alone (TElem e :: l) (ICont c :: x) (ext ++ ext')
with elem_unfolds : list bytes -> bytes -> Prop -> telem -> pcontainer -> list element -> Prop :=
| eu_rule s p alone e r c : te_content e = TRule r -> card_is e c -> elem_unfolds s p alone e (PRule r c) []
| eu_back s p alone e r specs c : te_content e = TRef r -> card_is e c -> specs_are r specs -> In (tr_name r) s ->
    ~ (p = tr_name r /\ alone) -> elem_unfolds s p alone e (PRec (tr_name r) specs c) []
| eu_replaced s p alone e r specs c el ext : te_content e = TRef r -> card_is e c -> specs_are r specs -> ~ In (tr_name r) s ->
    replace (tr_name r) = Some (el, ext) -> elem_unfolds s p alone e (PToken el specs c) ext
| eu_declared s p alone e r specs c t el ext : te_content e = TRef r -> card_is e c -> specs_are r specs -> ~ In (tr_name r) s ->
    replace (tr_name r) = None -> In t declared -> t_name t = tr_name r -> unfolds (tr_name r :: s) t el ext ->
    elem_unfolds s p alone e (PToken el specs c) ext
| eu_foreign s p alone e r specs c el ext : te_content e = TRef r -> card_is e c -> specs_are r specs -> ~ In (tr_name r) s ->
    replace (tr_name r) = None -> (forall t, In t declared -> t_name t <> tr_name r) -> not_found (tr_name r) = Some (el, ext) ->
    elem_unfolds s p alone e (PToken el specs c) ext.
End Unfold.

(* a container of the tree of an element, with the names of the elements between it
   and the root (innermost first, root excluded) *)
Definition in_lines (ls : list line) (c : pcontainer) : Prop := exists l, In l ls /\ In (ICont c) l.
Definition directly (e : element) (c : pcontainer) : Prop :=
  in_lines (el_must e) c \/ exists ls, el_not e = Some ls /\ in_lines ls c.
Inductive below : element -> list bytes -> pcontainer -> Prop :=
| below_here e c : directly e c -> below e [] c
| below_deeper e e' specs card names c : directly e (PToken e' specs card) -> below e' names c ->
    below e (names ++ [el_name e']) c.

(* a token refers to a name / by a line made of nothing else *)
Definition refers (t : token) (n : bytes) : Prop :=
  exists l e r, In l (all_lines t) /\ In (TElem e) l /\ te_content e = TRef r /\ tr_name r = n.
Definition refers_alone (t : token) (n : bytes) : Prop :=
  exists l e r, In l (all_lines t) /\ In (TElem e) l /\ te_content e = TRef r /\ tr_name r = n /\ lonely l.
Definition is_declared (declared : list token) (n : bytes) : Prop := exists t, In t declared /\ t_name t = n.

(* a table of tokens the builders let exist *)
Definition good_table (T : table token) : Prop :=
  (exists ops, unique_table_now t_name (run list_step None ops) = Ok T) /\ Forall (fun t => token_ok t = true) (table_all T).
Definition none : bytes -> option (element * list element) := fun _ => None.
(* the adapter after any sequence of ToPath calls *)
Definition after_calls T nf rp (ts : list token) : pstate := fold_left (fun st t => snd (to_path T nf rp st t)) ts pstate_init.
