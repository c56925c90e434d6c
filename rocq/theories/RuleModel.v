(* RuleModel.v - domain/languages/lexers/containers/rules (rules and their table),
   the tables of containers/tokens and containers/patterns, and
   asts/results/adapter.go (evaluation of a rule).  Definitions only.
   The text grammar of rules (containers/rules/adapter.go) is in TextModel.v. *)
From Coq Require Import Strings.String Strings.Byte.
From Verif Require Export Go DomainModel CardModel PatModel.
Open Scope list_scope.

(* ---- containers/rules ---- *)
(* content.go, content_builder.go:35-41: an element has a pattern or a constant;
   the empty constant counts as none (content.go:33-35).
   pattern.go: sub patterns and cardinality *)
Inductive rule_content := RConstant (c : bytes) | RPattern (ps : list pattern) (card : cardinality).
(* rule.go, element.go: rule and element codes, the element's content *)
Record rule := { rl_name : bytes; rl_code : bytes; rl_content : rule_content }.

(* what the builders let exist: rule_builder.go:45-59, element_builder.go:37-47,
   pattern_builder.go:42-52, patterns/builder.go:29-45 *)
Definition rule_content_ok (c : rule_content) : bool :=
  match c with RConstant _ => true | RPattern ps _ => non_empty ps && forallb pattern_ok ps end.
Definition rule_ok (r : rule) : bool := non_empty (rl_name r) && non_empty (rl_code r) && rule_content_ok (rl_content r).

(* ---- Go maps keyed by string ---- *)
Definition gmap (V : Type) : Type := list (bytes * V).
Fixpoint mlookup {V} (m : gmap V) (k : bytes) : option V :=
  match m with [] => None | (k', v) :: r => if bytes_eqb k' k then Some v else mlookup r k end.
Definition minsert {V} (m : gmap V) (k : bytes) (v : V) : gmap V := (k, v) :: m.
Definition mdelete {V} (m : gmap V) (k : bytes) : gmap V := filter (fun e => negb (bytes_eqb (fst e) k)) m.

(* a built table: its list and its map by name *)
Definition table (A : Type) : Type := list A * gmap A.
(* rules/builder.go:30-52 and tokens/builder.go:32-52 Now: duplicates are refused *)
Fixpoint fill_unique {A} (name : A -> bytes) (l : list A) (m : gmap A) : res (gmap A) :=
  match l with
  | [] => Ok m
  | x :: r => match mlookup m (name x) with Some _ => Err | None => fill_unique name r (minsert m (name x) x) end
  end.
Definition unique_table_now {A} (name : A -> bytes) (s : option (list A)) : res (table A) :=
  match norm_list s with
  | None => Err
  | Some l => let* m := fill_unique name l [] in Ok (l, m)
  end.
(* patterns/builder.go:29-45, patterns/groups_builder.go:29-45,
   tokens/tokenspecifiers_builder.go:29-45 Now: the last of a name wins *)
Definition last_table_now {A} (name : A -> bytes) (s : option (list A)) : res (table A) :=
  match norm_list s with
  | None => Err
  | Some l => Ok (l, fold_left (fun m x => minsert m (name x) x) l [])
  end.
(* rules.go:31-38, tokens.go:31-38, patterns.go:36-43, groups.go:31-38 Find *)
Definition table_find {A} (t : table A) (name : bytes) : res A :=
  match mlookup (snd t) name with Some x => Ok x | None => Err end.
(* All *)
Definition table_all {A} (t : table A) : list A := fst t.

(* ---- asts/results ---- *)
(* result.go:5-8, matches.go; no matches is None *)
Record rresult := { rr_input : rule; rr_matches : option (list presult) }.
(* matches.go:24-31, result.go:41-47 Content *)
Definition rr_content (r : rresult) : bytes :=
  match rr_matches r with Some l => join [] (map (fun p => disc_content (r_disc p)) l) | None => [] end.
(* matches.go:34-36, result.go:50-56 Amount *)
Definition rr_amount (r : rresult) : nat := match rr_matches r with Some l => length l | None => 0 end.

(* adapter.go:59-81, the loop; fuel bounds the iterations *)
Fixpoint pattern_rule_loop (fuel : nat) (ps : list pattern) (pmax : option N) (acc : list presult) (remaining : bytes) : res (list presult) :=
  match fuel with
  | O => NoFuel
  | S n =>
    match remaining with
    | [] => Ok acc
    | _ =>
      if match pmax with Some m => (to_int64 m <=? Z.of_nat (length acc))%Z | None => false end then Ok acc
      else
        match from_patterns_to_result ps remaining with
        | Err => Ok acc
        | Panic => Panic
        | NoFuel => NoFuel
        | Ok result =>
          let* i := disc_index (r_disc result) in
          if 0 <? i then Ok acc
          else
            let amount := disc_amount (r_disc result) in
            if length remaining <? amount then Panic (* remaining[amount:] out of range *)
            else pattern_rule_loop n ps pmax (acc ++ [result]) (skipn amount remaining)
        end
    end
  end.
(* adapter.go:29-90 ToResult.  The shared group builder (:34-36) is given both its
   values, so no state is carried over. *)
Definition to_result (input : rule) (script : bytes) : res rresult :=
  match rl_content input with
  | RConstant [] => Ok {| rr_input := input; rr_matches := None |}
  | RConstant c =>
    match from_group_to_result {| g_name := c; g_list := [c] |} script with
    | Ok ins => Ok {| rr_input := input; rr_matches := Some [ins] |}
    | Err => Ok {| rr_input := input; rr_matches := None |}
    | Panic => Panic
    | NoFuel => NoFuel
    end
  | RPattern ps card =>
    let '(_, pmax) := delimiter card in
    let* l := pattern_rule_loop (S (length script)) ps pmax [] script in
    Ok {| rr_input := input; rr_matches := match l with [] => None | _ => Some l end |}
  end.
