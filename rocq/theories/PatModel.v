(* PatModel.v - domain/languages/lexers/containers/patterns: groups, series,
   choices, patterns and their matching against a text.  Definitions only.
   Offsets and amounts (uint) are nat: they never exceed the text length.
   ToPatterns (adapter.go:361-513) is in TextModel.v. *)
From Coq Require Import Strings.String Strings.Byte.
From Verif Require Export Go DomainModel.
Open Scope list_scope.

(* group.go, groupcontent.go:5-22 *)
Record group := { g_name : bytes; g_list : list bytes }.
(* serie.go, seriecontent.go *)
Record serie := { s_name : bytes; s_list : list group }.
(* choice.go *)
Record choice := { ch_serie : serie; ch_reverse : bool }.
(* pattern.go, patterncontent.go *)
Record pattern := { p_name : bytes; p_list : list choice }.
(* container.go:3-30: exactly one of the two is set by the constructors used *)
Inductive container := CReverse (s : serie) | CGroup (g : group).
(* discovery.go *)
Record discovery := { d_index : nat; d_content : bytes; d_container : container }.
(* next.go *)
Record next := { n_reverse : bool; n_group : group }.
(* result.go:3-8; remaining "" is []; Discoveries is its list, see the functions below *)
Record presult := { r_input : bytes; r_disc : list discovery; r_rem : bytes; r_next : option next }.

(* container.go:33-39 Name *)
Definition container_name (c : container) : bytes :=
  match c with CReverse s => s_name s | CGroup g => g_name g end.

(* ---- discoveries.go ---- *)
(* :27-29 Index: list[0], the list is never empty once built *)
Definition disc_index (l : list discovery) : res nat :=
  match l with d :: _ => Ok (d_index d) | [] => Panic end.
(* :32-39 Content *)
Definition disc_content (l : list discovery) : bytes := join [] (map d_content l).
(* discoveries_builder.go:38-43: map by container name, the last one wins;
   discoveries.go:42-49 Find *)
Definition disc_find (l : list discovery) (name : bytes) : option discovery :=
  find (fun d => bytes_eqb (container_name (d_container d)) name) (rev l).
(* :57-60 Amount *)
Definition disc_amount (l : list discovery) : nat := length (disc_content l).
(* :63-65 IsAmount *)
Definition disc_is_amount (l : list discovery) (n : nat) : bool := disc_amount l =? n.
(* :74-77 IsAtLeast *)
Definition disc_is_at_least (l : list discovery) (n : nat) : bool := n <=? disc_amount l.
(* :68-71 IsInRange: the upper bound is compared with the number of discoveries
   (int(max) of a uint below 2^63) *)
Definition disc_is_in_range (l : list discovery) (min max : nat) : bool :=
  disc_is_at_least l min && (length l <=? max).

(* ---- groupcontent.go:35-47 Contains ---- *)
Definition contains (g : group) (content : bytes) : nat :=
  fold_left (fun longest e => if has_prefix e content
                              then if longest <=? length e then length e else longest
                              else longest) (g_list g) 0.

(* ---- adapter.go:333-359 matchesGroup ---- *)
(* :339-358, the loop on [remaining] *)
Fixpoint reverse_amount (g : group) (remaining : bytes) : nat :=
  match remaining with
  | [] => 0
  | _ :: r => if contains g remaining =? 0 then S (reverse_amount g r) else 0
  end.
Definition matches_group (g : group) (content : bytes) (is_reverse : bool) : nat :=
  if is_reverse then reverse_amount g content else contains g content.

(* discovery_builder.go:45-59 Now, with index and container set *)
Definition new_discovery (index : nat) (content : bytes) (c : container) : res discovery :=
  match content with [] => Err | _ => Ok {| d_index := index; d_content := content; d_container := c |} end.

(* ---- adapter.go:270-304 matchSerie ---- *)
(* (isMatch, discoveries, next group, remaining).  The container builder
   (:288-291) cannot fail with a group set; if the discovery builder failed
   (:295-297, never: amount > 0) the answer is (false, nil, nil, "").  *)
Definition match_out : Type := bool * list discovery * option group * bytes.
Fixpoint match_serie_loop (groups : list group) (index : nat) (acc : list discovery) (remaining : bytes) : match_out :=
  match groups with
  | [] => (true, acc, None, remaining)
  | g :: gs =>
    match remaining with
    | [] => (false, acc, Some g, [])
    | _ =>
      let amount := matches_group g remaining false in
      if amount <=? 0 then (false, acc, Some g, remaining)
      else
        match new_discovery index (firstn amount remaining) (CGroup g) with
        | Ok d => match_serie_loop gs index (acc ++ [d]) (skipn amount remaining)
        | _ => (false, [], None, [])
        end
    end
  end.
Definition match_serie (s : serie) (content : bytes) (index : nat) : res match_out :=
  Ok (match_serie_loop (s_list s) index [] content).

(* ---- adapter.go:306-331 matchReversedSerie: groups[0] only ---- *)
Definition match_reversed_serie (s : serie) (content : bytes) (index : nat) : res match_out :=
  match s_list s with
  | [] => Panic
  | g :: _ =>
    let amount := matches_group g content true in
    if amount <=? 0 then Ok (false, [], None, [])
    else
      let* d := new_discovery index (firstn amount content) (CReverse s) in
      Ok (true, [d], Some g, skipn amount content)
  end.

(* ---- adapter.go:261-268 matchChoice ---- *)
Definition match_choice (c : choice) (content : bytes) (index : nat) : res match_out :=
  if ch_reverse c then match_reversed_serie (ch_serie c) content index
  else match_serie (ch_serie c) content index.

(* ---- adapter.go:196-259 matchPattern ---- *)
(* the loop :201-233 from position [idx]: (discoveries, next, remaining) *)
Fixpoint match_choices (choices : list choice) (idx : nat) (next_index : nat)
    (acc : list discovery) (remaining : bytes) : res (list discovery * option next * bytes) :=
  match choices with
  | [] => Ok (acc, None, remaining)
  | c :: cs =>
    let current := if idx <=? 0 then next_index else 0 in
    let* out := match_choice c remaining current in
    let '(is_match, ds, next_group, remaining') := out in
    match is_match, next_group with
    | false, Some g => Ok (acc, Some {| n_reverse := ch_reverse c; n_group := g |}, remaining')
    | false, None => Ok (acc, None, remaining')
    | true, _ => match_choices cs (S idx) next_index (acc ++ ds) remaining'
    end
  end.
(* result_builder.go:53-75 Now with input and discoveries set *)
Definition new_presult (input : bytes) (ds : list discovery) (rem : bytes) (nx : option next) : res presult :=
  match input with
  | [] => Err
  | _ => Ok {| r_input := input; r_disc := ds; r_rem := rem; r_next := nx |}
  end.
(* adapter.go:196-259 matchPattern, its end; None is the nil result *)
Definition match_pattern (p : pattern) (content : bytes) (next_index : nat) : res (option presult) :=
  let* out := match_choices (p_list p) 0 next_index [] content in
  let '(ds, nx, rem) := out in
  match ds with
  | [] => Ok None
  | _ => let* r := new_presult content ds rem nx in Ok (Some r)
  end.

(* ---- adapter.go:151-168 FromPatternToResult ---- *)
(* :151-168, the loop from offset i; [rest] is content[i:] *)
Fixpoint from_pattern_loop (p : pattern) (rest : bytes) (i : nat) : res presult :=
  match rest with
  | [] => Err
  | _ :: r =>
    let* o := match_pattern p rest i in
    match o with Some x => Ok x | None => from_pattern_loop p r (S i) end
  end.
(* :151-168 *)
Definition from_pattern_to_result (p : pattern) (content : bytes) : res presult :=
  from_pattern_loop p content 0.

(* ---- adapter.go:171-194 FromPatternsToResult ---- *)
(* :171-194, the loop; index starts at the largest int, above every offset: None *)
Fixpoint from_patterns_loop (ps : list pattern) (content : bytes) (best : option (nat * presult)) : res (option presult) :=
  match ps with
  | [] => Ok (option_map snd best)
  | p :: r =>
    match from_pattern_to_result p content with
    | Ok ins =>
      let* i := disc_index (r_disc ins) in
      match best with
      | Some (b, _) => if i <? b then from_patterns_loop r content (Some (i, ins)) else from_patterns_loop r content best
      | None => from_patterns_loop r content (Some (i, ins))
      end
    | Err => from_patterns_loop r content best
    | Panic => Panic
    | NoFuel => NoFuel
    end
  end.
(* :171-194 *)
Definition from_patterns_to_result (ps : list pattern) (content : bytes) : res presult :=
  let* o := from_patterns_loop ps content None in
  match o with Some r => Ok r | None => Err end.

(* ---- adapter.go:103-148 FromGroupToResult ---- *)
Fixpoint from_group_loop (g : group) (content : bytes) (rest : bytes) (i : nat) : res presult :=
  match rest with
  | [] => Err
  | _ :: r =>
    let m := matches_group g rest false in
    if m =? 0 then from_group_loop g content r (S i)
    else
      let* d := new_discovery i (firstn m (skipn i content)) (CGroup g) in
      new_presult content [d] (if m <? length content then skipn m content else []) None
  end.
Definition from_group_to_result (g : group) (content : bytes) : res presult :=
  from_group_loop g content content 0.

(* ---- what the builders let exist ---- *)
(* group_builder.go:37-52, serie_builder.go:37-52, pattern_builder.go:37-52,
   choice_builder.go:37-43: a name and at least one element *)
Definition non_empty {A} (l : list A) : bool := match l with [] => false | _ => true end.
Definition group_ok (g : group) : bool := non_empty (g_name g) && non_empty (g_list g).
Definition serie_ok (s : serie) : bool := non_empty (s_name s) && non_empty (s_list s) && forallb group_ok (s_list s).
Definition pattern_ok (p : pattern) : bool :=
  non_empty (p_name p) && non_empty (p_list p) && forallb (fun c => serie_ok (ch_serie c)) (p_list p).
