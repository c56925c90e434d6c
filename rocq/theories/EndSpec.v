(* EndSpec.v - grammars on which lexing ends although they are left recursive. *)
From Coq Require Import Strings.String Strings.Byte Sorting.Permutation.
From Verif Require Import Go DomainModel CardModel PatModel RuleModel PathModel PathSpec LexModel LexSpec OrdSpec.
Open Scope list_scope.

(* The lexer notes, for every recursive reference it enters, the text it entered it with;
   a reference reached again with the noted text is left at once, and the note removed.  So
   a left recursion ends if nothing in between can change the note: below, [A] are the names
   whose note is known to be the current text. *)
Definition absent_b (c : pcontainer) : bool := match card_of c with Some k => is_valid k 0 | None => false end.
Definition listed (n : bytes) (A : list bytes) : bool := existsb (bytes_eqb n) A.
(* the elements below which nothing refers recursively, by name: no note changes there *)
Definition quiet (still : list bytes) (c : pcontainer) : bool :=
  match c with PRule _ _ => true | PToken e _ _ => listed (el_name e) still | _ => false end.
(* the line starts with rules *)
Fixpoint rules_first (l : line) : bool :=
  match l with
  | [] => true
  | ISwitch :: r => rules_first r
  | ICont c :: r => match c with PRule _ _ => if absent_b c then rules_first r else true | _ => false end
  end.
Section Deps.
Variable lookup : bytes -> option element.
Variable still : list bytes.
Variable depth : nat.
Definition line_quiet (l : line) : bool := forallb (fun i => match i with ICont c => quiet still c | ISwitch => true end) l.
Section Lines.
Variable ok : list bytes -> pcontainer -> bool.
(* what can be reached at the start of the line, with the notes that are left; behind a
   switch of the channels only rules *)
Fixpoint line_ok (A : list bytes) (l : line) : bool :=
  match l with
  | [] => true
  | ISwitch :: r => rules_first r
  | ICont c :: r => if ok A c then (if absent_b c then line_ok (if quiet still c then A else []) r else true) else false
  end.
Fixpoint lines_ok (A : list bytes) (ls : list line) : bool :=
  match ls with
  | [] => true
  | l :: r => if line_ok A l then lines_ok (if line_quiet l then A else []) r else false
  end.
End Lines.
(* no channel stands in front of the text: at most n references are entered without reading *)
Fixpoint guarded (n : nat) (A : list bytes) (c : pcontainer) : bool :=
  match c with
  | PRule _ _ => true
  | PToken e _ _ => match n with O => false | S m => lines_ok (guarded m) A (el_must e) end
  | PRec x _ _ => if listed x A then true else match n with O => false | S m => match lookup x with Some e => lines_ok (guarded m) (x :: A) (el_must e) | None => true end end
  | PLines _ => false
  end.
(* a channel stands in front of the text: the text behind it comes first, and the text itself
   is only looked at when that gave nothing *)
Fixpoint start_ok (ok : pcontainer -> bool) (l : line) : bool :=
  match l with
  | [] => true
  | ISwitch :: r => rules_first r
  | ICont c :: r => if ok c then (if absent_b c then start_ok ok r else true) else false
  end.
Fixpoint behind (n : nat) (c : pcontainer) : bool :=
  match c with
  | PRule _ _ => true
  | PToken e _ _ => if absent_b c then match n with O => false | S m => forallb (start_ok (behind m)) (el_must e) end else true
  | PRec x _ _ => match lookup x with Some e => match n with O => false | S m => forallb (start_ok (behind m)) (el_must e) end | None => true end
  | PLines _ => false
  end.
(* the lines of an element *)
Definition element_settles (e : element) : bool :=
  match el_not e with
  | None => (if listed (el_name e) still then forallb line_quiet (el_must e) else true) &&
      forallb (fun l => line_ok (guarded depth) [] l && start_ok (behind depth) l) (el_must e)
  | Some _ => false
  end.
End Deps.
(* every element of the path, and the first rule of every name is found *)
Definition settles (still : list bytes) (depth : nat) (p : path) : Prop :=
  (forall e, element_of p e -> element_settles (mlookup (pa_deps p)) still depth e = true) /\
  (forall r k, occurs_in p (PRule r k) -> good_rule r) /\
  (forall c, occurs_in p c -> (forall ls, c <> PLines ls) /\ build_next depth c (pa_deps p) <> NoFuel).
