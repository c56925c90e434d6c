(* SuiteModel.v - domain/languages/lexers/asts/adapter_builder.go,
   domain/languages/lexers/asts/tokens/adapter_builder.go (the lexer a grammar is made
   into) and domain/languages/lexers/suites (application.go: running the test suites of
   the tokens).  Definitions only. *)
From Coq Require Import Strings.String Strings.Byte.
From Verif Require Export Go DomainModel CardModel PatModel RuleModel PathModel LexModel AstModel.
Open Scope list_scope.

(* ---- asts/tokens/adapter_builder.go ---- *)
(* :193-204 the channel paths, by the name of the channel token; one path adapter is
   used for all of them *)
Section Builder.
Variable T : table token.
Variable not_found replace : bytes -> option (element * list element).
Fixpoint channel_paths (l : list token) (st : pstate) (m : gmap path) : res (gmap path) :=
  match l with
  | [] => Ok m
  | t :: r =>
    let '(o, st') := to_path T not_found replace st t in
    let* p := o in channel_paths r st' (minsert m (t_name t) p)
  end.
(* :165-240 Now (root and tokens set), through asts/adapter_builder.go:137-183 Now; no
   channels is None.  The result: the path of the root and the channel map. *)
Definition new_lexer (root : token) (channels : option (table token)) : res (path * gmap path) :=
  let '(o, st) := to_path T not_found replace pstate_init root in
  let* p := o in
  match channels with
  | None => Ok (p, [])
  | Some c => let* m := channel_paths (table_all c) st [] in Ok (p, m)
  end.
End Builder.

(* ---- suites ---- *)
(* line.go, suite.go *)
Record sline := { sl_index : nat; sl_success : bool }.
Record suite := { su_name : bytes; su_lines : list sline }.

Section Suites.
Variable T : table token.
(* the test lines of the token of a name (token.go:48-56 HasTestSuite, TestSuite): the
   names of a table are distinct, so the suite of a token is kept under its name *)
Variable tests : bytes -> option (list bytes).
Variable channels : option (table token).
Variable not_found replace : bytes -> option (element * list element).
(* the order in which Go visits the channels [l] of the lexer made for the j-th line of
   the token [name], the k-th time it ranges over them *)
Variable order : bytes -> nat -> list path -> nat -> list path.
(* bounds the recursion of the lexer *)
Variable fuel : nat.

(* application.go:225-260 toLine; line_builder.go:37-43 the index is not negative *)
Definition to_line (name : bytes) (j : nat) (text : bytes) : res sline :=
  let* root := table_find T name in
  let* x := new_lexer T not_found replace root channels in
  let* a := fst (to_ast (order name j (map snd (snd x))) fuel (fst x) false text (lst_init false)) in
  Ok {| sl_index := j; sl_success := match a with ASuccess _ => true | AMistake _ => false end |}.
(* application.go:211-223 toSuite; builder.go:37-51 *)
Fixpoint to_lines (name : bytes) (j : nat) (texts : list bytes) : res (list sline) :=
  match texts with
  | [] => Ok []
  | t :: r => let* x := to_line name j t in let* y := to_lines name (S j) r in Ok (x :: y)
  end.
Definition to_suite (name : bytes) (texts : list bytes) : res suite :=
  let* l := to_lines name 0 texts in
  match name, l with
  | [], _ => Err
  | _, [] => Err
  | _, _ => Ok {| su_name := name; su_lines := l |}
  end.
(* application.go:190-209 Execute *)
Fixpoint run_suites (l : list token) : res (list suite) :=
  match l with
  | [] => Ok []
  | t :: r =>
    match tests (t_name t) with
    | None => run_suites r
    | Some texts => let* x := to_suite (t_name t) texts in let* y := run_suites r in Ok (x :: y)
    end
  end.
Definition execute_suites : res (list suite) := run_suites (table_all T).
End Suites.
