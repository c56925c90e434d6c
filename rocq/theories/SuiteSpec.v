(* SuiteSpec.v - what a lexer made from tables and a run of the test suites are. *)
From Coq Require Import Strings.String Strings.Byte Sorting.Permutation.
From Verif Require Import Go DomainModel CardModel PatModel RuleModel PathModel PathSpec LexModel LexSpec AstModel AstSpec SuiteModel.
Open Scope list_scope.

(* the path a new path adapter gives for a token *)
Definition path_for T nf rp (t : token) : res path := fst (to_path T nf rp pstate_init t).
Definition channel_list (c : option (table token)) : list token := match c with Some c => table_all c | None => [] end.
Definition good_channels (c : option (table token)) : Prop := forall t, c = Some t -> good_table t.

(* failing the same way *)
Inductive fails_as {A B} : res A -> res B -> Prop :=
| fa_err : fails_as Err Err
| fa_panic : fails_as Panic Panic
| fa_fuel : fails_as NoFuel NoFuel.

Section Run.
Variable T : table token.
Variable tests : bytes -> option (list bytes).
Variable channels : option (table token).
Variable not_found replace : bytes -> option (element * list element).
Variable order : bytes -> nat -> list path -> nat -> list path.
Variable fuel : nat.
(* what the lexer of the token itself says of the j-th test line: built for this line
   alone and used once *)
Definition answer (t : token) (j : nat) (text : bytes) : res ast :=
  match new_lexer T not_found replace t channels with
  | Ok (p, m) => fst (to_ast (order (t_name t) j (map snd m)) fuel p false text (lst_init false))
  | Err => Err | Panic => Panic | NoFuel => NoFuel
  end.
(* the tokens with tests, in order; the test lines, in order *)
Definition tested : list (token * list bytes) :=
  concat (map (fun t => match tests (t_name t) with Some l => [(t, l)] | None => [] end) (table_all T)).
Definition jobs : list (token * nat * bytes) :=
  concat (map (fun x => combine (combine (repeat (fst x) (length (snd x))) (seq 0 (length (snd x)))) (snd x)) tested).
(* the results of the lines of one token *)
Definition reports (x : token * list bytes) (s : suite) : Prop :=
  su_name s = t_name (fst x) /\ length (su_lines s) = length (snd x) /\
  forall j text, nth_error (snd x) j = Some text -> exists ln a,
    nth_error (su_lines s) j = Some ln /\ sl_index ln = j /\ answer (fst x) j text = Ok a /\
    (sl_success ln = true <-> exists tree, a = ASuccess tree).
End Run.

(* the grammars of C65: closed tables of simple tokens *)
Definition closed (T : table token) (t : token) : Prop := forall n, refers t n -> is_declared (table_all T) n.
Definition closed_grammar (T : table token) (channels : option (table token)) : Prop :=
  good_table T /\ good_channels channels /\
  (forall t, In t (table_all T) \/ In t (channel_list channels) -> simple_token t /\ closed T t) /\
  (forall t, In t (table_all T) -> ~ refers_alone t (t_name t)).
(* every range over the channel map visits all its channels once *)
Definition real_order (order : bytes -> nat -> list path -> nat -> list path) : Prop := forall n j l k, Permutation (order n j l k) l.
