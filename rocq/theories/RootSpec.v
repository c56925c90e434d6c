(* RootSpec.v - vocabulary of the properties of roots and Scan. *)
From Coq Require Import Strings.String Strings.Byte Sorting.Permutation.
From Verif Require Import Go DomainModel CardModel PatModel RuleModel PathModel LexModel AstModel RootModel.

(* ---- syntax trees ---- *)
(* what a token is directly made of: texts of rules and tokens, under a name *)
Inductive entry := EText (name text : bytes) | EToken (name : bytes) (t : atoken).
Definition en_name (e : entry) : bytes := match e with EText n _ => n | EToken n _ => n end.
Definition en_text (e : entry) : bytes := match e with EText _ w => w | EToken _ t => at_discovery t end.
Definition of_match (m : amatch) : list entry :=
  match m with AMToken n l => map (EToken n) l | AMRule n r => [EText n (disc_content (ar_disc r))] end.
Definition entries (ms : list amatch) : list entry := concat (map of_match ms).
Definition has_name (n : bytes) (e : entry) : bool := if list_eq_dec Byte.byte_eq_dec (en_name e) n then true else false.
(* the tokens of a tree, each after those it is made of *)
Fixpoint all_of (t : atoken) : list atoken :=
  match t with
  | AToken _ _ ms => concat (map (fun m => match m with AMToken _ l => concat (map all_of l) | AMRule _ _ => [] end) ms) ++ [t]
  end.
Definition within (t : atoken) : list atoken := removelast (all_of t).
(* the last token of the list with this text *)
Definition last_with (w : bytes) (l : list atoken) (t : atoken) : Prop :=
  exists a b, l = a ++ t :: b /\ at_discovery t = w /\ Forall (fun x => at_discovery x <> w) b.
(* every token has a name and is made of something, nothing is empty *)
Inductive solid : atoken -> Prop :=
| solid_token name line ms : name <> [] -> entries ms <> [] ->
    (forall e, In e (entries ms) -> en_name e <> [] /\ en_text e <> []) ->
    (forall n x, In (EToken n x) (entries ms) -> solid x) -> solid (AToken name line ms).

(* ---- roots ---- *)
(* the root of a token: its text and name; one node per name, whose containers are the
   entries of that name in order.  The container of a token carries the root of the last
   token within the tree that has the same text. *)
Inductive mirrors : atoken -> root -> Prop :=
| mirrors_token name line ms nodes :
    NoDup (map no_name nodes) ->
    (forall n, In n (map no_name nodes) <-> In n (map en_name (entries ms))) ->
    (forall x, In x nodes -> holds (within (AToken name line ms)) (filter (has_name (no_name x)) (entries ms)) (no_list x)) ->
    mirrors (AToken name line ms) (Root (at_discovery (AToken name line ms)) name nodes)
with holds : list atoken -> list entry -> list container -> Prop :=
| holds_nil all : holds all [] []
| holds_text all n w l cs : holds all l cs -> holds all (EText n w :: l) (Container w n None :: cs)
| holds_token all n t y r l cs : last_with (at_discovery t) all y -> mirrors y r -> holds all l cs ->
    holds all (EToken n t :: l) (Container (at_discovery t) n (Some r) :: cs).
(* the same, every container carrying the root of its own token *)
Inductive truly_mirrors : atoken -> root -> Prop :=
| truly_token name line ms nodes :
    NoDup (map no_name nodes) ->
    (forall n, In n (map no_name nodes) <-> In n (map en_name (entries ms))) ->
    (forall x, In x nodes -> truly_holds (filter (has_name (no_name x)) (entries ms)) (no_list x)) ->
    truly_mirrors (AToken name line ms) (Root (at_discovery (AToken name line ms)) name nodes)
with truly_holds : list entry -> list container -> Prop :=
| truly_nil : truly_holds [] []
| truly_text n w l cs : truly_holds l cs -> truly_holds (EText n w :: l) (Container w n None :: cs)
| truly_tok n t r l cs : truly_mirrors t r -> truly_holds l cs -> truly_holds (EToken n t :: l) (Container (at_discovery t) n (Some r) :: cs).
(* no token's text occurs again in a later token below the same parent, at any depth *)
Inductive distinct_texts : atoken -> Prop :=
| distinct_token name line ms :
    (forall a n x b m y z, entries ms = a ++ EToken n x :: b -> In (EToken m y) b -> In z (all_of y) -> at_discovery z <> at_discovery x) ->
    (forall n x, In (EToken n x) (entries ms) -> distinct_texts x) -> distinct_texts (AToken name line ms).

(* ---- scanning ---- *)
(* the node occurs in the nodes, at any depth *)
Inductive node_in : node -> list node -> Prop :=
| ni_here n l : In n l -> node_in n l
| ni_deep n x c r l : In x l -> In c (no_list x) -> co_root c = Some r -> node_in n (ro_nodes r) -> node_in n l.
Definition container_in (c : container) (l : list node) : Prop := exists n, node_in n l /\ In c (no_list n).
(* nodes as the adapter makes them: containers bear the name of their node *)
Definition named_alike (l : list node) : Prop := forall n c, node_in n l -> In c (no_list n) -> co_name c = no_name n.
