(* PickSpec.v - vocabulary of C99: what the longest-line reading of a text is.  The
   relations below mention no function of the lexer: they say, line by line, what is read,
   what is skipped, what cannot be read, and which line is preferred. *)
From Coq Require Import Strings.String Strings.Byte.
From Verif Require Import Go DomainModel CardModel CardSpec PatModel PatSpec RuleModel RuleSpec PathModel PathSpec LexModel LexSpec AstModel OrdSpec.
Open Scope list_scope.

(* ---- trees ---- *)
(* a tree: a text with the name of the rule that read it, or a token with the index of its
   line and what the line read *)
Inductive tree := Text (name w : bytes) | Branch (name : bytes) (line : nat) (parts : list tree).
(* the tree an answer draws *)
Fixpoint drawn (a : atoken) : tree :=
  match a with
  | AToken n i ms => Branch n i (concat (map (fun m => match m with AMToken _ l => map drawn l | AMRule n r => [Text n (disc_content (ar_disc r))] end) ms))
  end.
(* the text of a tree *)
Fixpoint tree_text (t : tree) : bytes := match t with Text _ w => w | Branch _ _ l => concat (map tree_text l) end.
Definition all_text (l : list tree) : bytes := concat (map tree_text l).

(* a rule the builders let exist, with something to look for *)
Definition leaf_rule (r : rule) : Prop :=
  good_rule r /\ match rl_content r with RPattern _ c => fits c | RConstant c => c <> [] end.
(* the rule takes the text w, being repeated as often as its cardinality permits at most *)
Definition takes (r : rule) (k : cardinality) (s w s1 : bytes) : Prop :=
  s = w ++ s1 /\ exists n, rule_times r (S n) s s1 /\ snd (delimiter k) = Some (N.of_nat (S n)) /\ is_valid k (N.of_nat (S n)) = true.

Section Pick.
Variable channels : nat -> list path.
(* no channel can read anything at the start of the text *)
Definition quiet (s : bytes) : Prop := forall p r, among channels p -> simple_channel p r -> ~ begins r s.
(* a channel reads w at the start of the text *)
Definition passes (s : bytes) (name w s1 : bytes) : Prop :=
  exists p r k, among channels p /\ simple_channel p r /\ leaf_rule r /\ el_must (pa_element p) = [[ICont (PRule r k)]] /\ takes r k s w s1 /\ name = rl_name r.
(* nothing is skipped before the container: channels are not read there, none can read, or
   the text would be over and the container may be absent *)
Definition still (ch : bool) (c : pcontainer) (s : bytes) : Prop :=
  ch = true -> quiet s \/ exists n w k, passes s n w [] /\ cont_card c = Ok k /\ is_valid k 0 = true.
(* the flags: channels are read before the container (ch), and inside and after it (nx) *)
Inductive gives : pcontainer -> bool -> bool -> bytes -> list tree -> bytes -> Prop :=
| gv_rule r k ch nx s w s1 : leaf_rule r -> still ch (PRule r k) s -> takes r k s w s1 -> gives (PRule r k) ch nx s [Text (rl_name r) w] s1
| gv_no_rule r k ch nx s : leaf_rule r -> s <> [] -> still ch (PRule r k) s -> ~ begins r s -> is_valid k 0 = true -> gives (PRule r k) ch nx s [] s
| gv_tokens e k ch nx s ts s1 : s <> [] -> still ch (PToken e [] k) s -> tokens e nx k 0 s ts s1 -> is_valid k (N.of_nat (length ts)) = true -> gives (PToken e [] k) ch nx s ts s1
| gv_skip c ch nx s n w s1 out s2 : ch = true -> passes s n w s1 -> gives c nx nx s1 out s2 -> gives c ch nx s (Text n w :: out) s2
(* the container cannot be read *)
with bad : pcontainer -> bool -> bool -> bytes -> Prop :=
| bd_end c ch nx k : cont_card c = Ok k -> is_valid k 0 = false -> bad c ch nx []
| bd_rule r k ch nx s : leaf_rule r -> s <> [] -> still ch (PRule r k) s -> ~ begins r s -> is_valid k 0 = false -> bad (PRule r k) ch nx s
| bd_tokens e k ch nx s ts s1 : s <> [] -> still ch (PToken e [] k) s -> tokens e nx k 0 s ts s1 -> is_valid k 0 = false -> is_valid k (N.of_nat (length ts)) = false -> bad (PToken e [] k) ch nx s
| bd_skip c ch nx s n w s1 : ch = true -> passes s n w s1 -> bad c nx nx s1 -> bad c ch nx s
(* a line, from its first container; once the text is over, what may be absent ends it *)
with line_gives : line -> bool -> bool -> bytes -> list tree -> bytes -> Prop :=
| lg_end ch nx s : line_gives [] ch nx s [] s
| lg_switch l ch nx s out rest : line_gives l ch (negb nx) s out rest -> line_gives (ISwitch :: l) ch nx s out rest
| lg_more c l ch nx s o s1 out rest : gives c ch nx s o s1 -> line_gives l (if nx then ch else false) nx s1 out rest -> line_gives (ICont c :: l) ch nx s (o ++ out) rest
| lg_over c l ch nx k : cont_card c = Ok k -> is_valid k 0 = true -> line_gives (ICont c :: l) ch nx [] [] []
with line_bad : line -> bool -> bool -> bytes -> Prop :=
| lb_switch l ch nx s : line_bad l ch (negb nx) s -> line_bad (ISwitch :: l) ch nx s
| lb_here c l ch nx s : bad c ch nx s -> line_bad (ICont c :: l) ch nx s
| lb_later c l ch nx s o s1 : gives c ch nx s o s1 -> line_bad l (if nx then ch else false) nx s1 -> line_bad (ICont c :: l) ch nx s
(* every line cannot be read, or leaves at least m bytes *)
with beaten : nat -> bool -> bytes -> list line -> Prop :=
| bt_nil m nx s : beaten m nx s []
| bt_bad m nx s l ls : line_bad l nx nx s -> beaten m nx s ls -> beaten m nx s (l :: ls)
| bt_less m nx s l ls out rest : line_gives l nx nx s out rest -> m <= length rest -> beaten m nx s ls -> beaten m nx s (l :: ls)
(* the token reads the text along its line that leaves the least, the first of them *)
with picks : element -> bool -> bytes -> tree -> bytes -> Prop :=
| pk_line e nx s before l after out rest : el_not e = None -> el_must e = before ++ l :: after ->
    line_gives l nx nx s out rest -> length rest < length s ->
    beaten (S (length rest)) nx s before -> beaten (length rest) nx s after -> picks e nx s (Branch (el_name e) (length before) out) rest
(* the token is repeated (having been read done times) until the cardinality's maximum is
   reached, or it cannot be read again *)
with tokens : element -> bool -> cardinality -> nat -> bytes -> list tree -> bytes -> Prop :=
| tk_none e nx k done s : el_not e = None -> beaten (length s) nx s (el_must e) -> tokens e nx k done s [] s
| tk_last e nx k done s t s1 : picks e nx s t s1 -> (exists m, snd (delimiter k) = Some m /\ (m <= N.of_nat (S done))%N) -> tokens e nx k done s [t] s1
| tk_more e nx k done s t s1 ts s2 : picks e nx s t s1 -> (forall m, snd (delimiter k) = Some m -> (N.of_nat (S done) < m)%N) -> tokens e nx k (S done) s1 ts s2 -> tokens e nx k done s (t :: ts) s2.
End Pick.
(* channels that are single rules, no two of which can begin together *)
Definition plain_channels (channels : nat -> list path) : Prop :=
  (forall p, among channels p -> exists r, simple_channel p r) /\ never_together (among channels) /\ (forall i j p, In p (channels i) -> In p (channels j)).
