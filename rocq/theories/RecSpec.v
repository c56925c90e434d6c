(* RecSpec.v - vocabulary of C105: the longest-line reading of a text by a grammar that refers
   to itself.  The relations of PickSpec.v with one thing more, the notes: for every name, the
   text at which it was last entered by a recursive reference.  They mention no function of the
   lexer. *)
From Coq Require Import Strings.String Strings.Byte.
From Verif Require Import Go DomainModel CardModel CardSpec PatModel PatSpec RuleModel RuleSpec PathModel PathSpec LexModel LexSpec AstModel OrdSpec PickSpec.
Open Scope list_scope.

Definition notes : Type := bytes -> option bytes.
Definition no_notes : notes := fun _ => None.
Definition note (N : notes) (x s : bytes) : notes := fun y => if bytes_eqb y x then Some s else N y.
Definition forget (N : notes) (x : bytes) : notes := fun y => if bytes_eqb y x then None else N y.

Section Rec.
Variable channels : nat -> list path.
Variable lookup : bytes -> option element.    (* what a name refers to *)
(* the flags: channels are read before the container (ch), and inside and after it (nx); the
   notes before and after *)
Inductive finds : pcontainer -> bool -> bool -> bytes -> notes -> list tree -> bytes -> notes -> Prop :=
| fi_rule r k ch nx s N N1 w s1 : leaf_rule r -> before (PRule r k) ch nx s N N1 -> takes r k s w s1 -> finds (PRule r k) ch nx s N [Text (rl_name r) w] s1 N1
| fi_no_rule r k ch nx s N N1 : leaf_rule r -> s <> [] -> before (PRule r k) ch nx s N N1 -> ~ begins r s -> is_valid k 0 = true -> finds (PRule r k) ch nx s N [] s N1
| fi_tokens e k ch nx s N N1 ts s1 N2 : s <> [] -> before (PToken e [] k) ch nx s N N1 -> repeats e nx k 0 s N1 ts s1 N2 -> is_valid k (N.of_nat (length ts)) = true -> finds (PToken e [] k) ch nx s N ts s1 N2
(* a reference to x that was not last entered at this text: it is now *)
| fi_again x k e ch nx s N N1 ts s1 N2 : s <> [] -> before (PRec x [] k) ch nx s N N1 -> N1 x <> Some s -> lookup x = Some e ->
    repeats e nx k 0 s (note N1 x s) ts s1 N2 -> is_valid k (N.of_nat (length ts)) = true -> finds (PRec x [] k) ch nx s N ts s1 N2
| fi_skip c ch nx s N n w s1 out s2 N1 : ch = true -> passes channels s n w s1 -> finds c nx nx s1 N out s2 N1 -> finds c ch nx s N (Text n w :: out) s2 N1
(* nothing is skipped before the container: channels are not read there, none can read, or the
   container is left behind what a channel reads *)
with before : pcontainer -> bool -> bool -> bytes -> notes -> notes -> Prop :=
| be_off c nx s N : before c false nx s N N
| be_quiet c ch nx s N : quiet channels s -> before c ch nx s N N
| be_left c nx s N n w s1 N1 : passes channels s n w s1 -> left c nx nx s1 N N1 -> before c true nx s N N1
(* the container is left, and with it the line: the text is over and it may be absent, or it is
   a reference that was last entered at this very text; the note is forgotten *)
with left : pcontainer -> bool -> bool -> bytes -> notes -> notes -> Prop :=
| le_over c ch nx k N : cont_card c = Ok k -> is_valid k 0 = true -> left c ch nx [] N N
| le_noted x sp k ch nx s N N1 : s <> [] -> before (PRec x sp k) ch nx s N N1 -> N1 x = Some s -> left (PRec x sp k) ch nx s N (forget N1 x)
(* the container cannot be read *)
with lacks : pcontainer -> bool -> bool -> bytes -> notes -> notes -> Prop :=
| la_end c ch nx k N : cont_card c = Ok k -> is_valid k 0 = false -> lacks c ch nx [] N N
| la_rule r k ch nx s N N1 : leaf_rule r -> s <> [] -> before (PRule r k) ch nx s N N1 -> ~ begins r s -> is_valid k 0 = false -> lacks (PRule r k) ch nx s N N1
| la_tokens e k ch nx s N N1 ts s1 N2 : s <> [] -> before (PToken e [] k) ch nx s N N1 -> repeats e nx k 0 s N1 ts s1 N2 -> is_valid k 0 = false -> is_valid k (N.of_nat (length ts)) = false -> lacks (PToken e [] k) ch nx s N N2
| la_again x k e ch nx s N N1 ts s1 N2 : s <> [] -> before (PRec x [] k) ch nx s N N1 -> N1 x <> Some s -> lookup x = Some e ->
    repeats e nx k 0 s (note N1 x s) ts s1 N2 -> is_valid k 0 = false -> is_valid k (N.of_nat (length ts)) = false -> lacks (PRec x [] k) ch nx s N N2
| la_skip c ch nx s N n w s1 N1 : ch = true -> passes channels s n w s1 -> lacks c nx nx s1 N N1 -> lacks c ch nx s N N1
(* a line, from its first container; a container that is left ends it *)
with line_finds : line -> bool -> bool -> bytes -> notes -> list tree -> bytes -> notes -> Prop :=
| lf_end ch nx s N : line_finds [] ch nx s N [] s N
| lf_switch l ch nx s N out rest N1 : line_finds l ch (negb nx) s N out rest N1 -> line_finds (ISwitch :: l) ch nx s N out rest N1
| lf_more c l ch nx s N o s1 N1 out rest N2 : finds c ch nx s N o s1 N1 -> line_finds l (if nx then ch else false) nx s1 N1 out rest N2 -> line_finds (ICont c :: l) ch nx s N (o ++ out) rest N2
| lf_left c l ch nx s N N1 : left c ch nx s N N1 -> line_finds (ICont c :: l) ch nx s N [] s N1
with line_lacks : line -> bool -> bool -> bytes -> notes -> notes -> Prop :=
| ll_switch l ch nx s N N1 : line_lacks l ch (negb nx) s N N1 -> line_lacks (ISwitch :: l) ch nx s N N1
| ll_here c l ch nx s N N1 : lacks c ch nx s N N1 -> line_lacks (ICont c :: l) ch nx s N N1
| ll_later c l ch nx s N o s1 N1 N2 : finds c ch nx s N o s1 N1 -> line_lacks l (if nx then ch else false) nx s1 N1 N2 -> line_lacks (ICont c :: l) ch nx s N N2
(* every line cannot be read, or leaves at least m bytes *)
with outdone : nat -> bool -> bytes -> list line -> notes -> notes -> Prop :=
| od_nil m nx s N : outdone m nx s [] N N
| od_lacks m nx s l ls N N1 N2 : line_lacks l nx nx s N N1 -> outdone m nx s ls N1 N2 -> outdone m nx s (l :: ls) N N2
| od_less m nx s l ls N out rest N1 N2 : line_finds l nx nx s N out rest N1 -> m <= length rest -> outdone m nx s ls N1 N2 -> outdone m nx s (l :: ls) N N2
(* the token reads the text along its line that leaves the least, the first of them; all lines
   are tried, one after the other *)
with chooses : element -> bool -> bytes -> notes -> tree -> bytes -> notes -> Prop :=
| ch_line e nx s N N1 N2 N3 first l later out rest : el_not e = None -> el_must e = first ++ l :: later ->
    outdone (S (length rest)) nx s first N N1 -> line_finds l nx nx s N1 out rest N2 -> length rest < length s ->
    outdone (length rest) nx s later N2 N3 -> chooses e nx s N (Branch (el_name e) (length first) out) rest N3
(* the token is repeated (having been read done times) until the cardinality's maximum is
   reached, or it cannot be read again *)
with repeats : element -> bool -> cardinality -> nat -> bytes -> notes -> list tree -> bytes -> notes -> Prop :=
| re_none e nx k done s N N1 : el_not e = None -> outdone (length s) nx s (el_must e) N N1 -> repeats e nx k done s N [] s N1
| re_last e nx k done s N t s1 N1 : chooses e nx s N t s1 N1 -> (exists m, snd (delimiter k) = Some m /\ (m <= N.of_nat (S done))%N) -> repeats e nx k done s N [t] s1 N1
| re_more e nx k done s N t s1 N1 ts s2 N2 : chooses e nx s N t s1 N1 -> (forall m, snd (delimiter k) = Some m -> (N.of_nat (S done) < m)%N) -> repeats e nx k (S done) s1 N1 ts s2 N2 -> repeats e nx k done s N (t :: ts) s2 N2.
End Rec.
