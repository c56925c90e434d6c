(* PatSpec.v - vocabulary of the pattern matching properties. *)
From Coq Require Import Strings.String Strings.Byte.
From Verif Require Import Go PatModel.

Definition is_prefix (w t : bytes) : Prop := exists s, t = w ++ s.

(* [w] is the longest non-empty alternative of the group starting the text *)
Definition longest_word (g : group) (t w : bytes) : Prop :=
  w <> [] /\ In w (g_list g) /\ is_prefix w t /\
  forall v, In v (g_list g) -> is_prefix v t -> length v <= length w.
(* no non-empty alternative starts the text *)
Definition no_word (g : group) (t : bytes) : Prop :=
  forall v, In v (g_list g) -> is_prefix v t -> v = [].

(* the groups read the text one after the other, each taking its longest
   alternative: the words taken and the text left *)
Inductive reads : list group -> bytes -> list bytes -> bytes -> Prop :=
| reads_nil t : reads [] t [] t
| reads_cons g gs w t' ws rest :
    longest_word g (w ++ t') w -> reads gs t' ws rest -> reads (g :: gs) (w ++ t') (w :: ws) rest.

(* "anything but the group": the text up to the first place where the group matches *)
Definition skips (g : group) (t w rest : bytes) : Prop :=
  t = w ++ rest /\
  (forall a b, w = a ++ b -> b <> [] -> no_word g (b ++ rest)) /\
  (rest = [] \/ exists v, longest_word g rest v).

(* a choice reads a text: (word, where it is attributed) list and text left.  A
   reversed choice only looks at its first group. *)
Inductive choice_reads : choice -> bytes -> list (bytes * container) -> bytes -> Prop :=
| cr_forward s t ws rest : reads (s_list s) t ws rest ->
    choice_reads {| ch_serie := s; ch_reverse := false |} t (combine ws (map CGroup (s_list s))) rest
| cr_reverse s g gs t w rest : s_list s = g :: gs -> skips g t w rest -> w <> [] ->
    choice_reads {| ch_serie := s; ch_reverse := true |} t [(w, CReverse s)] rest.

(* the longest run of choices, from the first one, that read the text in sequence:
   what was read by the run, the text left, the choices not read *)
Inductive choices_read : list choice -> bytes -> list (list (bytes * container)) -> bytes -> list choice -> Prop :=
| csr_end t : choices_read [] t [] t []
| csr_stop c cs t : (forall x rest, ~ choice_reads c t x rest) -> choices_read (c :: cs) t [] t (c :: cs)
| csr_step c cs t x t' xs rest left : choice_reads c t x t' -> choices_read cs t' xs rest left ->
    choices_read (c :: cs) t (x :: xs) rest left.

(* the pattern matches at the start of the text: its first choice reads it *)
Definition matches_here (p : pattern) (t : bytes) : Prop :=
  exists c cs x rest, p_list p = c :: cs /\ choice_reads c t x rest.

(* the discoveries for what was read: the first choice's carry the offset, the
   others' carry 0 *)
Definition stamp (i : nat) (x : bytes * container) : discovery :=
  {| d_index := i; d_content := fst x; d_container := snd x |}.
Definition stamps (i : nat) (xs : list (list (bytes * container))) : list discovery :=
  match xs with [] => [] | x :: r => map (stamp i) x ++ map (stamp 0) (concat r) end.

(* offset i is the first one of the text with the property *)
Definition first_offset (P : bytes -> Prop) (t : bytes) (i : nat) : Prop :=
  i < length t /\ P (skipn i t) /\ forall j, j < i -> ~ P (skipn j t).

(* a forward serie stops: the first group that cannot read, and the text in front of it *)
Definition stops_at (gs : list group) (t : bytes) (g : group) (rem : bytes) : Prop :=
  exists before after ws, gs = before ++ g :: after /\ reads before t ws rem /\ no_word g rem.
(* what the result says about the text that was not read *)
Definition leftover (rest : bytes) (left : list choice) (rem : bytes) (nx : option next) : Prop :=
  match left with
  | [] => rem = rest /\ nx = None
  | c :: _ =>
    if ch_reverse c then rem = [] /\ nx = None
    else exists g, stops_at (s_list (ch_serie c)) rest g rem /\ nx = Some {| n_reverse := false; n_group := g |}
  end.
