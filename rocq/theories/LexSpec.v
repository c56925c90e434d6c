(* LexSpec.v - vocabulary of the lexer properties: what a grammar reads. *)
From Coq Require Import Strings.String Strings.Byte Sorting.Permutation.
From Verif Require Import Go DomainModel CardModel CardSpec PatModel PatSpec RuleModel RuleSpec PathModel PathSpec LexModel.

(* ---- well-formed grammars ---- *)
(* a rule the builders let exist, its maximum being a 64-bit number *)
Definition good_rule (r : rule) : Prop :=
  rule_ok r = true /\
  match rl_content r with RPattern _ c => forall m, snd (delimiter c) = Some m -> (m < 2 ^ 64)%N | RConstant _ => True end.
(* the rule occurs in the tree of the container / element *)
Inductive rule_in : pcontainer -> rule -> Prop :=
| ri_rule r k : rule_in (PRule r k) r
| ri_token e sp k c r : directly e c -> rule_in c r -> rule_in (PToken e sp k) r
| ri_lines ls c r : in_lines ls c -> rule_in c r -> rule_in (PLines ls) r.
Definition good_cont (c : pcontainer) : Prop := forall r, rule_in c r -> good_rule r.
Definition good_el (e : element) : Prop := forall c, directly e c -> good_cont c.
Definition good_deps (d : gmap element) : Prop := forall n e, mlookup d n = Some e -> good_el e.
Definition good_path (p : path) : Prop := good_el (pa_element p) /\ good_deps (pa_deps p).

(* ---- the channel map ---- *)
(* [channels k] is the order in which the k-th range over the map visits it *)
Definition among (channels : nat -> list path) (p : path) : Prop := exists k, In p (channels k).
(* every range visits the same channels *)
Definition same_map (channels : nat -> list path) : Prop := forall j k, Permutation (channels j) (channels k).
Definition always (l : list path) : nat -> list path := fun _ => l.

(* ---- what is read ---- *)
(* a rule takes the non-empty text w, leaving rest: a constant takes itself; patterns
   take as many successive matches as they can *)
Inductive rule_takes (r : rule) : bytes -> bytes -> Prop :=
| rt_const c rest : rl_content r = RConstant c -> c <> [] -> rule_takes r (c ++ rest) rest
| rt_pattern ps k s ms rest : rl_content r = RPattern ps k -> eats ps s ms rest -> ms <> [] ->
    at_most k (length ms) -> full k (length ms) \/ stuck ps rest -> rule_takes r s rest.
Inductive rule_times (r : rule) : nat -> bytes -> bytes -> Prop :=
| rn_zero s : rule_times r 0 s s
| rn_more n s s1 s2 : rule_takes r s s1 -> rule_times r n s1 s2 -> rule_times r (S n) s s2.

Definition card_of (c : pcontainer) : option cardinality :=
  match c with PToken _ _ k => Some k | PRule _ k => Some k | PRec _ _ k => Some k | PLines _ => None end.
(* the container may be absent *)
Definition may_be_absent (c : pcontainer) : Prop := exists k, card_of c = Some k /\ is_valid k 0 = true.

Section Reading.
Variable channels : nat -> list path.
(* whether the two liberties the lexer takes are allowed: ignoring the rest of a line
   (lr_stop), and reading nothing where an element with a not-block is asked for
   (er_nothing) *)
Variable lenient : Prop.

(* reading the element / line / container from a text leaves a text.  The first flag
   says whether channel text may be skipped in front of the next container, the
   second whether it may inside of it and after it. *)
Inductive el_reads : gmap element -> bool -> element -> bytes -> bytes -> Prop :=
| er_line d ch e l s s' : In l (el_must e) -> line_reads d ch ch l s s' -> el_reads d ch e s s'
| er_nothing d ch e s ls : lenient -> el_not e = Some ls -> el_reads d ch e s s
with line_reads : gmap element -> bool -> bool -> line -> bytes -> bytes -> Prop :=
| lr_end d ch nx s : line_reads d ch nx [] s s
| lr_switch d ch nx l s s' : line_reads d ch (negb nx) l s s' -> line_reads d ch nx (ISwitch :: l) s s'
| lr_cont d ch nx c l s s1 s2 : spaced_reads d ch nx c s s1 -> line_reads d (ch && nx) nx l s1 s2 ->
    line_reads d ch nx (ICont c :: l) s s2
| lr_stop d ch nx c l s : lenient ->
    (s = [] /\ may_be_absent c) \/ (exists n sp k, c = PRec n sp k) \/ (exists ls, c = PLines ls) ->
    line_reads d ch nx (ICont c :: l) s s
with spaced_reads : gmap element -> bool -> bool -> pcontainer -> bytes -> bytes -> Prop :=
| sr_here d ch nx c s s' : cont_reads d nx c s s' -> spaced_reads d ch nx c s s'
| sr_channel d nx c p s s1 s' : among channels p -> el_reads (pa_deps p) false (pa_element p) s s1 ->
    spaced_reads d nx nx c s1 s' -> spaced_reads d true nx c s s'
with cont_reads : gmap element -> bool -> pcontainer -> bytes -> bytes -> Prop :=
| cr_rule d ch r k n s s' : rule_times r n s s' -> is_valid k (N.of_nat n) = true -> cont_reads d ch (PRule r k) s s'
| cr_token d ch e sp k n s s' : el_times d ch e n s s' -> is_valid k (N.of_nat n) = true -> cont_reads d ch (PToken e sp k) s s'
| cr_rec d ch e name sp k n s s' : mlookup d name = Some e -> el_times d ch e n s s' -> is_valid k (N.of_nat n) = true ->
    cont_reads d ch (PRec name sp k) s s'
| cr_absent d ch c s : may_be_absent c -> cont_reads d ch c s s
| cr_lines d ch ls s : cont_reads d ch (PLines ls) s s
with el_times : gmap element -> bool -> element -> nat -> bytes -> bytes -> Prop :=
| et_zero d ch e s : el_times d ch e 0 s s
| et_more d ch e n s s1 s2 : el_reads d ch e s s1 -> el_times d ch e n s1 s2 -> el_times d ch e (S n) s s2.
End Reading.

(* a fresh or used lexer with fuel *)
Definition answers (channels : nat -> list path) (root : path) (fuel : nat) (script : bytes) (s : lst) (t : tok) : Prop :=
  fst (to_token channels fuel root script s) = Ok t.
(* nothing read but the two liberties *)
Definition the_must (t : tok) : option linematch := option_map fst (tok_content t).
Definition the_not (t : tok) : option linematch := match tok_content t with Some (_, n) => n | None => None end.

(* ---- grammars on which lexing ends ---- *)
(* the container can be reached at the start of the line: everything before it may be absent *)
Inductive leading : line -> pcontainer -> Prop :=
| ld_here c l : leading (ICont c :: l) c
| ld_switch c l : leading l c -> leading (ISwitch :: l) c
| ld_absent c c' l : may_be_absent c' -> leading l c -> leading (ICont c' :: l) c.
(* a container leads to at most n further containers without anything being read in
   between; names are looked up in the dependencies.  No left recursion. *)
Fixpoint leads (d : gmap element) (n : nat) (c : pcontainer) : Prop :=
  match n with
  | O => match c with PRule _ _ => True | _ => False end
  | S n' =>
    let el e := forall l c', In l (el_must e) -> leading l c' -> leads d n' c' in
    match c with
    | PRule _ _ => True
    | PToken e _ _ => el e /\ (forall e', mlookup d (el_name e) = Some e' -> el e')
    | PRec name _ _ => forall e, mlookup d name = Some e -> el e
    | PLines _ => False
    end
  end.
(* the container occurs in the tree of the path's element or of one of its dependencies *)
Inductive occurs_in (p : path) : pcontainer -> Prop :=
| oc_root c : directly (pa_element p) c -> occurs_in p c
| oc_dep n e c : mlookup (pa_deps p) n = Some e -> directly e c -> occurs_in p c
| oc_inner e sp k c : occurs_in p (PToken e sp k) -> directly e c -> occurs_in p c.
(* the elements of a path *)
Definition element_of (p : path) (e : element) : Prop :=
  e = pa_element p \/ (exists n, mlookup (pa_deps p) n = Some e) \/ (exists sp k, occurs_in p (PToken e sp k)).
(* no negative blocks, no nested lines, no left recursion (within bound N) *)
Definition ends (N : nat) (p : path) : Prop :=
  (forall e, element_of p e -> el_not e = None) /\ (forall c, occurs_in p c -> leads (pa_deps p) N c) /\
  (forall r k, occurs_in p (PRule r k) -> good_rule r).
(* no channel switches in the path *)
Definition switch_free (p : path) : Prop := forall e l, element_of p e -> In l (el_must e) -> ~ In ISwitch l.

(* ---- grammars where every accepted line is complete ---- *)
(* what may be absent stands at the end of the line *)
Definition optional_last (l : line) : Prop :=
  forall a c b c', l = a ++ ICont c :: b -> may_be_absent c -> In (ICont c') b -> may_be_absent c'.
(* no negative blocks, no recursion, no nested lines, optional parts last *)
Definition sturdy (p : path) : Prop :=
  forall e, element_of p e -> el_not e = None /\
    forall l, In l (el_must e) -> optional_last l /\
      forall c, In (ICont c) l -> (exists r k, c = PRule r k) \/ (exists e sp k, c = PToken e sp k).

(* ---- choosing a line ---- *)
(* the lines are evaluated one after the other: their outcomes (None: no match) *)
Inductive lines_run (eval : line -> M (option (list block))) : list line -> lst -> list (option (list block)) -> lst -> Prop :=
| lsr_nil st : lines_run eval [] st [] st
| lsr_cons l ls o outs st st1 st2 : eval l st = (Ok o, st1) -> lines_run eval ls st1 outs st2 -> lines_run eval (l :: ls) st (o :: outs) st2.
Definition text (bl : list block) : bytes := concat (map b_disc bl).
Definition candidate (outs : list (option (list block))) (i : nat) (bl : list block) : Prop :=
  nth_error outs i = Some (Some bl) /\ forallb b_valid bl = true /\ text bl <> [].
Definition failed (outs : list (option (list block))) (i : nat) (bl : list block) : Prop :=
  nth_error outs i = Some (Some bl) /\ forallb b_valid bl = false.
Definition longest_first (outs : list (option (list block))) (i : nat) (bl : list block) : Prop :=
  candidate outs i bl /\ forall j bl', candidate outs j bl' ->
    length (text bl') <= length (text bl) /\ (j < i -> length (text bl') < length (text bl)).
Definition last_failed (outs : list (option (list block))) (i : nat) (bl : list block) : Prop :=
  failed outs i bl /\ forall j bl', failed outs j bl' -> j <= i.
Definition chosen (outs : list (option (list block))) (o : option linematch) : Prop :=
  match o with
  | Some (LM i bl) => longest_first outs i bl \/ ((forall j bl', ~ candidate outs j bl') /\ last_failed outs i bl)
  | None => (forall j bl', ~ candidate outs j bl') /\ (forall j bl', ~ failed outs j bl')
  end.

(* ---- parts of a match tree ---- *)
Inductive node := NTok (t : tok) | NLine (l : linematch) | NBlock (b : block) | NMatch (m : mtch) | NTM (t : tokmatch) | NRM (r : rulematch).
Inductive part_of : node -> node -> Prop :=   (* child, parent *)
| po_must e d m n : part_of (NLine m) (NTok (Tok e d (Some (m, n))))
| po_not e d m n : part_of (NLine n) (NTok (Tok e d (Some (m, Some n))))
| po_block i bl b : In b bl -> part_of (NBlock b) (NLine (LM i bl))
| po_cont m ch : part_of (NMatch m) (NBlock (BCont m ch))
| po_inner b ch : part_of (NBlock b) (NBlock (BBlock b ch))
| po_chan_c m ch : part_of (NLine ch) (NBlock (BCont m (Some ch)))
| po_chan_b b ch : part_of (NLine ch) (NBlock (BBlock b (Some ch)))
| po_chan_n n ch : part_of (NLine ch) (NBlock (BNext n (Some ch)))
| po_token t : part_of (NTM t) (NMatch (MToken t))
| po_skip_t t : part_of (NTM t) (NMatch (MSkipT t))
| po_rule r : part_of (NRM r) (NMatch (MRule r))
| po_skip_r r : part_of (NRM r) (NMatch (MSkipR r))
| po_line l : part_of (NLine l) (NMatch (MLine l))
| po_tok t e sp i k l : In t l -> part_of (NTok t) (NTM (TM e sp i k l)).
Inductive inside : node -> node -> Prop :=
| in_self n : inside n n
| in_part a b c : inside a b -> part_of b c -> inside a c.

(* the adapter after earlier calls *)
Definition lexer_after (channels : nat -> list path) (root : path) (fuel : nat) (scripts : list bytes) (st : lst) : lst :=
  fold_left (fun st s => snd (to_token channels fuel root s st)) scripts st.
(* what a block matched once the channels before it are skipped *)
Fixpoint past_channels (b : block) : option mtch :=
  match b with BCont m _ => Some m | BBlock b' _ => past_channels b' | BNext _ _ => None end.
(* the names of what the chosen line of an occurrence matched directly, one per repetition *)
Definition matched_names (o : option mtch) : list bytes :=
  match o with
  | Some (MToken t) => repeat (el_name (tm_el t)) (length (tm_toks t))
  | Some (MRule r) => repeat (rl_name (rm_rule r)) (length (rm_results r))
  | _ => []
  end.
Definition line_names (t : tok) : list bytes :=
  match tok_content t with Some (LM _ bl, _) => concat (map (fun b => matched_names (past_channels b)) (filter b_valid bl)) | None => [] end.
(* how many times a token or rule of that name was matched directly in the valid occurrences *)
Definition occurrences (name : bytes) (toks : list tok) : nat :=
  length (filter (bytes_eqb name) (concat (map line_names (filter tok_valid toks)))).
(* n copies of a text, and a text that occurs nowhere in another *)
Definition copies (n : nat) (c : bytes) : bytes := concat (repeat c n).
Definition absent_from (c s : bytes) : Prop := forall a b, s <> a ++ c ++ b.
(* a path with one line, which asks for one rule *)
Definition rule_only (name : bytes) (r : rule) (k : cardinality) : path := {| pa_element := Element name [[ICont (PRule r k)]] None; pa_deps := [] |}.

(* ---- what an incomplete text is told to go on with ---- *)
(* the container occurs somewhere in the path, nested lines included *)
Inductive asks (p : path) : pcontainer -> Prop :=
| as_root c : directly (pa_element p) c -> asks p c
| as_dep n e c : mlookup (pa_deps p) n = Some e -> directly e c -> asks p c
| as_inner e sp k c : asks p (PToken e sp k) -> directly e c -> asks p c
| as_lines ls c : asks p (PLines ls) -> in_lines ls c -> asks p c.
(* what a container starts with: its rule, or what the first container of the first
   line of its token (found by name in the dependencies) starts with *)
Inductive starts_with (d : gmap element) : pcontainer -> next_element -> Prop :=
| sw_constant r k c : rl_content r = RConstant c -> c <> [] -> starts_with d (PRule r k) (NConst c)
| sw_pattern r k p ps c : rl_content r = RPattern (p :: ps) c -> starts_with d (PRule r k) (NPat p)
| sw_token e sp k n : name_starts_with d (el_name e) n -> starts_with d (PToken e sp k) n
| sw_named nm sp k n : name_starts_with d nm n -> starts_with d (PRec nm sp k) n
with name_starts_with (d : gmap element) : bytes -> next_element -> Prop :=
| nsw nm e l ls sw c r n : mlookup d nm = Some e -> el_must e = l :: ls -> l = sw ++ ICont c :: r -> Forall (fun i => i = ISwitch) sw ->
    starts_with d c n -> name_starts_with d nm n.
(* the container may not be absent *)
Definition needed (c : pcontainer) : Prop := exists k, card_of c = Some k /\ is_valid k 0 = false.

(* ---- exactness ---- *)
(* what an answer consists of, channels left out: tokens hold the blocks of their chosen
   line, blocks their match, token matches their tokens *)
Inductive held : node -> node -> Prop :=   (* child, parent *)
| he_must e d m n : held (NLine m) (NTok (Tok e d (Some (m, n))))
| he_block i bl b : In b bl -> held (NBlock b) (NLine (LM i bl))
| he_cont m ch : held (NMatch m) (NBlock (BCont m ch))
| he_inner b ch : held (NBlock b) (NBlock (BBlock b ch))
| he_token t : held (NTM t) (NMatch (MToken t))
| he_rule r : held (NRM r) (NMatch (MRule r))
| he_tok t e sp i k l : In t l -> held (NTok t) (NTM (TM e sp i k l)).
Inductive within : node -> node -> Prop :=
| wi_self n : within n n
| wi_part a b c : within a b -> held b c -> within a c.
