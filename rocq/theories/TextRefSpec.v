(* TextRefSpec.v - vocabulary of the texts of references, without reference to the regular
   expressions. *)
From Coq Require Import Strings.String Strings.Byte.
From Verif Require Import Go TextModel TextSpec Utf8Spec.
Open Scope list_scope.

(* P s x rest: the text s starts with an x and then goes on with rest *)
Section Forms.
Context {X : Type} (P : bytes -> X -> bytes -> Prop).
Definition after_text (t s : bytes) (x : X) (rest : bytes) : Prop := exists u, s = t ++ u /\ P u x rest.
(* all the blanks there are, then an x *)
Definition after_blanks (s : bytes) (x : X) (rest : bytes) : Prop :=
  exists w u, s = w ++ u /\ Forall blank w /\ (forall b r, u = b :: r -> ~ blank b) /\ P u x rest.
(* one character, whatever it is except a line feed *)
Definition after_any (s : bytes) (x : X) (rest : bytes) : Prop :=
  exists w u, s = w ++ u /\ first_character s w /\ w <> [x0a] /\ P u x rest.
(* the longest name that is followed by an x *)
Definition longest_name (s : bytes) (y : bytes * X) (rest : bytes) : Prop :=
  exists u, s = fst y ++ u /\ token_name (fst y) /\ P u (snd y) rest /\
    forall n' u' x' r', s = n' ++ u' -> token_name n' -> length (fst y) < length n' -> ~ P u' x' r'.
(* what is read in a text, left to right; text between is skipped *)
Inductive reads_all : bytes -> list X -> Prop :=
| all_end : reads_all [] []
| all_here s x rest l : P s x rest -> reads_all rest l -> reads_all s (x :: l)
| all_skip b s l : (forall x rest, ~ P (b :: s) x rest) -> reads_all s l -> reads_all (b :: s) l.
End Forms.
Definition done (s : bytes) (x : unit) (rest : bytes) : Prop := rest = s.

(* include name "body" *)
Definition include_at (s : bytes) (d : bytes * bytes) (rest : bytes) : Prop :=
  exists w1 w2, s = bs "include" ++ w1 ++ fst d ++ w2 ++ dq :: snd d ++ dq :: rest /\ token_name (fst d) /\ Forall blank w1 /\ Forall blank w2 /\ ~ In dq (snd d).
(* the three names of: reference local include.token *)
Definition reference_at : bytes -> bytes * (bytes * (bytes * unit)) -> bytes -> Prop :=
  after_text (after_blanks (longest_name (after_blanks (longest_name (after_any (longest_name (after_blanks done))))))) (bs "reference").
(* the three names of: replace include.token local *)
Definition replace_at : bytes -> bytes * (bytes * (bytes * unit)) -> bytes -> Prop :=
  after_text (after_blanks (longest_name (after_any (longest_name (after_blanks (longest_name (after_blanks done))))))) (bs "replace").

(* rules;tokens or rules;tokens;channels *)
Definition include_of (d : bytes * bytes) (i : include) : Prop :=
  in_name i = fst d /\ rp_rules (in_paths i) <> [] /\ rp_tokens (in_paths i) <> [] /\
  exists ps, parted semi (snd d) ps /\
    (ps = [rp_rules (in_paths i); rp_tokens (in_paths i)] /\ rp_channels (in_paths i) = [] \/
     ps = [rp_rules (in_paths i); rp_tokens (in_paths i); rp_channels (in_paths i)]).
Definition reference_of (is : list include) (d : bytes * (bytes * (bytes * unit))) (l : link) : Prop :=
  lk_local l = fst d /\ last_named in_name is (fst (snd d)) (lk_include l) /\ lk_reference l = fst (snd (snd d)).
Definition replacement_of (is : list include) (d : bytes * (bytes * (bytes * unit))) (l : link) : Prop :=
  last_named in_name is (fst d) (lk_include l) /\ lk_reference l = fst (snd d) /\ lk_local l = fst (snd (snd d)).
Definition some_links (l : list link) (o : option (list link)) : Prop := (l = [] /\ o = None) \/ (l <> [] /\ o = Some l).
(* what a text of references means *)
Definition means_references (text : bytes) (r : references) : Prop :=
  exists ids is fds fs pds ps,
    reads_all include_at text ids /\ Forall2 include_of ids is /\
    reads_all reference_at text fds /\ Forall2 (reference_of is) fds fs /\ some_links fs (rf_references r) /\
    reads_all replace_at text pds /\ Forall2 (replacement_of is) pds ps /\ some_links ps (rf_replacements r).

(* ---- well-formed sources of references ---- *)
Inductive ref_item :=
| RInclude (i : include)
| RReference (local include token : bytes)
| RReplace (include token local : bytes).
Definition contains (k s : bytes) : Prop := exists a b, s = a ++ k ++ b.
(* none of the three keywords occurs in it *)
Definition word_free (s : bytes) : Prop := Forall (fun k => ~ contains k s) [bs "include"; bs "reference"; bs "replace"].
Definition plain_name (n : bytes) : Prop := token_name n /\ word_free n.
Definition plain_path (p : bytes) : Prop := ~ In semi p /\ ~ In dq p /\ word_free p.
Definition spaces (w : bytes) : Prop := Forall blank w /\ w <> [].
(* an item on a line, that ends with at least one blank *)
Inductive ref_line : ref_item -> bytes -> Prop :=
| line_include i ps w1 w2 w3 : plain_name (in_name i) -> rp_rules (in_paths i) <> [] -> rp_tokens (in_paths i) <> [] -> Forall plain_path ps ->
    (ps = [rp_rules (in_paths i); rp_tokens (in_paths i)] /\ rp_channels (in_paths i) = [] \/ ps = [rp_rules (in_paths i); rp_tokens (in_paths i); rp_channels (in_paths i)]) ->
    spaces w1 -> Forall blank w2 -> spaces w3 ->
    ref_line (RInclude i) (bs "include" ++ w1 ++ in_name i ++ w2 ++ dq :: join [semi] ps ++ dq :: w3)
| line_reference l i t w1 w2 w3 : plain_name l -> plain_name i -> plain_name t -> spaces w1 -> spaces w2 -> spaces w3 ->
    ref_line (RReference l i t) (bs "reference" ++ w1 ++ l ++ w2 ++ i ++ bs "." ++ t ++ w3)
| line_replace i t l w1 w2 w3 : plain_name i -> plain_name t -> plain_name l -> spaces w1 -> spaces w2 -> spaces w3 ->
    ref_line (RReplace i t l) (bs "replace" ++ w1 ++ i ++ bs "." ++ t ++ w2 ++ l ++ w3).
Definition written_references (items : list ref_item) (text : bytes) : Prop :=
  exists w lines, Forall blank w /\ Forall2 ref_line items lines /\ text = w ++ concat lines.
Definition item_includes (items : list ref_item) : list include :=
  concat (map (fun x => match x with RInclude i => [i] | _ => [] end) items).
Definition item_references (items : list ref_item) : list (bytes * (bytes * (bytes * unit))) :=
  concat (map (fun x => match x with RReference l i t => [(l, (i, (t, tt)))] | _ => [] end) items).
Definition item_replacements (items : list ref_item) : list (bytes * (bytes * (bytes * unit))) :=
  concat (map (fun x => match x with RReplace i t l => [(i, (t, (l, tt)))] | _ => [] end) items).
(* the links a source declares, an include's name denotes the last of that name *)
Definition ref_items_mean (items : list ref_item) (r : references) : Prop :=
  exists fs ps, Forall2 (reference_of (item_includes items)) (item_references items) fs /\ some_links fs (rf_references r) /\
    Forall2 (replacement_of (item_includes items)) (item_replacements items) ps /\ some_links ps (rf_replacements r).
