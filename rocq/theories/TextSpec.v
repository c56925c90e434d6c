(* TextSpec.v - vocabulary of the text grammars: how texts are cut in declarations and
   names, without reference to the regular expressions. *)
From Coq Require Import Strings.String Strings.Byte.
From Verif Require CardSpec.
From Verif Require Import Go DomainModel CardModel PatModel RuleModel PathModel TextModel Utf8Spec.
Open Scope list_scope.

(* ---- characters and names ---- *)
Definition upper (b : byte) : Prop := (65 <= Byte.to_N b <= 90)%N.
Definition lower (b : byte) : Prop := (97 <= Byte.to_N b <= 122)%N.
Definition underscore (b : byte) : Prop := b = "_"%byte.
Definition blank (b : byte) : Prop := b = " "%byte \/ b = x09 \/ b = x0d \/ b = x0a.
Definition semi : byte := ";"%byte.
Definition colon : byte := ":"%byte.

(* $NAME *)
Definition group_name (n : bytes) : Prop := exists w, n = "$"%byte :: w /\ w <> [] /\ Forall (fun b => upper b \/ underscore b) w.
(* NAME, starting with a letter *)
Definition serie_name (n : bytes) : Prop := exists b w, n = b :: w /\ upper b /\ Forall (fun b => upper b \/ underscore b) w.
(* name *)
Definition pattern_name (n : bytes) : Prop := exists b w, n = b :: w /\ lower b /\ Forall (fun b => lower b \/ underscore b) w.
(* NAME *)
Definition rule_name (n : bytes) : Prop := n <> [] /\ Forall (fun b => upper b \/ underscore b) n.
(* someName *)
Definition token_name (n : bytes) : Prop := exists b w, n = b :: w /\ lower b /\ Forall (fun b => lower b \/ upper b) w.

(* ---- declarations ---- *)
(* the sections of a text end with a semicolon; what follows the last one is ignored *)
Definition cut (text : bytes) (secs : list bytes) (tail : bytes) : Prop :=
  text = concat (map (fun s => s ++ [semi]) secs) ++ tail /\ Forall (fun s => ~ In semi s) secs /\ ~ In semi tail.
(* name : body, where blanks may precede the colon *)
Definition opens (is_name : bytes -> Prop) (u : bytes) (d : bytes * bytes) : Prop :=
  exists w, u = fst d ++ w ++ colon :: snd d /\ is_name (fst d) /\ Forall blank w.
(* name : "body", with blanks around the colon and after the last quote *)
Definition opens_quoted (is_name : bytes -> Prop) (u : bytes) (d : bytes * bytes) : Prop :=
  exists w w2 w3, u = fst d ++ w ++ colon :: w2 ++ dq :: snd d ++ dq :: w3 /\ is_name (fst d) /\ Forall blank w /\ Forall blank w2 /\ Forall blank w3.

Section Reads.
Context {X : Type} (P : bytes -> X -> Prop).
(* a section declares x: the leftmost part of it, up to its end, that is a declaration *)
Definition declares (sec : bytes) (x : X) : Prop :=
  exists pre u, sec = pre ++ u /\ P u x /\ forall pre' u' x', sec = pre' ++ u' -> length pre' < length pre -> ~ P u' x'.
Definition declares_nothing (sec : bytes) : Prop := forall pre u x, sec = pre ++ u -> ~ P u x.
(* the declarations of successive sections *)
Inductive declared : list bytes -> list X -> Prop :=
| declared_nil : declared [] []
| declared_skip s l xs : declares_nothing s -> declared l xs -> declared (s :: l) xs
| declared_take s l x xs : declares s x -> declared l xs -> declared (s :: l) (x :: xs).
(* the declarations of a text *)
Definition declares_all (text : bytes) (xs : list X) : Prop := exists secs tail, cut text secs tail /\ declared secs xs.
End Reads.

(* the names in a text, left to right, each as long as possible *)
Inductive names (is_name : bytes -> Prop) (goes_on : byte -> Prop) : bytes -> list bytes -> Prop :=
| names_end : names is_name goes_on [] []
| names_here n t l : is_name n -> match t with b :: _ => ~ goes_on b | [] => True end -> names is_name goes_on t l -> names is_name goes_on (n ++ t) (n :: l)
| names_skip b t l : (forall n u, b :: t = n ++ u -> ~ is_name n) -> names is_name goes_on t l -> names is_name goes_on (b :: t) l.

(* the last entry of a name *)
Definition last_named {A} (name : A -> bytes) (l : list A) (k : bytes) (x : A) : Prop :=
  exists before after, l = before ++ x :: after /\ name x = k /\ forall y, In y after -> name y <> k.

(* ---- patterns ---- *)
(* escaped quotes are written ### *)
Fixpoint hide_quotes (s : bytes) : bytes :=
  match s with
  | a :: ((b :: r) as t) => if Byte.eqb a backslash && Byte.eqb b dq then escape_code ++ hide_quotes r else a :: hide_quotes t
  | _ => s
  end.
(* the pieces between the occurrences of a byte *)
Definition parted (sep : byte) (s : bytes) (l : list bytes) : Prop := l <> [] /\ s = join [sep] l /\ Forall (fun p => ~ In sep p) l.
(* an option of a group: ### alone is a quote *)
Definition option_value (o v : bytes) : Prop := (o = escape_code /\ v = [dq]) \/ (o <> escape_code /\ v = o).
Definition group_of (d : bytes * bytes) (g : group) : Prop :=
  g_name g = fst d /\ exists os, parted ","%byte (snd d) os /\ Forall2 option_value os (g_list g).
(* @NAME or NAME *)
Definition choice_name (n : bytes) : Prop := serie_name n \/ exists m, n = "@"%byte :: m /\ serie_name m.
Definition in_serie_name (b : byte) : Prop := upper b \/ underscore b.
(* declarations that name something; the others are ignored *)
Inductive naming (is_name : bytes -> Prop) : list (bytes * bytes) -> list (bytes * list bytes) -> Prop :=
| naming_nil : naming is_name [] []
| naming_skip d l r : names is_name in_serie_name (snd d) [] -> naming is_name l r -> naming is_name (d :: l) r
| naming_take d ns l r : names is_name in_serie_name (snd d) ns -> ns <> [] -> naming is_name l r -> naming is_name (d :: l) ((fst d, ns) :: r).
Definition serie_of (groups : list group) (d : bytes * list bytes) (s : serie) : Prop :=
  s_name s = fst d /\ Forall2 (last_named g_name groups) (snd d) (s_list s).
Definition choice_of (series : list serie) (n : bytes) (c : choice) : Prop :=
  (ch_reverse c = false /\ serie_name n /\ last_named s_name series n (ch_serie c)) \/
  (ch_reverse c = true /\ exists m, n = "@"%byte :: m /\ last_named s_name series m (ch_serie c)).
Definition pattern_of (series : list serie) (d : bytes * list bytes) (p : pattern) : Prop :=
  p_name p = fst d /\ Forall2 (choice_of series) (snd d) (p_list p).
(* what a text of patterns means *)
Definition means_patterns (text : bytes) (ps : list pattern) : Prop :=
  exists gd groups sd sn series pd pn,
    declares_all (opens_quoted group_name) (hide_quotes text) gd /\ Forall2 group_of gd groups /\ groups <> [] /\
    declares_all (opens serie_name) text sd /\ naming group_name sd sn /\ Forall2 (serie_of groups) sn series /\
    declares_all (opens pattern_name) text pd /\ naming choice_name pd pn /\ Forall2 (pattern_of series) pn ps /\ ps <> [].

(* ---- well-formed sources of patterns ---- *)
(* what a source declares: groups of options, series of groups, patterns of series (true: with an @) *)
Inductive item :=
| IGroup (name : bytes) (options : list bytes)
| ISerie (name : bytes) (groups : list bytes)
| IPattern (name : bytes) (choices : list (bool * bytes)).
(* an option as it is written: a quote is escaped, the others are free of the grammar's characters *)
Definition plain_option (o : bytes) : Prop :=
  Forall (fun b => ~ In b [","; ";"; ":"; "$"]%byte /\ b <> dq /\ b <> backslash) o /\ o <> escape_code.
Definition option_text (o t : bytes) : Prop := (o = [dq] /\ t = [backslash; dq]) \/ (plain_option o /\ t = o).
(* names with blanks between them *)
Inductive spread (gap : bytes -> Prop) : list bytes -> bytes -> Prop :=
| spread_last n w : Forall blank w -> spread gap [n] (n ++ w)
| spread_more n w l t : Forall blank w -> gap w -> spread gap l t -> spread gap (n :: l) (n ++ w ++ t).
Definition choice_written (c : bool * bytes) : bytes := (if fst c then ["@"%byte] else []) ++ snd c.
(* an item on a line, with any blanks; series of a pattern are separated by at least one *)
Inductive line : item -> bytes -> Prop :=
| line_group n os ts w0 w1 w2 w3 : group_name n -> os <> [] -> Forall2 option_text os ts -> Forall blank w0 -> Forall blank w1 -> Forall blank w2 -> Forall blank w3 ->
    line (IGroup n os) (w0 ++ n ++ w1 ++ colon :: w2 ++ dq :: join (bs ",") ts ++ dq :: w3)
| line_serie n gs t w0 w1 w2 : serie_name n -> Forall group_name gs -> spread (fun _ => True) gs t -> Forall blank w0 -> Forall blank w1 -> Forall blank w2 ->
    line (ISerie n gs) (w0 ++ n ++ w1 ++ colon :: w2 ++ t)
| line_pattern n cs t w0 w1 w2 : pattern_name n -> Forall (fun c => serie_name (snd c)) cs -> spread (fun w => w <> []) (map choice_written cs) t -> Forall blank w0 -> Forall blank w1 -> Forall blank w2 ->
    line (IPattern n cs) (w0 ++ n ++ w1 ++ colon :: w2 ++ t).
(* a source: lines that end with a semicolon, then blanks *)
Definition written (items : list item) (text : bytes) : Prop :=
  exists lines w, Forall2 line items lines /\ text = concat (map (fun l => l ++ [semi]) lines) ++ w /\ Forall blank w.
Definition item_groups (items : list item) : list group :=
  concat (map (fun i => match i with IGroup n os => [{| g_name := n; g_list := os |}] | _ => [] end) items).
Definition item_series (items : list item) : list (bytes * list bytes) :=
  concat (map (fun i => match i with ISerie n gs => [(n, gs)] | _ => [] end) items).
Definition item_patterns (items : list item) : list (bytes * list bytes) :=
  concat (map (fun i => match i with IPattern n cs => [(n, map choice_written cs)] | _ => [] end) items).
(* the patterns a source declares, names resolved to the last of that name *)
Definition items_mean (items : list item) (ps : list pattern) : Prop :=
  exists series, item_groups items <> [] /\ Forall2 (serie_of (item_groups items)) (item_series items) series /\
    Forall2 (pattern_of series) (item_patterns items) ps /\ ps <> [].

(* ---- rules ---- *)
(* NAME:body, without blanks before the colon *)
Definition opens_tight (is_name : bytes -> Prop) (u : bytes) (d : bytes * bytes) : Prop := u = fst d ++ colon :: snd d /\ is_name (fst d).
(* ### is a quote *)
Fixpoint show_quotes (s : bytes) : bytes :=
  match s with
  | [] => []
  | a :: r =>
    match r with
    | b :: c :: r' => if bytes_eqb [a; b; c] escape_code then dq :: show_quotes r' else a :: show_quotes r
    | _ => a :: show_quotes r
    end
  end.
(* what precedes the first quote of a text *)
Definition until_quote (body p : bytes) : Prop := exists rest, body = p ++ rest /\ ~ In dq p /\ (rest = [] \/ exists r, rest = dq :: r).
(* [names] in a text, from its first opening bracket to the first closing bracket that follows *)
Definition bracketed (p names around : bytes) : Prop :=
  exists a w z, p = a ++ "["%byte :: w ++ names ++ "]"%byte :: z /\ around = a ++ z /\ ~ In "["%byte a /\ Forall blank w /\ ~ In "]"%byte names /\
    forall b r, names = b :: r -> ~ blank b.
Section Rules.
Variable find_pattern : bytes -> pattern -> Prop.
Inductive content_of (body : bytes) : rule_content -> Prop :=
(* "constant" *)
| content_constant p c rest : body = p ++ dq :: c ++ dq :: rest -> white_text p -> ~ In dq c -> content_of body (RConstant (show_quotes c))
(* white space only: the empty constant *)
| content_blank p : until_quote body p -> white_text p -> p <> [] -> (forall c rest, body <> p ++ dq :: c ++ dq :: rest) -> content_of body (RConstant [])
(* [names] and a cardinality *)
| content_pattern p t ns around names ps c : until_quote body p -> trimmed p t -> t <> [] -> bracketed t ns around -> parted " "%byte ns names ->
    Forall2 find_pattern names ps -> CardSpec.cardinality_text around c -> content_of body (RPattern ps c).
Definition rule_of (d : bytes * bytes) (r : rule) : Prop :=
  rl_name r = fst d /\ rl_code r = fst d ++ colon :: snd d ++ [semi] /\ content_of (hide_quotes (snd d)) (rl_content r).
(* what a text of rules means *)
Definition means_rules (text : bytes) (rs : list rule) : Prop :=
  exists rd, declares_all (opens_tight rule_name) text rd /\ Forall2 rule_of rd rs /\ rs <> [] /\ NoDup (map rl_name rs).
(* neither blanks nor brackets *)
Definition unbracketed (body : bytes) : Prop :=
  exists p, until_quote body p /\ ~ white_text p /\ forall a b z, p <> a ++ "["%byte :: b ++ "]"%byte :: z.
End Rules.
