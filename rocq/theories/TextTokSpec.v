(* TextTokSpec.v - vocabulary of the texts of tokens, without reference to the regular
   expressions. *)
From Coq Require Import Strings.String Strings.Byte.
From Verif Require CardSpec.
From Verif Require Import Utf8Spec Go DomainModel CardModel PatModel RuleModel PathModel TextModel TextSpec.
Open Scope list_scope.

(* the pieces of a text between the successive occurrences of a separator *)
Inductive pieces (sep : bytes) : bytes -> list bytes -> Prop :=
| pieces_last s : (forall a b, s <> a ++ sep ++ b) -> pieces sep s [s]
| pieces_more a b l : (forall a' b', a ++ sep ++ b = a' ++ sep ++ b' -> length a <= length a') -> pieces sep b l -> pieces sep (a ++ sep ++ b) (a :: l).

(* P s x rest: the text s starts with an x and then goes on with rest.  Here: one x if there
   is one, else nothing *)
Definition perhaps {X} (P : bytes -> X -> bytes -> Prop) (s : bytes) (x : option X) (rest : bytes) : Prop :=
  match x with
  | Some y => P s y rest
  | None => rest = s /\ forall y r, ~ P s y r
  end.
Definition the_byte (b : byte) (s : bytes) (x : unit) (rest : bytes) : Prop := s = b :: rest.
(* {range} *)
Definition braces (s range rest : bytes) : Prop := s = "{"%byte :: range ++ "}"%byte :: rest /\ range <> [] /\ ~ In "}"%byte range.
(* ->text<- *)
Definition arrows (s text rest : bytes) : Prop :=
  s = bs "->" ++ text ++ bs "<-" ++ rest /\ text <> [] /\ Forall (fun b => b <> "<"%byte /\ b <> "-"%byte) text.
Definition written_opt (x : option unit) (b : byte) : bytes := match x with Some _ => [b] | None => [] end.
(* {range}+*?, each part of it may be missing *)
Definition card_text (s card rest : bytes) : Prop :=
  exists range s1 plus s2 star s3 mark,
    perhaps braces s range s1 /\ perhaps (the_byte "+"%byte) s1 plus s2 /\ perhaps (the_byte "*"%byte) s2 star s3 /\ perhaps (the_byte "?"%byte) s3 mark rest /\
    card = match range with Some r => bs "{" ++ r ++ bs "}" | None => [] end ++ written_opt plus "+"%byte ++ written_opt star "*"%byte ++ written_opt mark "?"%byte.
(* an element: a name as long as possible, blanks, a cardinality and specifiers *)
Record elem := { el_name : bytes; el_card : bytes; el_specs : option bytes }.
Definition element (is_name : bytes -> Prop) (goes_on : byte -> Prop) (s : bytes) (e : elem) (rest : bytes) : Prop :=
  exists w s1 s2, s = el_name e ++ w ++ s1 /\ is_name (el_name e) /\ (forall b r, w ++ s1 = b :: r -> ~ goes_on b) /\
    Forall blank w /\ (forall b r, s1 = b :: r -> ~ blank b) /\ card_text s1 (el_card e) s2 /\ perhaps arrows s2 (el_specs e) rest.
Definition token_element := element token_name (fun b => lower b \/ upper b).
Definition rule_element := element rule_name in_serie_name.
(* what is read at once: a token, a rule and a hash, each of them may be missing *)
Record piece := { pc_token : option elem; pc_rule : option elem; pc_hash : option unit }.
Definition reads_piece (s : bytes) (p : piece) (rest : bytes) : Prop :=
  exists s1 s2, perhaps token_element s (pc_token p) s1 /\ perhaps rule_element s1 (pc_rule p) s2 /\ perhaps (the_byte "#"%byte) s2 (pc_hash p) rest.
Definition no_piece : piece := {| pc_token := None; pc_rule := None; pc_hash := None |}.
(* a line: pieces left to right; a byte that starts none is skipped *)
Inductive reads_line : bytes -> list piece -> Prop :=
| line_end : reads_line [] []
| line_piece s p rest l : reads_piece s p rest -> p <> no_piece -> reads_line rest l -> reads_line s (p :: l)
| line_skip b s l : reads_piece (b :: s) no_piece (b :: s) -> reads_line s l -> reads_line (b :: s) l.

(* specifiers: a token's name, a rule's name, blanks, {range}; text between them is skipped *)
Record spec := { sf_token : option bytes; sf_rule : option bytes; sf_range : bytes }.
Definition a_name (is_name : bytes -> Prop) (goes_on : byte -> Prop) (s n rest : bytes) : Prop :=
  s = n ++ rest /\ is_name n /\ forall b r, rest = b :: r -> ~ goes_on b.
Definition reads_spec (s : bytes) (x : spec) (rest : bytes) : Prop :=
  exists s1 w s2, perhaps (a_name token_name (fun b => lower b \/ upper b)) s (sf_token x) s1 /\ perhaps (a_name rule_name in_serie_name) s1 (sf_rule x) (w ++ s2) /\
    Forall blank w /\ braces s2 (sf_range x) rest.
Inductive reads_specs : bytes -> list spec -> Prop :=
| specs_end : reads_specs [] []
| specs_here s x rest l : reads_spec s x rest -> reads_specs rest l -> reads_specs s (x :: l)
| specs_skip b s l : (forall x rest, ~ reads_spec (b :: s) x rest) -> reads_specs s l -> reads_specs (b :: s) l.

(* blanks, name, blanks, colon, blanks, body; of a body of blanks only the last one is left *)
Definition opens_token (u : bytes) (d : bytes * bytes) : Prop :=
  exists w0 w1 w2, u = w0 ++ fst d ++ w1 ++ colon :: w2 ++ snd d /\ token_name (fst d) /\ Forall blank w0 /\ Forall blank w1 /\ Forall blank w2 /\
    ((exists b, snd d = [b] /\ blank b) \/ exists b r, snd d = b :: r /\ ~ blank b).

Section Tokens.
Variable find_rule : bytes -> rule -> Prop.
Definition card_means (text : bytes) (c : option cardinality) : Prop :=
  match c with None => text = [] | Some c => text <> [] /\ CardSpec.cardinality_text text c end.
(* the rule has precedence over the token *)
Definition spec_means (x : spec) (y : tspec) : Prop :=
  match sf_rule x, sf_token x with
  | Some n, _ => exists r, find_rule n r /\ ts_name y = rl_name r
  | None, Some n => ts_name y = n
  | None, None => False
  end /\
  exists t, trimmed (sf_range x) t /\ t <> [] /\ CardSpec.specific_text t (ts_card y).
Definition specs_mean (text : option bytes) (l : option (list tspec)) : Prop :=
  match text, l with
  | None, None => True
  | Some t, Some l => l <> [] /\ exists xs, reads_specs t xs /\ Forall2 spec_means xs l
  | _, _ => False
  end.
Inductive token_means : elem -> tinstr -> Prop :=
| means_token e c l : card_means (el_card e) c -> specs_mean (el_specs e) l ->
    token_means e (TElem {| te_content := TRef {| tr_name := el_name e; tr_specs := l |}; te_card := c |}).
Inductive rule_means : elem -> tinstr -> Prop :=
| means_rule e r c : find_rule (el_name e) r -> card_means (el_card e) c ->
    rule_means e (TElem {| te_content := TRule r; te_card := c |}).
(* a hash that follows an element at once means nothing *)
Inductive piece_means : piece -> list tinstr -> Prop :=
| means_both t r h a b : token_means t a -> rule_means r b -> piece_means {| pc_token := Some t; pc_rule := Some r; pc_hash := h |} [a; b]
| means_one_token t h a : token_means t a -> piece_means {| pc_token := Some t; pc_rule := None; pc_hash := h |} [a]
| means_one_rule r h b : rule_means r b -> piece_means {| pc_token := None; pc_rule := Some r; pc_hash := h |} [b]
| means_hash : piece_means {| pc_token := None; pc_rule := None; pc_hash := Some tt |} [TSwitch].
Definition line_means (text : bytes) (l : tline) : Prop :=
  l <> [] /\ exists t ps ls, trimmed text t /\ reads_line t ps /\ Forall2 piece_means ps ls /\ l = concat ls.
Definition lines_mean (text : bytes) (l : list tline) : Prop := exists ts, pieces (bs "|") text ts /\ Forall2 line_means ts l.
(* : text *)
Definition after_colon (s t : bytes) : Prop := trimmed s (colon :: t).
(* must --- : not *)
Definition block_means (text : bytes) (must : list tline) (not : option (list tline)) : Prop :=
  exists t ts, pieces (bs "---") text (t :: ts) /\ lines_mean t must /\
    match ts, not with
    | [], None => True
    | n :: _, Some l => exists t, after_colon n t /\ lines_mean t l
    | _, _ => False
    end.
(* block +++ : test ### test ... *)
Definition body_means (text block : bytes) (suite : option (list bytes)) : Prop :=
  exists ts, pieces (bs "+++") text (block :: ts) /\
    match ts, suite with
    | [], None => True
    | n :: _, Some l => exists t ps, after_colon n t /\ pieces (bs "###") t ps /\ l = filter (@non_empty byte) ps /\ l <> []
    | _, _ => False
    end.
Definition declares_token (d : bytes * bytes) (x : token * option (list bytes)) : Prop :=
  t_name (fst x) = fst d /\ exists block, body_means (snd d) block (snd x) /\ block_means block (t_must (fst x)) (t_not (fst x)).
(* what a text of tokens means: the tokens and their tests *)
Definition means_tokens (text : bytes) (l : list (token * option (list bytes))) : Prop :=
  exists ds, declares_all opens_token text ds /\ Forall2 declares_token ds l /\ l <> [] /\ NoDup (map (fun x => t_name (fst x)) l).
End Tokens.
