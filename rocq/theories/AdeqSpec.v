(* AdeqSpec.v - syntax trees that conform to the declared tokens, and when those of the base
   language can be read. *)
From Coq Require Import Strings.String Strings.Byte.
From Verif Require Import Go DomainModel CardModel PatModel RuleModel PathModel PathSpec LexModel AstModel RootModel RootSpec EvtSpec.
Open Scope string_scope.
Open Scope list_scope.

(* ---- trees of a grammar ---- *)
Section Conform.
Variable ts : list token.
(* the names of the rules of the channels *)
Variable blanks : list bytes.
(* whether a line may be cut short, see lf_cut *)
Variable lenient : Prop.

(* how many tokens of the name the trees are directly made of *)
Definition tokens_named (n : bytes) (l : list atoken) : nat :=
  length (filter (fun e => match e with EToken _ _ => has_name n e | EText _ _ => false end) (concat (map (fun t => entries (at_matches t)) l))).
Definition skippable (e : telem) : Prop := exists c, card_is e c /\ is_valid c 0 = true.
Definition is_reference (e : telem) : Prop := exists r, te_content e = TRef r.

(* the tree is one of the token of that name: one of its lines, the one of the given index *)
Inductive conforms : bytes -> atoken -> Prop :=
| co_token t i l ms : In t ts -> nth_error (t_must t) i = Some l -> line_fills (elements l) (entries ms) -> conforms (t_name t) (AToken (t_name t) i ms)
(* the entries are those of the elements of the line, in order *)
with line_fills : list telem -> list entry -> Prop :=
| lf_end : line_fills [] []
| lf_blank es n w l : In n blanks -> w <> [] -> line_fills es l -> line_fills es (EText n w :: l)
| lf_elem e es a b : fills e a -> line_fills es b -> line_fills (e :: es) (a ++ b)
(* the lexer's liberty: it may stop in front of a reference or of what may be absent *)
| lf_cut e es : lenient -> skippable e \/ is_reference e -> line_fills (e :: es) []
(* a rule is one text, however often it occurs; a reference as many trees as its
   cardinality allows, together with as many parts as its specifiers ask for *)
with fills : telem -> list entry -> Prop :=
| fi_absent e : skippable e -> fills e []
| fi_rule e r w : te_content e = TRule r -> w <> [] -> fills e [EText (rl_name r) w]
| fi_token e r c l : te_content e = TRef r -> card_is e c -> l <> [] -> is_valid c (N.of_nat (length l)) = true ->
    all_conform (tr_name r) l ->
    (forall s, In s (match tr_specs r with Some x => x | None => [] end) -> is_declared ts (ts_name s) ->
       specific_is_valid (ts_card s) (N.of_nat (tokens_named (ts_name s) l)) = true) ->
    fills e (map (EToken (tr_name r)) l)
with all_conform : bytes -> list atoken -> Prop :=
| ac_nil n : all_conform n []
| ac_cons n t l : conforms n t -> all_conform n l -> all_conform n (t :: l).
End Conform.

(* ---- trees whose roots are of the right kind ---- *)
(* the root of a part is that of the last token with the same text within the tree (mirrors):
   it bears the name of the part *)
Definition kinds_agree (a : atoken) : Prop :=
  forall b n x y, In b (all_of a) -> In (EToken n x) (entries (at_matches b)) -> last_with (at_discovery x) (RootSpec.within b) y -> at_name y = at_name x.

(* ---- the base language ---- *)
Section Numbers.
Variable bitsize : N.
Variable parse_float : bytes -> N -> option N.
Definition texts_named (n : string) (b : atoken) : list bytes := map en_text (filter (has_name (bs n)) (entries (at_matches b))).
(* every number of the text has at most that many bits, every float can be parsed *)
Definition numbers_fit (a : atoken) : Prop :=
  forall b, In b (all_of a) ->
    (at_name b = bs "indexValue" \/ at_name b = bs "intValue" ->
       forall w, In w (texts_named "INT_PATTERN" b) -> exists n, fits bitsize w n /\ (texts_named "MINUS" b <> [] -> fits_negative bitsize w n)) /\
    (at_name b = bs "floatValue" ->
       forall u v, texts_named "INT_PATTERN" b = [u; v] -> exists x, parse_float (match texts_named "MINUS" b with [] => [] | _ => bs "-" end ++ u ++ bs "." ++ v) bitsize = Some x).
End Numbers.
Definition blank_names : list bytes := map bs channel_names.
