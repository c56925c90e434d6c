(* SpellSpec.v - syntax trees that conform to the declared tokens down to the texts of their
   rules. *)
From Coq Require Import Strings.String Strings.Byte.
From Verif Require Import Go DomainModel CardModel PatModel RuleModel RuleSpec PathModel PathSpec LexModel LexSpec AstModel RootModel RootSpec AdeqSpec.
Open Scope list_scope.

(* the text is what the rule takes, k times in a row, from some script *)
Definition rule_spells (r : rule) (k : nat) (w : bytes) : Prop := w <> [] /\ exists rest, rule_times r k (w ++ rest) rest.

Section Spell.
Variable ts : list token.
(* the rules of the channels *)
Variable blanks : list rule.

(* as conforms of AdeqSpec.v with the lexer's liberty, but the text under the name of a rule
   is one of that rule, repeated as its cardinality allows, and a blank is a text of a channel *)
Inductive spelled : bytes -> atoken -> Prop :=
| co_token t i l ms : In t ts -> nth_error (t_must t) i = Some l -> line_spelled (elements l) (entries ms) -> spelled (t_name t) (AToken (t_name t) i ms)
with line_spelled : list telem -> list entry -> Prop :=
| lf_end : line_spelled [] []
| lf_blank es r k w l : In r blanks -> rule_spells r k w -> line_spelled es l -> line_spelled es (EText (rl_name r) w :: l)
| lf_elem e es a b : element_spelled e a -> line_spelled es b -> line_spelled (e :: es) (a ++ b)
| lf_cut e es : skippable e \/ is_reference e -> line_spelled (e :: es) []
with element_spelled : telem -> list entry -> Prop :=
| fi_absent e : skippable e -> element_spelled e []
| fi_rule e r c k w : te_content e = TRule r -> card_is e c -> is_valid c (N.of_nat k) = true -> rule_spells r k w -> element_spelled e [EText (rl_name r) w]
| fi_token e r c l : te_content e = TRef r -> card_is e c -> l <> [] -> is_valid c (N.of_nat (length l)) = true ->
    all_spelled (tr_name r) l ->
    (forall s, In s (match tr_specs r with Some x => x | None => [] end) -> is_declared ts (ts_name s) ->
       specific_is_valid (ts_card s) (N.of_nat (tokens_named (ts_name s) l)) = true) ->
    element_spelled e (map (EToken (tr_name r)) l)
with all_spelled : bytes -> list atoken -> Prop :=
| ac_nil n : all_spelled n []
| ac_cons n t l : spelled n t -> all_spelled n l -> all_spelled n (t :: l).
End Spell.

(* the rules written in the lines of the tokens *)
Definition line_rules (l : list telem) : list rule := concat (map (fun e => match te_content e with TRule r => [r] | TRef _ => [] end) l).
Definition rules_of (ts : list token) : list rule := concat (map (fun t => concat (map (fun l => line_rules (elements l)) (t_must t))) ts).
