(* CharSpec.v - vocabulary of "no character is cut": texts and grammars in UTF-8. *)
From Coq Require Import Strings.String Strings.Byte.
From Verif Require Import Go DomainModel CardModel PatModel RuleModel PathModel PathSpec LexModel LexSpec Utf8Spec.
Open Scope list_scope.

(* a text in UTF-8: characters one after the other *)
Inductive utf8_text : bytes -> Prop :=
| utf8_end : utf8_text []
| utf8_more w r : character w -> utf8_text r -> utf8_text (w ++ r).

(* ---- grammars written in UTF-8 ---- *)
Definition group_utf8 (g : group) : Prop := Forall utf8_text (g_list g).
Definition pattern_utf8 (p : pattern) : Prop := forall c g, In c (p_list p) -> In g (s_list (ch_serie c)) -> group_utf8 g.
Definition rule_utf8 (r : rule) : Prop :=
  match rl_content r with RConstant c => utf8_text c | RPattern ps _ => Forall pattern_utf8 ps end.
(* every rule of the container, element, path *)
Definition cont_utf8 (c : pcontainer) : Prop := forall r, rule_in c r -> rule_utf8 r.
Definition el_utf8 (e : element) : Prop := forall c, directly e c -> cont_utf8 c.
Definition path_utf8 (p : path) : Prop := el_utf8 (pa_element p) /\ forall n e, mlookup (pa_deps p) n = Some e -> el_utf8 e.

(* ---- what an answer reports ---- *)
(* every text found by a match of a rule *)
Definition match_utf8 (m : presult) : Prop := Forall (fun d => utf8_text (d_content d)) (r_disc m).
Definition result_utf8 (x : rresult) : Prop := utf8_text (rr_content x) /\ match rr_matches x with Some l => Forall match_utf8 l | None => True end.
(* what a valid answer is made of: the parts (LexSpec held) of lines that are valid *)
Inductive made_of : node -> node -> Prop :=
| mo_self n : made_of n n
| mo_part a b c : made_of a b -> held b c -> (forall m, b = NLine m -> lm_valid m = true) -> made_of a c.
(* the text of a part *)
Definition part_utf8 (n : node) : Prop :=
  match n with
  | NTok t => utf8_text (tok_disc t)
  | NLine l => utf8_text (lm_disc l)
  | NBlock b => utf8_text (b_disc b)
  | NMatch m => utf8_text (m_disc m)
  | NTM t => utf8_text (tm_disc t)
  | NRM r => Forall result_utf8 (rm_results r)
  end.
