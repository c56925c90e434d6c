(* OrdSpec.v - vocabulary of the properties about the order in which the lexer visits
   its channels. *)
From Coq Require Import Strings.String Strings.Byte Sorting.Permutation.
From Verif Require Import Go DomainModel CardModel PatModel PatSpec RuleModel PathModel PathSpec LexModel LexSpec SuiteModel TextModel AppModel AppSpec GramModel.
Open Scope list_scope.

(* the rule can read something at the start of the text: its constant is there, or one
   of its patterns matches there *)
Definition begins (r : rule) (t : bytes) : Prop :=
  match rl_content r with
  | RConstant c => c <> [] /\ is_prefix c t
  | RPattern ps _ => exists p, In p ps /\ matches_here p t
  end.
(* a channel made of one line that is one rule, which may not be absent *)
Definition simple_channel (p : path) (r : rule) : Prop :=
  good_rule r /\ el_name (pa_element p) <> [] /\ el_not (pa_element p) = None /\
  exists k, el_must (pa_element p) = [[ICont (PRule r k)]] /\ is_valid k 0 = false.
(* no text is the start of two of the channels *)
Definition never_together (channel : path -> Prop) : Prop :=
  forall p q r r' t, channel p -> channel q -> simple_channel p r -> simple_channel q r' -> begins r t -> begins r' t -> p = q.
(* two schedules of one channel map: every range over it visits the same channels *)
Definition reordered (channels channels' : nat -> list path) : Prop := forall j k, Permutation (channels j) (channels' k).
(* the rule is made of patterns *)
Definition of_patterns (r : rule) : Prop := exists ps k, rl_content r = RPattern ps k.

(* ---- channels as declared ---- *)
Definition rule_channel (t : token) (r : rule) : Prop :=
  good_rule r /\ t_not t = None /\ exists k, t_must t = [[TElem {| te_content := TRule r; te_card := k |}]] /\ is_valid (match k with Some c => c | None => CMandatory end) 0 = false.
(* the channels are single rules, and no text is the start of two of them *)
Definition apart (ts : list token) : Prop :=
  (forall t, In t ts -> exists r, rule_channel t r) /\
  forall t u r r' s, In t ts -> In u ts -> rule_channel t r -> rule_channel u r' -> begins r s -> begins r' s -> t = u.
Definition only_patterns (ts : list token) : Prop := forall t r, In t ts -> rule_channel t r -> of_patterns r.
(* an order of visiting: a list of the same paths each time *)
Definition an_order (o : list path -> nat -> list path) : Prop := forall l k, Permutation l (o l k).
(* the grammar uses the shipped patterns, rules and channels; its tokens may be any *)
Definition shipped_channels (m : multiple) : Prop :=
  ct_patterns (mu_container m) = base_patterns /\ ct_rules (mu_container m) = base_rules /\ mu_channels m = base_channels.
