(* AstSpec.v - vocabulary of the properties of mistakes and syntax trees. *)
From Coq Require Import Strings.String Strings.Byte.
From Verif Require Import Go DomainModel CardModel CardSpec PatModel PatSpec RuleModel RuleSpec PathModel PathSpec LexModel LexSpec AstModel.

(* ---- positions ---- *)
(* after reading [text]: the byte index, the line (from 0) and the column of its last
   character (from 0; 0 if the line has no character yet) *)
Definition newlines (s : bytes) : nat := length (filter (Byte.eqb x0a) s).
Definition at_position (text : bytes) (i l c : nat) : Prop :=
  exists before last, text = before ++ last /\ (before = [] \/ exists b, before = b ++ [x0a]) /\ ~ In x0a last /\
    i = length text /\ l = newlines text /\ c = length last - 1.

(* ---- trees on which mistakes and validity are the same thing ---- *)
(* the first result of a rule match starts with found text; when that stands at offset
   0 of its input so do the others, and when it does not the match may not contain a
   prefix *)
Definition regular (r : rulematch) : Prop :=
  rl_name (rm_rule r) <> [] /\
  forall x l, rm_results r = x :: l -> exists m ms d ds, rr_matches x = Some (m :: ms) /\ r_disc m = d :: ds /\
    (d_index d = 0 -> Forall (fun m' => disc_index (r_disc m') = Ok 0) ms) /\
    (0 < d_index d -> rm_prefix r = false /\ d_index d <= length (r_input m)).
Definition fair (n : node) : Prop :=
  match n with
  | NTok t => tok_name t <> [] /\ the_not t = None
  | NMatch (MLine _) => False
  | NTM x => Forall (fun s => sp_name s <> []) (tm_specs x)
  | NRM r => regular r
  | _ => True
  end.
Definition fair_tree (t : tok) : Prop := forall x, inside x (NTok t) -> fair x.

(* ---- grammars without negative blocks and nested lines ---- *)
Definition plain (p : path) : Prop :=
  (forall e, element_of p e -> el_name e <> [] /\ el_not e = None) /\
  (forall c, occurs_in p c ->
    match c with
    | PRule r _ => good_rule r
    | PToken _ sp _ => Forall (fun s => sp_name s <> []) sp
    | PRec _ sp _ => Forall (fun s => sp_name s <> []) sp
    | PLines _ => False
    end).
(* every name leads somewhere, every element has a first line with something in it and
   constants are not empty *)
Definition resolved (p : path) : Prop :=
  (forall e, element_of p e -> exists l ls, el_must e = l :: ls /\ exists c, In (ICont c) l) /\
  (forall c, occurs_in p c ->
    match c with
    | PToken e _ _ => mlookup (pa_deps p) (el_name e) <> None
    | PRec n _ _ => mlookup (pa_deps p) n <> None
    | PRule r _ => rl_content r <> RConstant []
    | PLines _ => True
    end).

(* ---- the block a line failed at ---- *)
(* the channel text read in front of it *)
Definition opt_text (o : option linematch) : bytes := match o with Some c => lm_disc c | None => [] end.
Fixpoint channel_text (b : block) : bytes :=
  match b with
  | BCont _ o => opt_text o
  | BBlock b' o => opt_text o ++ channel_text b'
  | BNext _ o => opt_text o
  end.
Inductive what := WMatch (m : mtch) | WNext (n : next_element).
Fixpoint content_of (b : block) : what :=
  match b with BCont m _ => WMatch m | BBlock b' _ => content_of b' | BNext n _ => WNext n end.
(* why a block of the token [name] failed, and the text the reported position is after *)
Inductive reason (name : bytes) (b : block) : mcontainer -> mcontent -> bytes -> Prop :=
| rs_next n : content_of b = WNext n -> reason name b (PcToken name) (McNext n) (channel_text b)
| rs_no_match t : content_of b = WMatch (MToken t) -> tm_toks t = [] -> is_valid (tm_card t) 0 = false ->
    reason name b (PcToken name) McNoMatch (channel_text b)
| rs_amount_t t : content_of b = WMatch (MToken t) -> tm_toks t <> [] -> is_valid (tm_card t) (N.of_nat (length (tm_toks t))) = false ->
    reason name b (PcToken name) (McCardinality (tm_card t) (length (tm_toks t))) (channel_text b)
| rs_amount_r r : content_of b = WMatch (MRule r) -> is_valid (rm_card r) (N.of_nat (length (rm_results r))) = false ->
    reason name b (PcRule (rl_name (rm_rule r))) (McCardinality (rm_card r) (length (rm_results r))) (channel_text b)
| rs_prefix r x l m ms i : content_of b = WMatch (MRule r) -> is_valid (rm_card r) (N.of_nat (length (rm_results r))) = true ->
    rm_results r = x :: l -> rr_matches x = Some (m :: ms) -> disc_index (r_disc m) = Ok i -> 0 < i ->
    reason name b (PcRule (rl_name (rm_rule r))) (McPrefix (firstn i (r_input m))) (channel_text b ++ taken m)
| rs_specifier t s text : content_of b = WMatch (MToken t) -> is_valid (tm_card t) (N.of_nat (length (tm_toks t))) = true ->
    In s (tm_specs t) -> specific_is_valid (sp_card s) (N.of_nat (occurrences (sp_name s) (tm_toks t))) = false ->
    reason name b (PcToken name) (McSpecifier (sp_name s) (sp_card s) (occurrences (sp_name s) (tm_toks t))) text.

(* ---- token tables ---- *)
(* the tokens of the table (and the root token): no negative blocks, every token's
   first line has an element, rules with non-empty constants and 64-bit maxima *)
Definition simple_token (t : token) : Prop :=
  token_ok t = true /\ t_not t = None /\
  (exists l ls e, t_must t = l :: ls /\ In (TElem e) l) /\
  (forall l e r, In l (t_must t) -> In (TElem e) l -> te_content e = TRule r ->
     rl_content r <> RConstant [] /\
     match rl_content r with RPattern _ c => forall m, snd (delimiter c) = Some m -> (m < 2 ^ 64)%N | RConstant _ => True end).
(* a path made for a token of a table, with any history of the path adapter *)
Definition made (p : path) : Prop :=
  exists T ts t, good_table T /\ Forall (fun u => token_ok u = true) ts /\ simple_token t /\ Forall simple_token (table_all T) /\
    fst (to_path T none none (after_calls T none none ts) t) = Ok p.
