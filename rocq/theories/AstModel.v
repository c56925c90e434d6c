(* AstModel.v - domain/languages/lexers/asts/mistakes (adapter.go) and
   domain/languages/lexers/asts (adapter.go): from match trees to mistakes and to
   syntax trees.  Definitions only.  Not modelled: Token.Prefix and Token.Suffix
   (always "", asts/token.go), the unused function results (asts/adapter.go). *)
From Coq Require Import Strings.String Strings.Byte.
From Verif Require Export Go DomainModel CardModel PatModel RuleModel PathModel LexModel.
Open Scope list_scope.

(* ---- asts/mistakes ---- *)
(* content.go: exactly one is set *)
Inductive mcontent :=
| McNoMatch
| McValidNot (line : nat)
| McSpecifier (name : bytes) (card : specific) (amount : nat)
| McNext (n : next_element)
| McCardinality (card : cardinality) (amount : nat)
| McPrefix (prefix : bytes).
(* pathcontainer.go *)
Inductive mcontainer := PcRule (name : bytes) | PcToken (name : bytes).
(* mistake.go, index.go, path.go; nil parents is [] *)
Record mistake := { mi_index : nat; mi_line : nat; mi_column : nat; mi_container : mcontainer; mi_parents : list bytes; mi_content : mcontent }.

(* adapter.go:448-462 getCurrentPosition; newline is the byte 10 (sdk.go) *)
Definition newline : bytes := [x0a].
Definition position (content : bytes) : nat * nat * nat :=
  let lines := strsplit newline content in
  match length lines with
  | O => (0, 0, 0)
  | S n =>
    let last := nth n lines [] in
    match length last with
    | O => (length content, n, 0)
    | S c => (length content, n, c)
    end
  end.
(* adapter.go:416-446, path_builder.go:37-62, index_builder.go, builder.go *)
Definition build_mistake (c : mcontainer) (parents : list bytes) (script : bytes) (content : mcontent) : res mistake :=
  match c with
  | PcRule [] => Err
  | PcToken [] => Err
  | _ =>
    let '(i, l, col) := position script in
    Ok {| mi_index := i; mi_line := l; mi_column := col; mi_container := c; mi_parents := parents; mi_content := content |}
  end.

(* currentScript (:24) is the state *)
Definition MM (A : Type) : Type := bytes -> res A * bytes.
Definition mm_ret {A} (a : A) : MM A := fun s => (Ok a, s).
Definition mm_bind {A B} (m : MM A) (f : A -> MM B) : MM B := fun s =>
  match m s with
  | (Ok a, s') => f a s'
  | (Err, s') => (Err, s')
  | (Panic, s') => (Panic, s')
  | (NoFuel, s') => (NoFuel, s')
  end.
Definition mm_append (w : bytes) : MM unit := fun s => (Ok tt, s ++ w).
Definition mm_reset : MM unit := fun _ => (Ok tt, []).
(* :416-432 buildMistakeFromToken, buildMistakeFromRule at the current script *)
Definition mm_fail (c : mcontainer) (parents : list bytes) (content : mcontent) : MM (option mistake) := fun s =>
  (let* m := build_mistake c parents s content in Ok (Some m), s).
(* the loops that stop at the first mistake (:132-146, :303-319, :371-384) *)
Section First.
Context {A : Type} (f : A -> MM (option mistake)).
Fixpoint first_mistake (l : list A) : MM (option mistake) :=
  match l with
  | [] => mm_ret None
  | x :: r => mm_bind (f x) (fun o => match o with Some m => mm_ret (Some m) | None => first_mistake r end)
  end.
End First.

Section Mistakes.
Variable can : bool.    (* canContainPrefix *)
(* :386-414 patternResult; containsprefix_builder.go: the prefix is mandatory *)
Definition pattern_mistake (parents : list bytes) (rule_name : bytes) (p : presult) : MM (option mistake) :=
  mm_bind (mm_append (disc_content (r_disc p))) (fun _ =>
  mm_bind (fun s => (disc_index (r_disc p), s)) (fun i =>
  if negb can && (0 <? i)
  then
    if length (r_input p) <? i then (fun s => (Panic, s))
    else match firstn i (r_input p) with [] => (fun s => (Err, s)) | pre => mm_fail (PcRule rule_name) parents (McPrefix pre) end
  else mm_ret None)).
(* :361-384 ruleResult, patternResults *)
Definition result_mistake (parents : list bytes) (rule_name : bytes) (x : rresult) : MM (option mistake) :=
  match rr_matches x with
  | None => mm_ret None
  | Some l => first_mistake (pattern_mistake parents rule_name) l
  end.
(* :321-359 ruleMatch: the loop over the results returns in its first iteration *)
Definition rule_mistake (parents : list bytes) (r : rulematch) : MM (option mistake) :=
  let name := rl_name (rm_rule r) in
  if negb (rm_card_valid r) then mm_fail (PcRule name) parents (McCardinality (rm_card r) (length (rm_results r)))
  else match rm_results r with [] => mm_ret None | x :: _ => result_mistake parents name x end.

(* :228-256 tokenSpecifiers *)
Definition spec_mistake (parents : list bytes) (token_name : bytes) (toks : list tok) (s : pspec) : MM (option mistake) :=
  let amount := spec_amount (sp_name s) toks in
  if specific_is_valid (sp_card s) (N.of_nat amount) then mm_ret None
  else match sp_name s with [] => (fun st => (Err, st)) | _ => mm_fail (PcToken token_name) parents (McSpecifier (sp_name s) (sp_card s) amount) end.

(* :61-146 token, rootTokenNotFound, lineMatch, matches; :148-185 blockMatch; :187-205 match;
   :207-226 tokenMatch; :258-319 tokenResult, tokenResultMatches *)
Fixpoint tok_mistake (parents : list bytes) (t : tok) : MM (option mistake) :=
  match t with
  | Tok e _ None => fun s => (let* m := build_mistake (PcToken (el_name e)) parents [] McNoMatch in Ok (Some m), s)
  | Tok e _ (Some (must, not)) =>
    match not with
    | None => mm_bind mm_reset (fun _ => line_mistake parents (el_name e) must)
    | Some n =>
      mm_bind mm_reset (fun _ =>
      mm_bind (line_mistake parents (el_name e) n) (fun o =>
      match o with
      | None => mm_fail (PcToken (el_name e)) parents (McValidNot (lm_index n))
      | Some _ => mm_bind mm_reset (fun _ => line_mistake parents (el_name e) must)
      end))
    end
  end
with line_mistake (parents : list bytes) (name : bytes) (l : linematch) : MM (option mistake) :=
  match l with LM _ bl => first_mistake (block_mistake parents name) bl end
with block_mistake (parents : list bytes) (name : bytes) (b : block) : MM (option mistake) :=
  let chan o := mm_append (match o with Some c => lm_disc c | None => [] end) in
  match b with
  | BCont m o => mm_bind (chan o) (fun _ => match_mistake parents name m)
  | BBlock b' o => mm_bind (chan o) (fun _ => block_mistake parents name b')
  | BNext n o => mm_bind (chan o) (fun _ => mm_fail (PcToken name) parents (McNext n))
  end
with match_mistake (parents : list bytes) (name : bytes) (m : mtch) : MM (option mistake) :=
  match m with
  | MToken t => tm_mistake parents name t
  | MRule r => rule_mistake parents r
  | MSkipT _ => mm_ret None
  | MSkipR _ => mm_ret None
  | MLine l => line_mistake parents name l
  end
with tm_mistake (parents : list bytes) (name : bytes) (t : tokmatch) : MM (option mistake) :=
  match t with
  | TM _ specs _ card toks =>
    mm_bind
      (match toks with
       | [] => if is_valid card 0 then mm_ret None else mm_fail (PcToken name) parents McNoMatch
       | _ =>
         if is_valid card (N.of_nat (length toks))
         then first_mistake (tok_mistake (parents ++ [name])) toks
         else mm_fail (PcToken name) parents (McCardinality card (length toks))
       end)
      (fun o => match o with
                | Some m => mm_ret (Some m)
                | None => first_mistake (spec_mistake parents name toks) specs
                end)
  end.
(* :55-59 ToMistake *)
Definition to_mistake (t : tok) : res (option mistake) := fst (tok_mistake [] t []).
End Mistakes.

(* ---- asts ---- *)
(* result.go *)
Record aresult := { ar_input : bytes; ar_disc : list discovery; ar_prefix : bytes; ar_suffix : bytes }.
(* token.go, linematch.go, match.go, tokenmatch.go, rulematch.go; nil matches is [] *)
Inductive atoken := AToken (name : bytes) (line : nat) (matches : list amatch)
with amatch := AMToken (name : bytes) (toks : list atoken) | AMRule (name : bytes) (r : aresult).
Definition at_name (t : atoken) : bytes := match t with AToken n _ _ => n end.
Definition at_line (t : atoken) : nat := match t with AToken _ i _ => i end.
Definition at_matches (t : atoken) : list amatch := match t with AToken _ _ l => l end.
(* token.go:57-77 Discovery *)
Fixpoint at_discovery (t : atoken) : bytes :=
  match t with AToken _ _ l => join [] (map am_discovery l) end
with am_discovery (m : amatch) : bytes :=
  match m with
  | AMToken _ l => join [] (map at_discovery l)
  | AMRule _ r => disc_content (ar_disc r)
  end.

(* adapter.go:246-264: the discoveries, and the index of the first match of the last
   result; a result without matches stops the loop *)
Fixpoint result_discoveries (l : list rresult) (acc : list discovery) (first : nat) : res (list discovery * nat) :=
  match l with
  | [] => Ok (acc, first)
  | x :: r =>
    match rr_matches x with
    | None => Ok (acc, first)
    | Some [] => result_discoveries r acc first
    | Some (m :: ms) =>
      let* i := disc_index (r_disc m) in
      result_discoveries r (acc ++ concat (map r_disc (m :: ms))) i
    end
  end.
(* adapter.go:225-287 ruleMatch, ruleResult; input is the code of the rule (:228);
   result_builder.go: the input is mandatory; rulematch_builder.go: the name is *)
Definition rule_result (r : rulematch) : res (option amatch) :=
  match rm_results r with
  | [] => Ok None
  | _ =>
    let input := rl_code (rm_rule r) in
    let* x := result_discoveries (rm_results r) [] 0 in
    let '(ds, first) := x in
    match ds with
    | [] => Ok None
    | _ =>
      if (0 <? first) && (length input <? first) then Panic
      else
        let prefix := if 0 <? first then firstn first input else [] in
        let n := first + length (rm_disc r) in
        let suffix := if n <? length input then firstn n input else [] in
        match input with
        | [] => Err
        | _ =>
          match rl_name (rm_rule r) with
          | [] => Err
          | nm => Ok (Some (AMRule nm {| ar_input := input; ar_disc := ds; ar_prefix := prefix; ar_suffix := suffix |}))
          end
        end
    end
  end.

Section MapM.
Context {A B : Type} (f : A -> res (list B)).
(* the loops that append and stop at the first error (:109-121, :211-221) *)
Fixpoint collect (l : list A) : res (list B) :=
  match l with
  | [] => Ok []
  | x :: r => let* a := f x in let* b := collect r in Ok (a ++ b)
  end.
End MapM.
(* adapter.go:82-223; token_builder.go, linematch_builder.go, tokenmatch_builder.go *)
Fixpoint ast_tok (t : tok) : res atoken :=
  match t with
  | Tok _ _ None => Panic    (* Content() is nil *)
  | Tok e _ (Some (LM i bl, _)) =>
    let* l := collect ast_block bl in
    match el_name e with [] => Err | nm => Ok (AToken nm i l) end
  end
with ast_block (b : block) : res (list amatch) :=
  let chan o := match o with Some (LM _ bl) => collect ast_block bl | None => Ok [] end in
  match b with
  | BCont m o => let* a := chan o in let* x := ast_match m in Ok (a ++ match x with Some y => [y] | None => [] end)
  | BBlock b' o => let* a := chan o in let* x := ast_block b' in Ok (a ++ x)
  | BNext _ o => let* _ := chan o in Err
  end
with ast_match (m : mtch) : res (option amatch) :=
  match m with
  | MToken t => ast_tm t
  | MRule r => rule_result r
  | MSkipT _ => Ok None
  | MSkipR _ => Ok None
  | MLine _ => Err
  end
with ast_tm (t : tokmatch) : res (option amatch) :=
  match t with
  | TM _ _ _ _ [] => Ok None
  | TM e _ _ _ toks =>
    let* l := collect (fun x => let* a := ast_tok x in Ok [a]) toks in
    match el_name e with [] => Err | nm => Ok (Some (AMToken nm l)) end
  end.

(* ast.go *)
Inductive ast := AMistake (m : mistake) | ASuccess (t : atoken).
(* adapter.go:57-80 ToAST *)
Definition to_ast (channels : nat -> list path) (fuel : nat) (root : path) (can : bool) (script : bytes) (st : lst) : res ast * lst :=
  match to_token channels fuel root script st with
  | (Ok t, st') =>
    (let* o := to_mistake can t in
     match o with
     | Some m => Ok (AMistake m)
     | None => let* a := ast_tok t in Ok (ASuccess a)
     end, st')
  | (Err, st') => (Err, st')
  | (Panic, st') => (Panic, st')
  | (NoFuel, st') => (NoFuel, st')
  end.
