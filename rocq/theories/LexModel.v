(* LexModel.v - domain/languages/lexers/asts/tokens: the lexer (adapter.go) and the
   match trees it answers.  Definitions only.
   Not modelled: the With.. builders, except for their failures. *)
From Coq Require Import Strings.String Strings.Byte.
From Verif Require Export Go DomainModel CardModel PatModel RuleModel PathModel.
Open Scope list_scope.

(* ---- match trees ---- *)
(* nextelement.go *)
Inductive next_element := NConst (c : bytes) | NPat (p : pattern).
(* rulematch.go, rulematchresult.go, result.go: the rule path is (base, cardinality);
   no results (nil) is [] (result_builder.go:30-32) *)
Record rulematch := { rm_rule : rule; rm_card : cardinality; rm_results : list rresult; rm_prefix : bool }.
(* token.go (the path is the element and its dependencies), tokencontent.go,
   linematch.go + matches.go, blockmatch.go + blockmatchcontent.go, match.go +
   matchcontent.go + skipmatch.go, tokenmatch.go + tokenresult.go +
   tokenresultmatches.go (no matches, nil, is []; every specifier's result is the
   match's own result, adapter.go:653-667) *)
Inductive tok := Tok (el : element) (deps : gmap element) (content : option (linematch * option linematch))
with linematch := LM (index : nat) (blocks : list block)
with block :=
| BCont (m : mtch) (chan : option linematch)
| BBlock (b : block) (chan : option linematch)
| BNext (n : next_element) (chan : option linematch)
with mtch := MToken (t : tokmatch) | MRule (r : rulematch) | MSkipT (t : tokmatch) | MSkipR (r : rulematch) | MLine (l : linematch)
with tokmatch := TM (el : element) (specs : list pspec) (input : bytes) (card : cardinality) (toks : list tok).
Definition tok_el (t : tok) : element := match t with Tok e _ _ => e end.
Definition tok_content (t : tok) : option (linematch * option linematch) := match t with Tok _ _ c => c end.
Definition tok_name (t : tok) : bytes := el_name (tok_el t).
Definition lm_index (l : linematch) : nat := match l with LM i _ => i end.
Definition lm_blocks (l : linematch) : list block := match l with LM _ b => b end.
Definition tm_el (t : tokmatch) : element := match t with TM e _ _ _ _ => e end.
Definition tm_specs (t : tokmatch) : list pspec := match t with TM _ s _ _ _ => s end.
Definition tm_input (t : tokmatch) : bytes := match t with TM _ _ i _ _ => i end.
Definition tm_card (t : tokmatch) : cardinality := match t with TM _ _ _ c _ => c end.
Definition tm_toks (t : tokmatch) : list tok := match t with TM _ _ _ _ l => l end.

(* result.go:32-38, rulematchresult.go:24-27 *)
Definition rm_amount (r : rulematch) : N := N.of_nat (length (rm_results r)).
Definition rm_card_valid (r : rulematch) : bool := is_valid (rm_card r) (rm_amount r).
(* the first discovery index of a result with matches: its matches are never empty
   (results/adapter.go:83-87, results/builder.go) and neither are its discoveries *)
Definition first_index (p : rresult) : option nat :=
  match rr_matches p with
  | Some (m :: _) => match r_disc m with d :: _ => Some (d_index d) | [] => None end
  | _ => None
  end.
(* rulematch.go:47-71 IsExact *)
Definition rm_exact (r : rulematch) : bool :=
  match rm_results r with
  | [] => is_valid (rm_card r) 0
  | x :: _ => if rm_prefix r then true else match first_index x with Some i => i <=? 0 | None => false end
  end.
(* rulematch.go:36-44 IsValid *)
Definition rm_valid (r : rulematch) : bool := rm_card_valid r && rm_exact r.
(* result.go:41-52 Discoveries *)
Definition rm_disc (r : rulematch) : bytes := join [] (map rr_content (rm_results r)).

(* specifier.go:81-116: the amount in one block *)
Fixpoint block_amount (name : bytes) (b : block) : nat :=
  match b with
  | BCont (MToken t) _ => if bytes_eqb (el_name (tm_el t)) name then length (tm_toks t) else 0
  | BCont (MRule r) _ => if bytes_eqb (rl_name (rm_rule r)) name then length (rm_results r) else 0
  | BCont _ _ => 0
  | BBlock b' _ => block_amount name b'
  | BNext _ _ => 0
  end.
Definition sum (l : list nat) : nat := fold_right Nat.add 0 l.

(* IsValid: token.go:41-47, tokencontent.go:32-38, matches.go:38-46, blockmatch.go:61-73,
   match.go:46-57, tokenmatch.go:39-49, tokenresult.go:61-72, tokenresultmatches.go:31-39 *)
Fixpoint tok_valid (t : tok) : bool :=
  match t with
  | Tok _ _ None => false
  | Tok _ _ (Some (must, Some not)) => negb (lm_valid not)
  | Tok _ _ (Some (must, None)) => lm_valid must
  end
with lm_valid (l : linematch) : bool := match l with LM _ bl => forallb b_valid bl end
with b_valid (b : block) : bool :=
  match b with BCont m _ => m_valid m | BBlock b' _ => b_valid b' | BNext _ _ => false end
with m_valid (m : mtch) : bool :=
  match m with MRule r => rm_valid r | MToken t => tm_valid t | MSkipT _ => true | MSkipR _ => true | MLine _ => true end
with tm_valid (t : tokmatch) : bool :=
  match t with
  | TM _ specs _ card toks =>
    (* specifier.go:41-79 IsValid and the amount over the result *)
    forallb (fun s => specific_is_valid (sp_card s) (N.of_nat (sum (map (fun x =>
      if tok_valid x then
        match x with
        | Tok _ _ (Some (LM _ bl, _)) => sum (map (fun b => if b_valid b then block_amount (sp_name s) b else 0) bl)
        | _ => 0
        end
      else 0) toks)))) specs
    && (is_valid card (N.of_nat (length toks)) && forallb tok_valid toks)
  end.
(* specifier.go:47-49 Amount *)
Definition spec_amount (name : bytes) (toks : list tok) : nat :=
  sum (map (fun x =>
    if tok_valid x then
      match x with
      | Tok _ _ (Some (LM _ bl, _)) => sum (map (fun b => if b_valid b then block_amount name b else 0) bl)
      | _ => 0
      end
    else 0) toks).

(* Discoveries: token.go:59-65, tokencontent.go:50-56, matches.go:60-71,
   blockmatch.go:91-114, match.go:32-43, tokenresult.go:88-94, tokenresultmatches.go:53-60 *)
Fixpoint tok_disc (t : tok) : bytes :=
  match t with
  | Tok _ _ None => []
  | Tok _ _ (Some (must, Some not)) => if lm_valid not then [] else lm_disc must
  | Tok _ _ (Some (must, None)) => lm_disc must
  end
with lm_disc (l : linematch) : bytes :=
  match l with LM _ bl => if forallb b_valid bl then join [] (map b_disc bl) else [] end
with b_disc (b : block) : bytes :=
  match b with
  | BCont m chan => (match chan with Some c => lm_disc c | None => [] end) ++ m_disc m
  | BBlock b' chan => (match chan with Some c => lm_disc c | None => [] end) ++ b_disc b'
  | BNext _ chan => match chan with Some c => lm_disc c | None => [] end
  end
with m_disc (m : mtch) : bytes :=
  match m with MRule r => rm_disc r | MToken t => tm_disc t | MSkipT _ => [] | MSkipR _ => [] | MLine _ => [] end
with tm_disc (t : tokmatch) : bytes := match t with TM _ _ _ _ toks => join [] (map tok_disc toks) end.

(* IsExact: token.go:50-56, tokencontent.go:41-47, matches.go:49-57, blockmatch.go:76-88,
   match.go:60-71, tokenmatch.go:52-54, tokenresult.go:75-81, tokenresultmatches.go:42-50 *)
Fixpoint tok_exact (t : tok) : bool :=
  match t with
  | Tok _ _ None => false
  | Tok _ _ (Some (must, Some not)) => if lm_valid not then false else lm_exact must
  | Tok _ _ (Some (must, None)) => lm_exact must
  end
with lm_exact (l : linematch) : bool := match l with LM _ bl => forallb b_exact bl end
with b_exact (b : block) : bool :=
  match b with BCont m _ => m_exact m | BBlock b' _ => b_exact b' | BNext _ _ => false end
with m_exact (m : mtch) : bool :=
  match m with MRule r => rm_exact r | MToken t => tm_exact t | MSkipT _ => true | MSkipR _ => true | MLine _ => true end
with tm_exact (t : tokmatch) : bool :=
  match t with TM _ _ _ _ [] => false | TM _ _ _ _ toks => forallb tok_exact toks end.

(* tokenresultmatches.go:63-79 IsAmount, IsInRange, IsAtLeast (bounds below 2^63) *)
Definition toks_is_amount (l : list tok) (n : nat) : bool := length l =? n.
Definition toks_is_at_least (l : list tok) (n : nat) : bool := n <=? length l.
Definition toks_is_in_range (l : list tok) (min max : nat) : bool := toks_is_at_least l min && (length l <? max).

(* ---- the lexer ---- *)
(* adapter.go:32,34: canContainPrefix and recursiveTokens; ls_tick counts how often the
   channel map was ranged over since the adapter was made *)
Record lst := { ls_rec : gmap bytes; ls_pre : bool; ls_tick : nat }.
Definition M (A : Type) : Type := lst -> res A * lst.
Definition ret {A} (a : A) : M A := fun s => (Ok a, s).
Definition lift {A} (r : res A) : M A := fun s => (r, s).
Definition mbind {A B} (m : M A) (f : A -> M B) : M B := fun s =>
  match m s with
  | (Ok a, s') => f a s'
  | (Err, s') => (Err, s')
  | (Panic, s') => (Panic, s')
  | (NoFuel, s') => (NoFuel, s')
  end.
Notation "'do' x <- m ;; k" := (mbind m (fun x => k)) (at level 61, x pattern, m at next level, right associativity).

(* strings.Replace(s, p, "", 1) where p is a prefix of s *)
Definition cut (p s : bytes) : bytes := skipn (length p) s.

(* paths/container.go:53-63 Cardinality: a container with lines has a nil recursive *)
Definition cont_card (c : pcontainer) : res cardinality :=
  match c with PToken _ _ k => Ok k | PRule _ k => Ok k | PRec _ _ k => Ok k | PLines _ => Panic end.

(* adapter.go:455-464 fetchFirstContainerFromLine *)
Fixpoint first_container (l : line) : option pcontainer :=
  match l with [] => None | ICont c :: _ => Some c | ISwitch :: r => first_container r end.
(* adapter.go:430-454 fetchFirstRuleFromTokenName; fuel bounds the recursion.  A nil
   container or one with lines panics on the nil recursive token. *)
Fixpoint first_rule (fuel : nat) (d : gmap element) (name : bytes) : res rule :=
  match fuel with
  | O => NoFuel
  | S n =>
    let* e := dep_fetch d name in
    match el_must e with
    | [] => Panic
    | l :: _ =>
      match first_container l with
      | Some (PToken e' _ _) => first_rule n d (el_name e')
      | Some (PRule r _) => Ok r
      | Some (PRec nm _ _) => first_rule n d nm
      | Some (PLines _) => Panic
      | None => Panic
      end
    end
  end.
(* adapter.go:466-480 buildNextElementFromRule, nextelement_builder.go:41-51 *)
Definition next_from_rule (r : rule) : res next_element :=
  match rl_content r with
  | RConstant [] => Err
  | RConstant c => Ok (NConst c)
  | RPattern (p :: _) _ => Ok (NPat p)
  | RPattern [] _ => Panic
  end.
(* adapter.go:406-428 buildNextElement, buildNextElementFromTokenName *)
Definition build_next (fuel : nat) (c : pcontainer) (d : gmap element) : res next_element :=
  match c with
  | PRule r _ => next_from_rule r
  | PToken e _ _ => let* r := first_rule fuel d (el_name e) in next_from_rule r
  | PRec nm _ _ => let* r := first_rule fuel d nm in next_from_rule r
  | PLines _ => Panic
  end.

(* adapter.go:740-777, the loop of ruleToRuleMatch; [local] is the permission at its
   start.  fuel bounds the iterations. *)
Fixpoint rule_loop (fuel : nat) (r : rule) (pmax : option N) (local : bool) (script_length : nat)
    (acc : list rresult) (remaining : bytes) : M (list rresult) :=
  match fuel with
  | O => lift NoFuel
  | S n =>
    match to_result r remaining with
    | Panic => lift Panic
    | NoFuel => lift NoFuel
    | Err => ret acc
    | Ok x =>
      match rr_matches x with
      | None => ret acc
      | Some _ => fun s =>
        let acc := acc ++ [x] in
        match first_index x with
        | None => (Panic, s)
        | Some i =>
          let s := if 0 <? i then {| ls_rec := ls_rec s; ls_pre := false; ls_tick := ls_tick s |} else s in
          if (0 <? i) && negb local then (Ok acc, s)
          else if script_length <=? length (rr_content x) then (Ok acc, s)
          else if length remaining <? length (rr_content x) then (Panic, s)
          else if match pmax with Some m => (m <=? N.of_nat (length acc))%N | None => false end then (Ok acc, s)
          else rule_loop n r pmax local script_length acc (skipn (length (rr_content x)) remaining) s
        end
      end
    end
  end.
(* adapter.go:733-793 ruleToRuleMatch *)
Definition rule_to_match (r : rule) (card : cardinality) (script : bytes) (chans : bool) : M rulematch := fun s =>
  let '(_, pmax) := delimiter card in
  (do l <- rule_loop (S (length script)) r pmax (ls_pre s && chans) (length script) [] script ;;
   fun s' => (Ok {| rm_rule := r; rm_card := card; rm_results := l; rm_prefix := ls_pre s' && chans |}, s')) s.

Section Lexer.
(* adapter.go:31 channels is a map; Go chooses an order each time the map is ranged
   over: [channels k] is the order of the k-th time *)
Variable channels : nat -> list path.

Section Step.
(* containerToBlockMatch one level down: container, dependencies, script, chans, next *)
Variable cbm : pcontainer -> gmap element -> bytes -> bool -> bool -> M (option block).

(* adapter.go:317-365 lineToMatches.  None is nil.  The loop answers None when a
   match's discoveries are not a prefix. *)
Fixpoint line_loop (l : line) (d : gmap element) (remaining : bytes) (chans next : bool) (acc : list block) : M (option (list block)) :=
  match l with
  | [] => ret (Some acc)
  | ISwitch :: r => line_loop r d remaining chans (negb next) acc
  | ICont c :: r =>
    do o <- cbm c d remaining chans next ;;
    match o with
    | None => ret (Some acc)
    | Some m =>
      if negb (b_valid m) then ret (Some [m])
      else if has_prefix (b_disc m) remaining
      then line_loop r d (cut (b_disc m) remaining) (if next then chans else false) next (acc ++ [m])
      else ret None
    end
  end.
Definition line_to_matches (l : line) (d : gmap element) (script : bytes) (chans : bool) : M (option (list block)) :=
  do o <- line_loop l d script chans chans [] ;;
  ret (match o with Some [] => None | _ => o end).

(* adapter.go:252-296 bestLineToMatches: the index of the line, the valid matches
   found with the length of their discoveries, and the invalid ones.  The count of
   invalid matches is compared with 0 always (:256,271), never updated. *)
Fixpoint best_loop (ls : list line) (i : nat) (d : gmap element) (script : bytes) (chans : bool)
    (biggest : nat) (valid invalid : option (nat * list block)) : M (option (nat * list block) * option (nat * list block)) :=
  match ls with
  | [] => ret (valid, invalid)
  | l :: r =>
    do o <- line_to_matches l d script chans ;;
    match o with
    | None => best_loop r (S i) d script chans biggest valid invalid
    | Some bl =>
      if negb (lm_valid (LM i bl))
      then best_loop r (S i) d script chans biggest valid (if 0 <? length bl then Some (i, bl) else invalid)
      else if biggest <? length (lm_disc (LM i bl))
      then best_loop r (S i) d script chans (length (lm_disc (LM i bl))) (Some (i, bl)) invalid
      else best_loop r (S i) d script chans biggest valid invalid
    end
  end.
Definition best_line (ls : list line) (d : gmap element) (script : bytes) (chans : bool) : M (option linematch) :=
  do r <- best_loop ls 0 d script chans 0 None None ;;
  ret (match r with
       | (Some (i, bl), _) => Some (LM i bl)
       | (None, Some (i, bl)) => Some (LM i bl)
       | (None, None) => None
       end).

(* adapter.go:225-250 elementToTokenContent *)
Definition element_to_content (e : element) (d : gmap element) (script : bytes) (chans : bool) : M (option (linematch * option linematch)) :=
  do must <- best_line (el_must e) d script chans ;;
  match must with
  | None => ret None
  | Some m =>
    match el_not e with
    | None => ret (Some (m, None))
    | Some ls => do n <- best_line ls d script chans ;; ret (Some (m, n))
    end
  end.
(* adapter.go:205-223 elementToToken; builder.go: the name is mandatory *)
Definition element_to_token (e : element) (d : gmap element) (script : bytes) (chans : bool) : M tok :=
  do c <- element_to_content e d script chans ;;
  lift (match el_name e with [] => Err | _ => Ok (Tok e d c) end).

(* adapter.go:298-315 findMatchesInChannels: a valid token has content *)
Fixpoint find_in_channels (chs : list path) (script : bytes) : M (option linematch) :=
  match chs with
  | [] => ret None
  | p :: r =>
    do t <- element_to_token (pa_element p) (pa_deps p) script false ;;
    if tok_valid t then lift (match tok_content t with Some (m, _) => Ok (Some m) | None => Panic end)
    else find_in_channels r script
  end.
(* adapter.go:301 range over the channel map *)
Definition range_channels {A} (body : list path -> M A) : M A := fun s =>
  body (channels (ls_tick s)) {| ls_rec := ls_rec s; ls_pre := ls_pre s; ls_tick := S (ls_tick s) |}.
(* adapter.go:482-508 findChannelBlockMatch *)
Definition find_channel_block (c : pcontainer) (d : gmap element) (script : bytes) (next : bool) : M (option block) :=
  do o <- range_channels (fun chs => find_in_channels chs script) ;;
  match o with
  | None => ret None
  | Some m =>
    if has_prefix (lm_disc m) script
    then
      do b <- cbm c d (cut (lm_disc m) script) next next ;;
      ret (match b with Some x => Some (BBlock x (Some m)) | None => None end)
    else ret None
  end.

(* adapter.go:685-731 tokenPathToTokenResultMatches; fuel bounds the iterations *)
Fixpoint token_loop (fuel : nat) (e : element) (d : gmap element) (pmax : option N) (chans : bool) (acc : list tok) (remaining : bytes) : M (list tok) :=
  match fuel with
  | O => lift NoFuel
  | S n =>
    do t <- element_to_token e d remaining chans ;;
    if negb (tok_valid t) then ret acc
    else
      let acc := acc ++ [t] in
      match tok_content t with
      | None => lift Panic
      | Some (m, _) =>
        if has_prefix (lm_disc m) remaining
        then
          if match pmax with Some mx => (mx <=? N.of_nat (length acc))%N | None => false end then ret acc
          else token_loop n e d pmax chans acc (cut (lm_disc m) remaining)
        else ret acc
      end
  end.
(* adapter.go:632-683 tokenToTokenMatch, tokenToTokenResult, toSpecifiers;
   tokenresult_builder.go:50-53 the input is mandatory; specifier_builder.go:50-52
   the container name is mandatory *)
Definition token_to_match (fuel : nat) (e : element) (specs : list pspec) (card : cardinality) (d : gmap element) (script : bytes) (chans : bool) : M tokmatch :=
  let '(_, pmax) := delimiter card in
  do l <- token_loop fuel e d pmax chans [] script ;;
  lift (match script with
        | [] => Err
        | _ => if forallb (fun s => non_empty (sp_name s)) specs then Ok (TM e specs script card l) else Err
        end).

(* adapter.go:529-547,574-630: a match that may be absent and is invalid is skipped *)
Definition token_or_skip (t : tokmatch) : mtch := if is_valid (tm_card t) 0 && negb (tm_valid t) then MSkipT t else MToken t.
Definition rule_or_skip (r : rulematch) : mtch := if is_valid (rm_card r) 0 && negb (rm_valid r) then MSkipR r else MRule r.

(* adapter.go:510-630 containerToMatch; tokenpath_builder.go and token_builder.go
   cannot fail here *)
Definition container_to_match (fuel : nat) (c : pcontainer) (d : gmap element) (script : bytes) (chans : bool) : M (option mtch) :=
  match c with
  | PLines ls =>
    do o <- best_line ls d script chans ;;
    ret (match o with Some l => Some (MLine l) | None => None end)
  | PToken e specs card =>
    do t <- token_to_match fuel e specs card d script chans ;;
    ret (Some (token_or_skip t))
  | PRule r card =>
    do x <- rule_to_match r card script chans ;;
    ret (Some (rule_or_skip x))
  | PRec name specs card => fun s =>
    if match mlookup (ls_rec s) name with Some previous => bytes_eqb previous script | None => false end
    then (Ok None, {| ls_rec := mdelete (ls_rec s) name; ls_pre := ls_pre s; ls_tick := ls_tick s |})
    else
      (do e <- lift (dep_fetch d name) ;;
       do t <- token_to_match fuel e specs card d script chans ;;
       ret (Some (token_or_skip t)))
      {| ls_rec := minsert (ls_rec s) name script; ls_pre := ls_pre s; ls_tick := ls_tick s |}
  end.

(* adapter.go:367-404 containerToBlockMatch *)
Definition cbm_step (fuel : nat) (c : pcontainer) (d : gmap element) (script : bytes) (chans next : bool) : M (option block) :=
  match script with
  | [] =>
    lift (let* k := cont_card c in
          if is_valid k 0 then Ok None
          else let* n := build_next fuel c d in Ok (Some (BNext n None)))
  | _ =>
    do o <- (if chans then find_channel_block c d script next else ret None) ;;
    match o with
    | Some b => ret (Some b)
    | None =>
      do m <- container_to_match fuel c d script next ;;
      ret (match m with Some x => Some (BCont x None) | None => None end)
    end
  end.
End Step.

(* the recursion; fuel bounds its depth, the depth of first_rule and the number of
   repetitions of a token at each place *)
Fixpoint cbm (fuel : nat) (c : pcontainer) (d : gmap element) (script : bytes) (chans next : bool) : M (option block) :=
  match fuel with
  | O => lift NoFuel
  | S n => cbm_step (cbm n) n c d script chans next
  end.

(* adapter.go:200-203 ToToken: the recursion map is replaced, the permission is not *)
Definition to_token (fuel : nat) (root : path) (script : bytes) (s : lst) : res tok * lst :=
  element_to_token (cbm fuel) (pa_element root) (pa_deps root) script true {| ls_rec := []; ls_pre := ls_pre s; ls_tick := ls_tick s |}.
End Lexer.
(* adapter_builder.go, createAdapterInternally (:144-197): a fresh adapter *)
Definition lst_init (pre : bool) : lst := {| ls_rec := []; ls_pre := pre; ls_tick := 0 |}.
