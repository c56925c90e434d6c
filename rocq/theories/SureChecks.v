(* SureChecks.v - what the absence of panics needs of the shipped grammar, checked. *)
From Coq Require Import Strings.String Strings.Byte Lia.
From Verif Require Import Go GoLemmas DomainModel CardModel CardProofs PatModel RuleModel RuleSpec PathModel PathSpec LexModel LexSpec AstModel RootModel TextModel TextTokSpec AppModel GramModel EvtModel EvtProofs6 OrdProofs2 AdeqSpec AdeqProofs8 RootSpec SpellSpec SureTree.
Open Scope string_scope.
Open Scope list_scope.

Definition event_names : list string := Eval vm_compute in map fst (bodies 0 (fun _ _ => None)).
Lemma token_is b f n : EvtProofs6.token b f n = existsb (String.eqb n) event_names.
Proof. reflexivity. Qed.

(* elements as they are written *)
Inductive written := WTok (n : string) | WRule (n : string) (c : byte).
Definition mandatory_b (x : telem) : bool := match te_card x with None => true | Some c => negb (is_valid c 0) end.
Definition like (w : written) (x : telem) : bool :=
  match w, te_content x with
  | WTok n, TRef r => bytes_eqb (tr_name r) (bs n)
  | WRule n c, TRule r => bytes_eqb (rl_name r) (bs n) && mandatory_b x && match rl_content r with RConstant [d] => Byte.eqb c d | _ => false end
  | _, _ => false
  end.
Fixpoint alike (ws : list written) (es : list telem) : bool :=
  match ws, es with [], [] => true | w :: ws, e :: es => like w e && alike ws es | _, _ => false end.
Definition refers_b (x : telem) (n : bytes) : bool := match te_content x with TRef r => bytes_eqb (tr_name r) n | TRule _ => false end.
Definition amo_b (x : telem) : bool := match te_card x with None => true | Some c => match snd (CardModel.delimiter c) with Some m => (m <=? 1)%N | None => false end end.
Fixpoint once_b (n : bytes) (es : list telem) : bool :=
  match es with [] => true | x :: es => (negb (refers_b x n) && once_b n es) || (amo_b x && forallb (fun y => negb (refers_b y n)) es) end.
Lemma refers_ok x n : refers_b x n = true <-> refers x n.
Proof.
  unfold refers_b, refers. destruct (te_content x) as [r|r]; (split; [intros H|intros (r' & E & N)]); try discriminate.
  - apply bytes_eqb_eq in H. exists r. auto.
  - injection E as <-. apply bytes_eqb_eq. exact N.
Qed.
Lemma refers_no x n : refers_b x n = false -> ~ refers x n.
Proof. intros H R. apply refers_ok in R. congruence. Qed.
Lemma amo_ok x : amo_b x = true -> at_most_one x.
Proof.
  unfold amo_b. intros H c Hc k V. assert (Q : exists m, snd (CardModel.delimiter c) = Some m /\ (m <= 1)%N).
  { destruct Hc as [Hc|[Hc ->]]; rewrite Hc in H; [|exists 1%N; split; [reflexivity|lia]]. destruct (snd (CardModel.delimiter c)) as [m|]; [|discriminate]. exists m. split; [reflexivity|]. apply N.leb_le. exact H. }
  destruct Q as (m & Em & Hm). unfold is_valid in V. destruct (CardModel.delimiter c) as [lo hi]. cbn in Em. subst hi. apply andb_prop in V. destruct V as [_ V]. apply N.leb_le in V. lia.
Qed.
Lemma once_ok n es : once_b n es = true -> once n es.
Proof.
  induction es as [|x es IH]; intros H; [exact I|]. cbn in *. apply Bool.orb_true_iff in H. destruct H as [H|H]; apply andb_prop in H; destruct H as [H1 H2].
  - left. apply Bool.negb_true_iff in H1. split; [apply refers_no; exact H1|apply IH; exact H2].
  - right. split; [apply amo_ok; exact H1|]. intros y Hy. rewrite forallb_forall in H2. specialize (H2 y Hy). apply Bool.negb_true_iff in H2. apply refers_no. exact H2.
Qed.
Lemma mandatory_ok x : mandatory_b x = true -> ~ skippable x.
Proof.
  unfold mandatory_b. intros H (c & [Hc|[Hc ->]] & V); rewrite Hc in H; [|discriminate V]. rewrite V in H. discriminate.
Qed.

Section Checks.
Variable ts : list PathModel.token.
Variable blanks : list rule.
Notation lines t := (t_must t).
Definition in_b (n : bytes) (l : list bytes) : bool := existsb (bytes_eqb n) l.
Definition refs_of (l : tline) : list bytes := concat (map (fun e => match te_content e with TRef r => [tr_name r] | TRule _ => [] end) (PathSpec.elements l)).
Fixpoint closure (k : nat) (S : list bytes) : list bytes :=
  match k with
  | 0 => S
  | Datatypes.S k => closure k (S ++ filter (fun n => negb (in_b n S)) (concat (map (fun t => if in_b (t_name t) S then concat (map refs_of (lines t)) else []) ts)))
  end.
Definition leads_b (S : list bytes) : bool := forallb (fun t => negb (in_b (t_name t) S) || forallb (fun l => forallb (fun n => in_b n S) (refs_of l)) (lines t)) ts.
Definition no_byte_b (c : byte) (S : list bytes) : bool := forallb (fun t => negb (in_b (t_name t) S) || forallb (fun l => forallb (avoids c) (line_rules (PathSpec.elements l))) (lines t)) ts.
Definition named_rules_b (n : bytes) : bool := forallb (fun r => negb (bytes_eqb (rl_name r) n)) (rules_of ts ++ blanks).
Definition events_b : bool :=
  forallb (fun t => existsb (fun n => bytes_eqb (t_name t) (bs n)) event_names) ts &&
  forallb (fun n => named_rules_b (bs n)) event_names &&
  forallb (fun n => negb (single n) || forallb (fun t => forallb (fun l => once_b (bs n) (PathSpec.elements l)) (lines t)) ts) event_names.
Definition lines_like_b (n : string) (ls : list (list written)) : bool :=
  forallb (fun t => negb (bytes_eqb (t_name t) (bs n)) || forallb (fun l => existsb (fun ws => alike ws (PathSpec.elements l)) ls) (lines t)) ts.
Definition only_in_b (m : string) (ns : list string) : bool :=
  forallb (fun t => existsb (fun n => bytes_eqb (t_name t) (bs n)) ns || forallb (fun l => negb (in_b (bs m) (refs_of l))) (lines t)) ts.
Definition once_but_b (m n : string) : bool :=
  forallb (fun t => bytes_eqb (t_name t) (bs n) || forallb (fun l => once_b (bs m) (PathSpec.elements l)) (lines t)) ts.
(* the specifier of the names of a for *)
Definition spec_b (x : telem) (m : string) : bool :=
  match te_content x with TRef r => existsb (fun s => bytes_eqb (ts_name s) (bs m) && negb (specific_is_valid (ts_card s) 0)) (match tr_specs r with Some l => l | None => [] end) | TRule _ => false end.
Definition pair_spec_b : bool :=
  forallb (fun t => negb (bytes_eqb (t_name t) (bs "forStatement")) || forallb (fun l => forallb (fun x => negb (refers_b x (bs "assigneeNames")) || (spec_b x "commaAssigneeName" && amo_b x)) (PathSpec.elements l)) (lines t)) ts.
Definition first_mandatory_b (n : string) : bool :=
  forallb (fun t => negb (bytes_eqb (t_name t) (bs n)) || forallb (fun l => match PathSpec.elements l with x :: _ => mandatory_b x | [] => false end) (lines t)) ts.

Definition of_for : list (list written) :=
  [[WTok "assigneeNames"; WRule "COLON" ":"; WRule "EQUAL" "="; WTok "totalListValue"]; [WRule "OPEN_PARENTHESIS" "("; WTok "forStatement"; WRule "CLOSE_PARENTHESIS" ")"]].
Definition of_assignee : list (list written) := [[WTok "assigneeNameFirsts"; WRule "COLON" ":"; WRule "EQUAL" "="]; [WTok "assigneeNames"; WRule "EQUAL" "="]].
Definition of_slice : list (list written) := [[WTok "indexValue"; WRule "COLON" ":"; WTok "indexValue"]].
Definition of_names : list (list written) := [[WTok "assigneeName"; WTok "commaAssigneeName"]].
Definition of_comma : list (list written) := [[WRule "COMMA" ","; WTok "assigneeName"]].
Definition deep := 63.
Definition below_list := closure deep [bs "totalListValue"].
Definition below_names := closure deep [bs "assigneeNames"].
Definition below_fetcher := closure deep [bs "listElementFetcher"].
Definition not_in_b (n : string) (S : list bytes) : bool := negb (in_b (bs n) S).
Definition all_checks : bool :=
  events_b && lines_like_b "forStatement" of_for && lines_like_b "assignee" of_assignee && lines_like_b "sliceDelimiter" of_slice && lines_like_b "assigneeNames" of_names &&
  only_in_b "assigneeNames" ["forStatement"; "assignee"] && once_but_b "indexValue" "sliceDelimiter" && pair_spec_b && first_mandatory_b "assigneeNames" &&
  (leads_b below_list && leads_b below_names && leads_b below_fetcher) &&
  (not_in_b "assigneeName" below_list && not_in_b "forStatement" below_list && not_in_b "assignee" below_list && not_in_b "forStatement" below_names && not_in_b "assignee" below_names) &&
  (no_byte_b ":" below_names && no_byte_b "(" below_names && no_byte_b ":" below_fetcher) &&
  in_b (bs "commaAssigneeName") (map t_name ts).
Definition blanks_b : bool :=
  forallb (fun r => bytes_eqb (rl_name r) (bs "SINGLE_LINE_COMMENT") || bytes_eqb (rl_name r) (bs "MULTI_LINE_COMMENT") || (avoids ":" r && avoids "(" r && avoids "=" r)) blanks.
End Checks.
Lemma shipped_checks : AdeqProofs8.holds (shipped_tokens base_tokens) (fun u => AdeqProofs8.holds (shipped_tokens base_channels) (fun v => all_checks (table_all (fst u)) (rules_of (table_all (fst v))) && blanks_b (rules_of (table_all (fst v))))) = true.
Proof. vm_compute. reflexivity. Qed.
