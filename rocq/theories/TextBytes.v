(* TextBytes.v - for the proofs only: on the patterns of TextModel.v the matcher of Regex.v,
   rune by rune, and the byte by byte one of RegexBytes.v answer the same. *)
From Coq Require Import Strings.String Strings.Byte Lia.
From Verif Require Import Go GoLemmas DomainModel CardModel PatModel RuleModel PathModel Regex RegexBytes TextModel.
Open Scope list_scope.

Lemma all_group s : find_all_submatch (compile group_text) s = find_all (compile group_text) s.
Proof. apply find_all_bytes; vm_compute; reflexivity. Qed.
Lemma all_group_name s : find_all_submatch (compile group_name_text) s = find_all (compile group_name_text) s.
Proof. apply find_all_bytes; vm_compute; reflexivity. Qed.
Lemma all_serie s : find_all_submatch (compile (declaration_text serie_name_text)) s = find_all (compile (declaration_text serie_name_text)) s.
Proof. apply find_all_bytes; vm_compute; reflexivity. Qed.
Lemma all_choice s : find_all_submatch (compile choice_text) s = find_all (compile choice_text) s.
Proof. apply find_all_bytes; vm_compute; reflexivity. Qed.
Lemma all_pattern s : find_all_submatch (compile (declaration_text pattern_name_text)) s = find_all (compile (declaration_text pattern_name_text)) s.
Proof. apply find_all_bytes; vm_compute; reflexivity. Qed.
Lemma first_bracket s : find_submatch (compile bracket_text) s = find_first (compile bracket_text) s.
Proof. apply find_submatch_bytes; vm_compute; reflexivity. Qed.
Lemma first_element s : find_submatch (compile element_text) s = find_first (compile element_text) s.
Proof. apply find_submatch_total; vm_compute; reflexivity. Qed.
Lemma all_rule s : find_all_submatch (compile rule_text) s = find_all (compile rule_text) s.
Proof. apply find_all_bytes; vm_compute; reflexivity. Qed.
Lemma all_specifier s : find_all_submatch (compile specifier_text) s = find_all (compile specifier_text) s.
Proof. apply find_all_bytes; vm_compute; reflexivity. Qed.
Lemma all_token s : find_all_submatch (compile token_text) s = find_all (compile token_text) s.
Proof. apply find_all_bytes; vm_compute; reflexivity. Qed.
Lemma all_include s : find_all_submatch (compile include_text) s = find_all (compile include_text) s.
Proof. apply find_all_bytes; vm_compute; reflexivity. Qed.
Lemma all_reference s : find_all_submatch (compile reference_text) s = find_all (compile reference_text) s.
Proof. apply find_all_bytes; vm_compute; reflexivity. Qed.
Lemma all_replace s : find_all_submatch (compile replace_text) s = find_all (compile replace_text) s.
Proof. apply find_all_bytes; vm_compute; reflexivity. Qed.

(* the instructions of a line: every part of the pattern is optional, so that byte by byte
   there is an empty match inside of a rune; it is read as nothing *)
Definition nothing_read : rmatch := {| m_text := []; m_caps := [] |}.
Definition optional3 (r : re) : bool :=
  match r with
  | RSeq (ROpt a) (RSeq (ROpt b) (RSeq (ROpt c) REps)) =>
    match mode_of a Any, mode_of b Any, mode_of c Any with Strict, Strict, Strict => true | _, _, _ => false end
  | _ => false
  end.
Lemma optional_above r b t : optional3 r = true -> above b -> match_at r (b :: t) = Some nothing_read.
Proof.
  unfold optional3. destruct r as [| | | |[| | | | |x| |] [| | | |[| | | | |y| |] [| | | |[| | | | |z| |] [| | | | | | |]| | |]| | |]| | |]; try discriminate.
  intros H B. destruct (mode_of x Any) eqn:Ex; try discriminate. destruct (mode_of y Any) eqn:Ey; try discriminate. destruct (mode_of z Any) eqn:Ez; try discriminate.
  assert (N : forall (q : re) cs (k : bytes -> caps -> option rmatch), mode_of q Any = Strict -> exec q (b :: t) cs k = None).
  { intros q cs k E. assert (K := mode_exec q Any k I). rewrite E in K. exact (K b t cs B). }
  unfold match_at. cbn [exec]. rewrite (N x _ _ Ex), (N y _ _ Ey), (N z _ _ Ez). rewrite Nat.sub_diag. reflexivity.
Qed.
Section Instructions.
Variable rules : table rule.
Lemma read_nothing l : read_instructions rules (nothing_read :: l) = read_instructions rules l.
Proof. cbn [read_instructions]. unfold read_instruction. cbn. destruct (read_instructions rules l); reflexivity. Qed.
Lemma instructions_above r w u f : optional3 r = true -> Forall above w -> read_instructions rules (find_from r 0 f (w ++ u)) = read_instructions rules (find_from r 0 (match w with [] => f | _ => false end) u).
Proof.
  intros O F. revert f. induction F as [|a w B F IHw]; intros f; [reflexivity|]. cbn [app find_from]. rewrite (optional_above r a (w ++ u) O B). unfold nothing_read at 1. cbn [m_text].
  transitivity (read_instructions rules (find_from r 0 false (w ++ u))); [destruct f; [reflexivity|apply read_nothing]|]. rewrite IHw. destruct w; reflexivity.
Qed.
Lemma read_cons_eq m a b : read_instructions rules a = read_instructions rules b -> read_instructions rules (m :: a) = read_instructions rules (m :: b).
Proof. intros E. cbn [read_instructions]. rewrite E. reflexivity. Qed.
Lemma instructions_bytes r : agree r Total = true -> optional3 r = true -> forall n s f, length s <= n -> read_instructions rules (find_all_runes r 0 f s) = read_instructions rules (find_from r 0 f s).
Proof.
  intros G O. induction n as [|n IH]; intros s f L.
  - destruct s; [|cbn in L; lia]. cbn [find_all_runes find_from]. rewrite (submatch_agree r _ G). reflexivity.
  - destruct s as [|b t]; cbn [find_all_runes find_from]; rewrite (submatch_agree r _ G); [reflexivity|]. cbn [length] in L.
    assert (Q : read_instructions rules (find_all_runes r (pred (rune_width (b :: t))) false t) = read_instructions rules (find_from r 0 false t)).
    { destruct (rune_rest b t) as (w & u & E & Lw & F). rewrite <- Lw. subst t. rewrite skip_find_all, (instructions_above r w u false O F). rewrite app_length in L. destruct w; apply IH; cbn in L; lia. }
    destruct (match_at r (b :: t)) as [m|]; [|exact Q].
    destruct (m_text m) as [|x w]; [destruct f; cbn [app]; [exact Q|apply read_cons_eq; exact Q]|]. apply read_cons_eq.
    destruct (Nat.le_gt_cases (length w) (length t)) as [Lw|Lw].
    + assert (E : exists a v, t = a ++ v /\ length a = length w) by (exists (firstn (length w) t), (skipn (length w) t); split; [symmetry; apply firstn_skipn|rewrite firstn_length; lia]).
      destruct E as (a & v & -> & <-). rewrite skip_find_all, skip_from. apply IH. rewrite app_length in L. lia.
    + rewrite beyond_runes, beyond_from; [reflexivity|exact Lw|exact Lw].
Qed.
Lemma all_instruction s : read_instructions rules (find_all_submatch (compile instruction_text) s) = read_instructions rules (find_all (compile instruction_text) s).
Proof. exact (instructions_bytes (compile instruction_text) (eq_refl true <: agree (compile instruction_text) Total = true) (eq_refl true <: optional3 (compile instruction_text) = true) (length s) s false (le_n _)). Qed.
End Instructions.
