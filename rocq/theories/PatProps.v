(* PatProps.v - property theorems C31-C34, C54: groups, patterns, discoveries.
   PatSpec.v defines longest_word, no_word, reads, skips, choices_read, matches_here. *)
From Coq Require Import Strings.String Strings.Byte Lia.
From Verif Require Import GoLemmas PatModel PatSpec PatProofs.

(* example grammar: letters, digits, a serie letters-digits, "anything but ;" *)
Definition ex_ab : group := {| g_name := bs "ab"; g_list := [bs "a"; bs "ab"; bs "b"] |}.
Definition ex_12 : group := {| g_name := bs "num"; g_list := [bs "1"; bs "2"] |}.
Definition ex_semi : group := {| g_name := bs "semi"; g_list := [bs ";"] |}.
Definition ex_s : serie := {| s_name := bs "s"; s_list := [ex_ab; ex_12] |}.
Definition ex_t : serie := {| s_name := bs "t"; s_list := [ex_semi] |}.
Definition fwd (s : serie) : choice := {| ch_serie := s; ch_reverse := false |}.
Definition bwd (s : serie) : choice := {| ch_serie := s; ch_reverse := true |}.
Definition ex_p1 : pattern := {| p_name := bs "p1"; p_list := [fwd ex_s] |}.
Definition ex_p2 : pattern := {| p_name := bs "p2"; p_list := [fwd ex_s; fwd ex_s] |}.
Definition ex_p3 : pattern := {| p_name := bs "p3"; p_list := [fwd ex_t; bwd ex_t; fwd ex_t] |}.

(* ---- C31 ---- *)
Theorem C31_contains_longest :
  forall g t n,
  n <> 0 ->
  (contains g t = n <-> exists w, longest_word g t w /\ length w = n).
Proof. exact @contains_pos. Qed.
Print Assumptions C31_contains_longest.

Theorem C31_contains_none :
  forall g t,
  contains g t = 0 <-> no_word g t.
Proof. exact @contains_zero. Qed.
Print Assumptions C31_contains_none.

Theorem C31_longest_word_unique :
  forall g t v w,
  longest_word g t v -> longest_word g t w -> v = w.
Proof. exact @longest_unique. Qed.
Print Assumptions C31_longest_word_unique.

(* the amount skipped by a reversed group *)
Theorem C31_reverse_up_to_first_match :
  forall g t n,
  reverse_amount g t = n <-> exists w rest, skips g t w rest /\ length w = n.
Proof. exact @reverse_amount_exact. Qed.
Print Assumptions C31_reverse_up_to_first_match.

Example C31_example : longest_word ex_ab (bs "abc") (bs "ab") /\ contains ex_ab (bs "abc") = 2 /\ contains ex_ab (bs "cab") = 0
  /\ reverse_amount ex_ab (bs "12ab") = 2.
Proof.
  split; [|repeat split]. split; [discriminate|]. split; [right; left; reflexivity|]. split; [exists (bs "c"); reflexivity|].
  intros v [<-|[<-|[<-|[]]]] _; cbn; lia.
Qed.

(* ---- C32 ---- *)
(* matching happens at the first offset where the pattern matches, and there only *)
Theorem C32_pattern_result_exactly :
  forall p t r,
  pattern_ok p = true ->
  (from_pattern_to_result p t = Ok r <-> exists k, first_offset (matches_here p) t k /\ match_pattern p (skipn k t) k = Ok (Some r)).
Proof. exact @from_pattern_exact. Qed.
Print Assumptions C32_pattern_result_exactly.

(* the reported index and input are those of the first offset *)
Theorem C32_pattern_earliest :
  forall p t r,
  pattern_ok p = true -> from_pattern_to_result p t = Ok r ->
  exists k, disc_index (r_disc r) = Ok k /\ first_offset (matches_here p) t k /\ r_input r = skipn k t.
Proof. exact @from_pattern_index. Qed.
Print Assumptions C32_pattern_earliest.

Theorem C32_pattern_error_exactly :
  forall p t,
  pattern_ok p = true ->
  (from_pattern_to_result p t = Err <-> forall k, k < length t -> ~ matches_here p (skipn k t)).
Proof. exact @from_pattern_err. Qed.
Print Assumptions C32_pattern_error_exactly.

Theorem C32_patterns_earliest_first_listed :
  forall ps t r,
  forallb pattern_ok ps = true -> from_patterns_to_result ps t = Ok r ->
  exists before p after k, ps = before ++ p :: after /\ from_pattern_to_result p t = Ok r /\ disc_index (r_disc r) = Ok k /\
    first_offset (matches_here p) t k /\
    (forall q j, In q before -> first_offset (matches_here q) t j -> k < j) /\
    (forall q j, In q after -> first_offset (matches_here q) t j -> k <= j).
Proof. exact @from_patterns_ok. Qed.
Print Assumptions C32_patterns_earliest_first_listed.

Theorem C32_patterns_error_exactly :
  forall ps t,
  forallb pattern_ok ps = true ->
  (from_patterns_to_result ps t = Err <-> forall p k, In p ps -> k < length t -> ~ matches_here p (skipn k t)).
Proof. exact @from_patterns_err. Qed.
Print Assumptions C32_patterns_error_exactly.

Theorem C32_patterns_never_panic :
  forall ps t,
  forallb pattern_ok ps = true ->
  from_patterns_to_result ps t = Err \/ exists r, from_patterns_to_result ps t = Ok r.
Proof. exact @from_patterns_total. Qed.
Print Assumptions C32_patterns_never_panic.

Example C32_example : pattern_ok ex_p1 = true /\ pattern_ok ex_p3 = true /\
  (exists r, from_pattern_to_result ex_p1 (bs "zzab1x") = Ok r /\ disc_index (r_disc r) = Ok 2 /\ r_input r = bs "ab1x" /\ r_rem r = bs "x") /\
  from_pattern_to_result ex_p1 (bs "zzab") = Err /\
  (exists r, from_patterns_to_result [ex_p1; ex_p3] (bs ";a1") = Ok r /\ disc_index (r_disc r) = Ok 0) /\
  (exists r, from_patterns_to_result [ex_p2; ex_p1] (bs "a1") = Ok r /\ r_next r = Some {| n_reverse := false; n_group := ex_ab |}).
Proof. repeat split; eexists; repeat split. Qed.
Example C32_example_offset : first_offset (matches_here ex_p1) (bs "zb1") 1.
Proof.
  split; [cbn; lia|]. split.
  - apply (match_pattern_here ex_p1 (bs "b1") 0); [reflexivity|discriminate|]. eexists. reflexivity.
  - intros j Hj M. assert (j = 0) by lia. subst j. apply (match_pattern_here ex_p1 (bs "zb1") 0) in M; [|reflexivity|discriminate].
    destruct M as [r E]. vm_compute in E. discriminate.
Qed.

(* ---- C33 ---- *)
(* for every built pattern: what is discovered, what is left, what comes next *)
Theorem C33_match_exactly :
  forall p t i r,
  pattern_ok p = true -> t <> [] ->
  (match_pattern p t i = Ok (Some r) <->
   exists xs rest left, choices_read (p_list p) t xs rest left /\ xs <> [] /\
     r_input r = t /\ r_disc r = stamps i xs /\ leftover rest left (r_rem r) (r_next r)).
Proof. exact @match_pattern_exact. Qed.
Print Assumptions C33_match_exactly.

Theorem C33_match_iff_first_choice_reads :
  forall p t i,
  pattern_ok p = true -> t <> [] ->
  ((exists r, match_pattern p t i = Ok (Some r)) <-> matches_here p t).
Proof. exact @match_pattern_here. Qed.
Print Assumptions C33_match_iff_first_choice_reads.

Theorem C33_discoveries_prefix_of_input :
  forall p t r,
  pattern_ok p = true -> from_pattern_to_result p t = Ok r ->
  is_prefix (disc_content (r_disc r)) (r_input r) /\ disc_content (r_disc r) <> [].
Proof. exact @pattern_result_prefix. Qed.
Print Assumptions C33_discoveries_prefix_of_input.

Theorem C33_single_serie_exactly :
  forall p s t k r,
  pattern_ok p = true -> p_list p = [{| ch_serie := s; ch_reverse := false |}] ->
  first_offset (matches_here p) t k ->
  (from_pattern_to_result p t = Ok r <->
   exists ws, reads (s_list s) (skipn k t) ws (r_rem r) /\ r_input r = skipn k t /\ r_next r = None /\
     r_disc r = map (stamp k) (combine ws (map CGroup (s_list s)))).
Proof. exact @single_serie_exact. Qed.
Print Assumptions C33_single_serie_exactly.

Theorem C33_single_serie_text :
  forall p s t r,
  pattern_ok p = true -> p_list p = [{| ch_serie := s; ch_reverse := false |}] ->
  from_pattern_to_result p t = Ok r ->
  r_input r = disc_content (r_disc r) ++ r_rem r /\ map d_container (r_disc r) = map CGroup (s_list s) /\
  (exists before, t = before ++ r_input r).
Proof. exact @single_serie_text. Qed.
Print Assumptions C33_single_serie_text.

(* a reversed choice never asks for a next group *)
Theorem C33_next_never_reverse :
  forall p t r n,
  pattern_ok p = true -> from_pattern_to_result p t = Ok r -> r_next r = Some n -> n_reverse n = false.
Proof. exact @next_never_reverse. Qed.
Print Assumptions C33_next_never_reverse.

(* text consumed by a failed serie, or facing a failed reversed choice, is lost *)
Theorem C33_text_accounted_refuted :
  (exists r, pattern_ok ex_p2 = true /\ from_pattern_to_result ex_p2 (bs "a1b;;") = Ok r /\
     disc_content (r_disc r) = bs "a1" /\ r_rem r = bs ";;") /\
  (exists r, pattern_ok ex_p3 = true /\ from_pattern_to_result ex_p3 (bs ";;a") = Ok r /\
     disc_content (r_disc r) = bs ";" /\ r_rem r = []).
Proof. split; eexists; repeat split. Qed.
Print Assumptions C33_text_accounted_refuted.
(* the index of a discovery of a later choice is 0 wherever it is *)
Theorem C33_discovery_index_is_offset_refuted :
  exists r, from_pattern_to_result ex_p2 (bs "zza1b2") = Ok r /\ map d_index (r_disc r) = [2; 2; 0; 0] /\ map d_content (r_disc r) = [bs "a"; bs "1"; bs "b"; bs "2"].
Proof. eexists. repeat split. Qed.
Print Assumptions C33_discovery_index_is_offset_refuted.
Example C33_example : exists r, from_pattern_to_result ex_p3 (bs "x;abc;d") = Ok r /\ map d_content (r_disc r) = [bs ";"; bs "abc"; bs ";"] /\ r_rem r = bs "d".
Proof. eexists. repeat split. Qed.
Example C33_example_reads : reads (s_list ex_s) (bs "ab1x") [bs "ab"; bs "1"] (bs "x").
Proof.
  change (bs "ab1x") with (bs "ab" ++ bs "1x"). constructor.
  - split; [discriminate|]. split; [right; left; reflexivity|]. split; [exists (bs "1x"); reflexivity|]. intros v [<-|[<-|[<-|[]]]] _; cbn; lia.
  - change (bs "1x") with (bs "1" ++ bs "x"). constructor; [|constructor].
    split; [discriminate|]. split; [left; reflexivity|]. split; [exists (bs "x"); reflexivity|]. intros v [<-|[<-|[]]] _; cbn; lia.
Qed.

(* ---- C34 ---- *)
Theorem C34_group_search_exactly :
  forall g t r,
  from_group_to_result g t = Ok r <->
  exists k w, first_offset (fun s => ~ no_word g s) t k /\ longest_word g (skipn k t) w /\ r_input r = t /\ r_next r = None /\
     r_disc r = [stamp k (w, CGroup g)] /\ r_rem r = skipn (length w) t.
Proof. exact @from_group_exact. Qed.
Print Assumptions C34_group_search_exactly.

Theorem C34_group_search_error_exactly :
  forall g t,
  from_group_to_result g t = Err <-> forall k, k < length t -> no_word g (skipn k t).
Proof. exact @from_group_err. Qed.
Print Assumptions C34_group_search_error_exactly.

Theorem C34_remaining_when_at_offset_zero :
  forall g t r,
  from_group_to_result g t = Ok r -> disc_index (r_disc r) = Ok 0 ->
  t = disc_content (r_disc r) ++ r_rem r.
Proof. exact @from_group_at_zero. Qed.
Print Assumptions C34_remaining_when_at_offset_zero.

Theorem C34_remaining_refuted : exists r, from_group_to_result ex_12 (bs "zz1y") = Ok r /\ disc_index (r_disc r) = Ok 2 /\ r_rem r = bs "z1y".
Proof. eexists. repeat split. Qed.
Print Assumptions C34_remaining_refuted.
Example C34_example : exists r, from_group_to_result ex_ab (bs "abz") = Ok r /\ disc_index (r_disc r) = Ok 0 /\ r_rem r = bs "z".
Proof. eexists. repeat split. Qed.

(* ---- C54 discoveries accessors ---- *)
Theorem C54_find_last_of_that_name :
  forall l name d,
  disc_find l name = Some d <->
  exists a b, l = a ++ d :: b /\ container_name (d_container d) = name /\
    forall y, In y b -> container_name (d_container y) <> name.
Proof. exact @disc_find_last. Qed.
Print Assumptions C54_find_last_of_that_name.

Theorem C54_find_error_exactly :
  forall l name,
  disc_find l name = None <-> forall d, In d l -> container_name (d_container d) <> name.
Proof. exact @disc_find_none. Qed.
Print Assumptions C54_find_error_exactly.

Theorem C54_amount_is_bytes :
  forall l,
  disc_amount l = list_sum (map (fun d => length (d_content d)) l).
Proof. exact @disc_amount_bytes. Qed.
Print Assumptions C54_amount_is_bytes.

Theorem C54_is_amount :
  forall l n,
  disc_is_amount l n = true <-> list_sum (map (fun d => length (d_content d)) l) = n.
Proof. exact @disc_is_amount_iff. Qed.
Print Assumptions C54_is_amount.

Theorem C54_is_at_least :
  forall l n,
  disc_is_at_least l n = true <-> n <= list_sum (map (fun d => length (d_content d)) l).
Proof. exact @disc_is_at_least_iff. Qed.
Print Assumptions C54_is_at_least.

(* the minimum is compared with the bytes, the maximum with the number of discoveries *)
Theorem C54_is_in_range :
  forall l a b,
  disc_is_in_range l a b = true <->
  a <= list_sum (map (fun d => length (d_content d)) l) /\ length l <= b.
Proof. exact @disc_is_in_range_iff. Qed.
Print Assumptions C54_is_in_range.

Definition ex_d (s : string) : discovery := {| d_index := 0; d_content := bs s; d_container := CGroup ex_ab |}.
Theorem C54_range_upper_bound_refuted : disc_is_in_range [ex_d "ab"; ex_d "a"] 1 2 = true /\ disc_amount [ex_d "ab"; ex_d "a"] = 3.
Proof. split; reflexivity. Qed.
Print Assumptions C54_range_upper_bound_refuted.
Example C54_example : disc_find [ex_d "a"; ex_d "ab"] (bs "ab") = Some (ex_d "ab") /\ disc_find [ex_d "a"] (bs "x") = None.
Proof. split; reflexivity. Qed.
