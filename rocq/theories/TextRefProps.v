(* TextRefProps.v - properties C75 and C76: what a text of references means. *)
From Coq Require Import Strings.String Strings.Byte Lia.
From Verif Require Import Go GoLemmas Regex TextModel TextSpec TextRefSpec TextProofs TextProofs2 TextProofs3 TextRefProofs TextRefProofs2 TextRefProofs3.
Open Scope list_scope.

(* C75: a text of references is read exactly as the includes, the references and the
   replacements it contains *)
Theorem C75_references_text_exactly : forall text r, to_references text = Ok r <-> means_references text r.
Proof. exact to_references_exact. Qed.
(* it panics exactly when a readable prefix of the includes is followed by one of a single path *)
Theorem C75_panics_exactly : forall text, to_references text = Panic <->
  exists before d after, reads_all include_at text (before ++ d :: after) /\ Forall (fun d => exists i, include_of d i) before /\ ~ In semi (snd d).
Proof. intros text. apply to_references_panic. Qed.
Theorem C75_always_ends : forall text, to_references text <> NoFuel.
Proof. intros text. apply to_references_panic. Qed.
(* what is read is not ambiguous *)
Theorem C75_meaning_is_unique : forall text r r', means_references text r -> means_references text r' -> r = r'.
Proof. intros text r r' H H'. apply to_references_exact in H. apply to_references_exact in H'. congruence. Qed.
Definition inc (n r t c : string) : include := {| in_name := bs n; in_paths := {| rp_rules := bs r; rp_tokens := bs t; rp_channels := bs c |} |}.
Theorem C75_example : to_references (bs "include math ""r.txt;t.txt;c.txt"" include other ""a;b"" reference addition math.add replace other.x my ") =
  Ok {| rf_references := Some [{| lk_local := bs "addition"; lk_reference := bs "add"; lk_include := inc "math" "r.txt" "t.txt" "c.txt" |}];
        rf_replacements := Some [{| lk_local := bs "my"; lk_reference := bs "x"; lk_include := inc "other" "a" "b" "" |}] |}.
Proof. vm_compute. reflexivity. Qed.
Theorem C75_example_panic : to_references (bs "include math ""r.txt""") = Panic.
Proof. vm_compute. reflexivity. Qed.
(* any character may stand for the point, a wide one too *)
Theorem C75_example_wide : to_references (bs "include math ""a;b"" reference x math" ++ [xf1; x80; x80; x80] ++ bs "add ") =
  Ok {| rf_references := Some [{| lk_local := bs "x"; lk_reference := bs "add"; lk_include := inc "math" "a" "b" "" |}]; rf_replacements := None |}.
Proof. vm_compute. reflexivity. Qed.
(* four paths, an empty path, an undeclared include *)
Theorem C75_example_errors : to_references (bs "include math ""a;b;c;d""") = Err /\ to_references (bs "include math "";b""") = Err /\ to_references (bs "reference a math.b") = Err.
Proof. repeat split; vm_compute; reflexivity. Qed.

(* C76: well-formed sources are read as written, in any layout *)
Theorem C76_references_read_as_written : forall items text r, written_references items text -> (to_references text = Ok r <-> ref_items_mean items r).
Proof. exact references_as_written. Qed.
(* a source whose links name declared includes is never refused *)
Theorem C76_resolvable_sources_accepted : forall items text, written_references items text ->
  Forall (fun d => exists i, In i (item_includes items) /\ in_name i = fst (snd d)) (item_references items) ->
  Forall (fun d => exists i, In i (item_includes items) /\ in_name i = fst d) (item_replacements items) ->
  exists r, to_references text = Ok r.
Proof.
  intros items text W Hf Hp.
  assert (La : forall n, (exists i, In i (item_includes items) /\ in_name i = n) -> exists i, last_named in_name (item_includes items) n i).
  { intros n (i & Hi & En). destruct (mlookup (fold_left (fun m x => minsert m (in_name x) x) (item_includes items) []) n) as [j|] eqn:E; [exists j; apply last_lookup; exact E|]. exfalso.
    assert (G : forall l, (exists x, In x l /\ in_name x = n) -> exists x, last_named in_name l n x).
    { intros l. induction l as [|x l IH]; intros (y & Hy & Ey); [destruct Hy|]. destruct (in_dec (list_eq_dec Byte.byte_eq_dec) n (map in_name l)) as [Hin|Hout].
      - apply in_map_iff in Hin. destruct Hin as (z & Ez & Hz). destruct IH as (u & b & a & -> & Eu & Hu); [eauto|]. exists u, (x :: b), a. auto.
      - destruct Hy as [<-|Hy]; [|exfalso; apply Hout; apply in_map_iff; eauto]. exists x, [], l. split; [reflexivity|]. split; [exact Ey|]. intros z Hz Ez. apply Hout. apply in_map_iff. eauto. }
    destruct (G (item_includes items)) as (x & Hx); [eauto|]. apply last_lookup in Hx. congruence. }
  assert (Fs : exists fs, Forall2 (reference_of (item_includes items)) (item_references items) fs).
  { revert Hf. generalize (item_references items). intros l Hf. induction Hf as [|d l Hd Hf (fs & F)]; [exists []; constructor|]. destruct (La _ Hd) as (i & Hi). exists ({| lk_local := fst d; lk_reference := fst (snd (snd d)); lk_include := i |} :: fs). constructor; [|exact F]. repeat split. exact Hi. }
  assert (Ps : exists ps, Forall2 (replacement_of (item_includes items)) (item_replacements items) ps).
  { revert Hp. generalize (item_replacements items). intros l Hp. induction Hp as [|d l Hd Hp (fs & F)]; [exists []; constructor|]. destruct (La _ Hd) as (i & Hi). exists ({| lk_local := fst (snd (snd d)); lk_reference := fst (snd d); lk_include := i |} :: fs). constructor; [|exact F]. repeat split. exact Hi. }
  destruct Fs as (fs & Ff). destruct Ps as (ps & Fp). exists {| rf_references := links_of fs; rf_replacements := links_of ps |}. apply (references_as_written items); [exact W|]. exists fs, ps. cbn. split; [exact Ff|]. split; [apply some_links_iff; reflexivity|]. split; [exact Fp|apply some_links_iff; reflexivity].
Qed.
(* a source in that class *)
Lemma plain n : is_nm [c_lower] c_alpha n -> forallb (fun k => negb (is_inside k n)) kws = true -> plain_name n.
Proof. intros H F. split; [apply is_token_name; exact H|]. unfold word_free. apply Forall_forall. intros k Hk. rewrite forallb_forall in F. apply inside_contains. specialize (F k Hk). destruct (is_inside k n); [discriminate|reflexivity]. Qed.
Theorem C76_example_source : written_references [RInclude (inc "math" "r" "t" ""); RReference (bs "a") (bs "math") (bs "add")] (bs "include math ""r;t""
reference  a math.add ").
Proof.
  assert (S1 : spaces (bs " ")) by (split; [repeat constructor|discriminate]). assert (S2 : spaces (bs "  ")) by (split; [repeat constructor|discriminate]). assert (S3 : spaces [x0a]) by (split; [constructor; [unfold blank; tauto|constructor]|discriminate]).
  assert (N : forall b w, lower b -> Forall lower w -> forallb (fun k => negb (is_inside k (b :: w))) kws = true -> plain_name (b :: w)).
  { intros b w Hb Hw F. apply plain; [|exact F]. apply is_token_name. exists b, w. split; [reflexivity|]. split; [exact Hb|]. eapply Forall_impl; [|exact Hw]. tauto. }
  assert (PP : forall p, ~ In semi p -> ~ In dq p -> forallb (fun k => negb (is_inside k p)) kws = true -> plain_path p).
  { intros p H1 H2 F. split; [exact H1|]. split; [exact H2|]. apply Forall_forall. intros k Hk. rewrite forallb_forall in F. apply inside_contains. specialize (F k Hk). destruct (is_inside k p); [discriminate|reflexivity]. }
  exists [], [bs "include" ++ bs " " ++ bs "math" ++ bs " " ++ dq :: join [semi] [bs "r"; bs "t"] ++ dq :: [x0a]; bs "reference" ++ bs "  " ++ bs "a" ++ bs " " ++ bs "math" ++ bs "." ++ bs "add" ++ bs " "]. split; [constructor|]. split; [|reflexivity].
  constructor; [|constructor; [|constructor]].
  - apply line_include with (i := inc "math" "r" "t" ""); try assumption; try discriminate; [apply N; [unfold lower; cbn; lia|repeat (constructor; [unfold lower; cbn; lia|]); constructor|reflexivity]| |left; split; reflexivity|apply S1].
    constructor; [apply PP; [intros [K|[]]; discriminate|intros [K|[]]; discriminate|reflexivity]|]. constructor; [apply PP; [intros [K|[]]; discriminate|intros [K|[]]; discriminate|reflexivity]|constructor].
  - apply line_reference; try assumption; apply N; try reflexivity; try (unfold lower; cbn; lia); repeat (constructor; [unfold lower; cbn; lia|]); constructor.
Qed.
(* outside of the class the claim is false: the dot may be any character, even a letter of a
   single name; a keyword inside of a path or of a name is taken for a line *)
Theorem C76_dot_is_required_refuted : to_references (bs "include m ""a;b"" reference x m y") = Ok {| rf_references := Some [{| lk_local := bs "x"; lk_reference := bs "y"; lk_include := inc "m" "a" "b" "" |}]; rf_replacements := None |} /\
  to_references (bs "include m ""a;b"" reference x mzy") = Ok {| rf_references := Some [{| lk_local := bs "x"; lk_reference := bs "y"; lk_include := inc "m" "a" "b" "" |}]; rf_replacements := None |}.
Proof. split; vm_compute; reflexivity. Qed.
Theorem C76_any_path_refuted : to_references (bs "include m ""reference x y.z;b"" ") = Err /\ to_references (bs "include referenceabcd ""a;b"" ") = Err.
Proof. split; vm_compute; reflexivity. Qed.

Print Assumptions C75_references_text_exactly.
Print Assumptions C75_panics_exactly.
Print Assumptions C75_always_ends.
Print Assumptions C75_meaning_is_unique.
Print Assumptions C75_example.
Print Assumptions C75_example_panic.
Print Assumptions C75_example_errors.
Print Assumptions C76_references_read_as_written.
Print Assumptions C76_resolvable_sources_accepted.
Print Assumptions C76_example_source.
Print Assumptions C76_dot_is_required_refuted.
Print Assumptions C76_any_path_refuted.
