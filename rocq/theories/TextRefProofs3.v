(* TextRefProofs3.v - well-formed sources of references are read as written. *)
From Coq Require Import Strings.String Strings.Byte Lia.
From Verif Require Import Go GoLemmas DomainModel CardModel PatModel RuleModel RuleProofs PathModel Regex RegexProofs TextModel TextBytes TextSpec TextRefSpec TextProofs TextProofs2 TextProofs3 TextRefProofs TextRefProofs2.
Open Scope list_scope.
Local Arguments in_class : simpl never.

(* a keyword cannot start inside of a piece that does not contain it and that ends with a foreign byte *)
Lemma keyword_inside (k u : bytes) c rest v : ~ In c k -> u ++ c :: rest = k ++ v -> exists b, u = k ++ b.
Proof.
  revert k. induction u as [|a u IH]; intros k N E.
  - destruct k as [|x k]; [exists []; reflexivity|]. exfalso. cbn in E. injection E as -> _. apply N. left. reflexivity.
  - destruct k as [|x k]; [exists (a :: u); reflexivity|]. cbn [app] in E. injection E as -> E. destruct (IH k) as (b & ->); [intros H; apply N; right; exact H|exact E|]. exists b. reflexivity.
Qed.
Section Skip.
Context {X : Type} (P : bytes -> X -> bytes -> Prop) (k : bytes).
Hypothesis starts : forall s x rest, P s x rest -> exists v, s = k ++ v.
Hypothesis Nk : k <> [].
Lemma skip_piece p c rest xs : ~ In c k -> ~ contains k p -> reads_all P rest xs -> reads_all P (p ++ c :: rest) xs.
Proof.
  intros N F H. induction p as [|a p IH]; cbn [app].
  - apply all_skip; [|exact H]. intros x r Hp. destruct (starts _ _ _ Hp) as (v & E). destruct k as [|y k']; [contradiction|]. cbn in E. injection E as -> _. apply N. left. reflexivity.
  - apply all_skip; [|apply IH; intros (u & v & E); apply F; exists (a :: u), v; cbn; rewrite E; reflexivity]. intros x r Hp. destruct (starts _ _ _ Hp) as (v & E). destruct (keyword_inside k (a :: p) c rest v N E) as (b & Eb). apply F. exists [], b. exact Eb.
Qed.
Lemma skip_bytes w rest xs : Forall (fun c => ~ In c k) w -> reads_all P rest xs -> reads_all P (w ++ rest) xs.
Proof. intros W H. induction W as [|c w C W IH]; [exact H|]. cbn [app]. apply (skip_piece [] c); [exact C| |exact IH]. intros (a & b & E). symmetry in E. apply app_eq_nil in E. destruct E as [_ E]. apply app_eq_nil in E. destruct E; contradiction. Qed.
Lemma skip_word p w rest xs : Forall (fun c => ~ In c k) w -> w <> [] -> ~ contains k p -> reads_all P rest xs -> reads_all P (p ++ w ++ rest) xs.
Proof. intros W Nw F H. destruct w as [|c w]; [contradiction|]. inversion W; subst. cbn [app]. apply skip_piece; [assumption|exact F|]. apply skip_bytes; assumption. Qed.
End Skip.
Definition kws : list bytes := [bs "include"; bs "reference"; bs "replace"].
Definition letters (k : bytes) : Prop := Forall lower k.
Lemma kw_letters : Forall letters kws.
Proof. unfold kws, letters. repeat (constructor; [repeat (constructor; [unfold lower; cbn; lia|]); constructor|]). constructor. Qed.
Lemma blank_foreign k w : letters k -> Forall blank w -> Forall (fun c => ~ In c k) w.
Proof. intros L. apply Forall_impl. intros c B H. unfold letters in L. rewrite Forall_forall in L. exact (lower_not_blank _ (L _ H) B). Qed.
Lemma not_lower_foreign k c : letters k -> ~ lower c -> ~ In c k.
Proof. intros L N H. unfold letters in L. rewrite Forall_forall in L. exact (N (L _ H)). Qed.
Fixpoint is_prefix (k s : bytes) : bool := match k, s with [], _ => true | a :: k, b :: s => Byte.eqb a b && is_prefix k s | _, [] => false end.
Fixpoint is_inside (k s : bytes) : bool := is_prefix k s || match s with [] => false | _ :: t => is_inside k t end.
Lemma is_prefix_app k b : is_prefix k (k ++ b) = true.
Proof. induction k as [|a k IH]; [reflexivity|]. cbn. rewrite eqb_refl. exact IH. Qed.
Lemma inside_contains k s : is_inside k s = false -> ~ contains k s.
Proof.
  intros H (a & b & ->). induction a as [|c a IH]; cbn [app] in H.
  - destruct (k ++ b) as [|x y] eqn:E; cbn [is_inside] in H; apply orb_false_iff in H; destruct H as [H _]; rewrite <- E, is_prefix_app in H; discriminate.
  - cbn [is_inside] in H. apply orb_false_iff in H. destruct H as [_ H]. auto.
Qed.
Lemma free_of k s : In k kws -> word_free s -> ~ contains k s.
Proof. intros H F. unfold word_free in F. rewrite Forall_forall in F. exact (F k H). Qed.
Lemma dq_foreign k : letters k -> ~ In dq k. Proof. intros L. apply not_lower_foreign; [exact L|unfold lower; cbn; lia]. Qed.
Lemma semi_foreign k : letters k -> ~ In semi k. Proof. intros L. apply not_lower_foreign; [exact L|unfold lower; cbn; lia]. Qed.
Lemma dot_foreign k : letters k -> ~ In "."%byte k. Proof. intros L. apply not_lower_foreign; [exact L|unfold lower; cbn; lia]. Qed.
Lemma blank_dec b : blank b \/ ~ blank b.
Proof. unfold blank. destruct (Byte.byte_eq_dec b " "%byte); [tauto|]. destruct (Byte.byte_eq_dec b x09); [tauto|]. destruct (Byte.byte_eq_dec b x0d); [tauto|]. destruct (Byte.byte_eq_dec b x0a); tauto. Qed.
(* lines of other keywords are skipped *)
Section Others.
Context {X : Type} (P : bytes -> X -> bytes -> Prop) (k : bytes).
Hypothesis starts : forall s x rest, P s x rest -> exists v, s = k ++ v.
Hypothesis Hk : In k kws.
Let L : letters k. Proof. assert (K := kw_letters). rewrite Forall_forall in K. exact (K k Hk). Qed.
Let Nk : k <> []. Proof. destruct Hk as [<-|[<-|[<-|[]]]]; discriminate. Qed.
Lemma skip_paths ps c rest xs : ~ In c k -> ps <> [] -> Forall plain_path ps -> reads_all P rest xs -> reads_all P (join [semi] ps ++ c :: rest) xs.
Proof.
  intros C Np F H. induction F as [|p ps (_ & _ & Fp) F IH]; [contradiction|]. destruct ps as [|q ps].
  - cbn [join]. apply (skip_piece P k starts Nk); [exact C|exact (free_of k p Hk Fp)|exact H].
  - change (join [semi] (p :: q :: ps)) with (p ++ [semi] ++ join [semi] (q :: ps)). rewrite <- !app_assoc. cbn [app]. apply (skip_piece P k starts Nk); [exact (semi_foreign k L)|exact (free_of k p Hk Fp)|]. apply IH. discriminate.
Qed.
Lemma skip_spaced p w rest xs : spaces w -> ~ contains k p -> reads_all P rest xs -> reads_all P (p ++ w ++ rest) xs.
Proof. intros [W N] F H. apply (skip_word P k starts Nk); [exact (blank_foreign k w L W)|exact N|exact F|exact H]. Qed.
Lemma skip_include_line i line rest xs : k <> bs "include" -> ref_line (RInclude i) line -> reads_all P rest xs -> reads_all P (line ++ rest) xs.
Proof.
  intros Ki Hl H. inversion Hl as [? ps w1 w2 w3 [Hn Fn] Nr Nt Fp Ep [W1 N1] W2 W3|a b c w1 w2 w3|a b c w1 w2 w3]; subst.
  replace ((bs "include" ++ w1 ++ in_name i ++ w2 ++ dq :: join [semi] ps ++ dq :: w3) ++ rest) with (bs "include" ++ w1 ++ in_name i ++ w2 ++ dq :: join [semi] ps ++ dq :: w3 ++ rest) by (rewrite <- !app_assoc; cbn [app]; rewrite <- !app_assoc; reflexivity).
  apply skip_spaced; [split; assumption| |].
  { destruct Hk as [K|[<-|[<-|[]]]]; [congruence| |]; apply inside_contains; reflexivity. }
  assert (Tail : reads_all P (join [semi] ps ++ dq :: w3 ++ rest) xs). { apply skip_paths; [exact (dq_foreign k L)|destruct Ep as [[-> _]| ->]; discriminate|exact Fp|]. apply (skip_bytes P k starts Nk); [apply (blank_foreign k w3 L); apply W3|exact H]. }
  destruct w2 as [|c w2].
  - cbn [app]. apply (skip_piece P k starts Nk); [exact (dq_foreign k L)|exact (free_of k _ Hk Fn)|exact Tail].
  - apply skip_spaced; [split; [exact W2|discriminate]|exact (free_of k _ Hk Fn)|]. apply (skip_piece P k starts Nk []); [exact (dq_foreign k L)| |exact Tail]. intros (a & b & E). symmetry in E. apply app_eq_nil in E. destruct E as [_ E]. apply app_eq_nil in E. destruct E as [E _]. exact (Nk E).
Qed.
Lemma skip_reference_line a b c line rest xs : k <> bs "reference" -> ref_line (RReference a b c) line -> reads_all P rest xs -> reads_all P (line ++ rest) xs.
Proof.
  intros Ki Hl H. inversion Hl as [? ps w1 w2 w3 Hn|? ? ? w1 w2 w3 [Ha Fa] [Hb Fb] [Hc Fc] W1 W2 W3|]; subst.
  replace ((bs "reference" ++ w1 ++ a ++ w2 ++ b ++ bs "." ++ c ++ w3) ++ rest) with (bs "reference" ++ w1 ++ a ++ w2 ++ b ++ bs "." ++ c ++ w3 ++ rest) by (rewrite <- !app_assoc; reflexivity).
  apply skip_spaced; [exact W1| |].
  { destruct Hk as [<-|[K|[<-|[]]]]; [|congruence|]; apply inside_contains; reflexivity. }
  apply skip_spaced; [exact W2|exact (free_of k _ Hk Fa)|]. cbn [app]. apply (skip_piece P k starts Nk); [exact (dot_foreign k L)|exact (free_of k _ Hk Fb)|]. apply skip_spaced; [exact W3|exact (free_of k _ Hk Fc)|exact H].
Qed.
Lemma skip_replace_line a b c line rest xs : k <> bs "replace" -> ref_line (RReplace a b c) line -> reads_all P rest xs -> reads_all P (line ++ rest) xs.
Proof.
  intros Ki Hl H. inversion Hl as [? ps w1 w2 w3 Hn| |? ? ? w1 w2 w3 [Ha Fa] [Hb Fb] [Hc Fc] W1 W2 W3]; subst.
  replace ((bs "replace" ++ w1 ++ a ++ bs "." ++ b ++ w2 ++ c ++ w3) ++ rest) with (bs "replace" ++ w1 ++ a ++ bs "." ++ b ++ w2 ++ c ++ w3 ++ rest) by (rewrite <- !app_assoc; reflexivity).
  apply skip_spaced; [exact W1| |].
  { destruct Hk as [<-|[<-|[K|[]]]]; [| |congruence]; apply inside_contains; reflexivity. }
  cbn [app]. apply (skip_piece P k starts Nk); [exact (dot_foreign k L)|exact (free_of k _ Hk Fa)|]. apply skip_spaced; [exact W2|exact (free_of k _ Hk Fb)|]. apply skip_spaced; [exact W3|exact (free_of k _ Hk Fc)|exact H].
Qed.
End Others.
Lemma text_starts {X} (P : bytes -> X -> bytes -> Prop) t s x rest : after_text P t s x rest -> exists v, s = t ++ v.
Proof. intros (u & -> & _). eauto. Qed.
Lemma include_starts s x rest : include_at s x rest -> exists v, s = bs "include" ++ v.
Proof. intros (w1 & w2 & -> & _). eauto. Qed.
(* a name that is followed by something else is the longest *)
Lemma only_name {X} (P : bytes -> X -> bytes -> Prop) n c u x rest : token_name n -> ~ (lower c \/ upper c) -> P (c :: u) x rest -> longest_name P (n ++ c :: u) (n, x) rest.
Proof.
  intros Hn Nc H. exists (c :: u). cbn [fst snd]. split; [reflexivity|]. split; [exact Hn|]. split; [exact H|]. intros n' u' x' r' E (b & w & -> & Hb & Hw) Ln. exfalso. destruct Hn as (b0 & w0 & -> & _ & _). cbn [app length] in *. injection E as -> E.
  revert w0 E Ln. induction w as [|a w IH]; intros w0 E Ln; [cbn in Ln; lia|]. destruct w0 as [|a0 w0]; cbn [app length] in *.
  - injection E as -> _. inversion Hw; subst. contradiction.
  - injection E as -> E. inversion Hw; subst. apply (IH H3 w0 E). lia.
Qed.
Lemma blank_not_letter c : blank c -> ~ (lower c \/ upper c).
Proof. intros [->|[->|[->| ->]]]; unfold lower, upper; cbn; lia. Qed.
Lemma name_then_blanks {X} (P : bytes -> X -> bytes -> Prop) n w u x rest : token_name n -> spaces w -> P (w ++ u) x rest -> longest_name P (n ++ w ++ u) (n, x) rest.
Proof. intros Hn [W N] H. destruct w as [|c w]; [contradiction|]. inversion W; subst. cbn [app]. apply only_name; [exact Hn|apply blank_not_letter; assumption|exact H]. Qed.
Lemma blanks_then {X} (P : bytes -> X -> bytes -> Prop) w u x rest : Forall blank w -> (forall b r, u = b :: r -> ~ blank b) -> P u x rest -> after_blanks P (w ++ u) x rest.
Proof. intros W U H. exists w, u. auto. Qed.
Lemma name_start n u b r : token_name n -> n ++ u = b :: r -> ~ blank b.
Proof. intros (c & w & -> & L & _) E. cbn in E. injection E as <- _. apply lower_not_blank. exact L. Qed.
Lemma dot_then {X} (P : bytes -> X -> bytes -> Prop) u x rest : P u x rest -> after_any P ("."%byte :: u) x rest.
Proof. intros H. apply after_any_width. split; [exists "."%byte, u; split; [reflexivity|discriminate]|]. assert (E : rune_width ("."%byte :: u) = 1) by (destruct u as [|a [|b [|c u]]]; reflexivity). rewrite E. exact H. Qed.
Definition no_blank_first (s : bytes) : Prop := forall b r, s = b :: r -> ~ blank b.
Lemma reads_reference a b c line rest : ref_line (RReference a b c) line -> no_blank_first rest -> reference_at (line ++ rest) (a, (b, (c, tt))) rest.
Proof.
  intros Hl R. inversion Hl as [? ps w1 w2 w3 Hn|? ? ? w1 w2 w3 [Ha Fa] [Hb Fb] [Hc Fc] W1 W2 W3|]; subst.
  replace ((bs "reference" ++ w1 ++ a ++ w2 ++ b ++ bs "." ++ c ++ w3) ++ rest) with (bs "reference" ++ w1 ++ a ++ w2 ++ b ++ bs "." ++ c ++ w3 ++ rest) by (rewrite <- !app_assoc; reflexivity).
  eexists. split; [reflexivity|]. apply blanks_then; [apply W1|intros x r; apply name_start; exact Ha|]. apply name_then_blanks; [exact Ha|exact W2|]. apply blanks_then; [apply W2|intros x r; apply name_start; exact Hb|]. cbn [app].
  apply only_name; [exact Hb|unfold lower, upper; cbn; lia|]. apply dot_then. apply name_then_blanks; [exact Hc|exact W3|]. apply blanks_then; [apply W3|exact R|reflexivity].
Qed.
Lemma reads_replace a b c line rest : ref_line (RReplace a b c) line -> no_blank_first rest -> replace_at (line ++ rest) (a, (b, (c, tt))) rest.
Proof.
  intros Hl R. inversion Hl as [? ps w1 w2 w3 Hn| |? ? ? w1 w2 w3 [Ha Fa] [Hb Fb] [Hc Fc] W1 W2 W3]; subst.
  replace ((bs "replace" ++ w1 ++ a ++ bs "." ++ b ++ w2 ++ c ++ w3) ++ rest) with (bs "replace" ++ w1 ++ a ++ bs "." ++ b ++ w2 ++ c ++ w3 ++ rest) by (rewrite <- !app_assoc; reflexivity).
  eexists. split; [reflexivity|]. apply blanks_then; [apply W1|intros x r; apply name_start; exact Ha|]. cbn [app]. apply only_name; [exact Ha|unfold lower, upper; cbn; lia|]. apply dot_then. apply name_then_blanks; [exact Hb|exact W2|]. apply blanks_then; [apply W2|intros x r; apply name_start; exact Hc|]. apply name_then_blanks; [exact Hc|exact W3|]. apply blanks_then; [apply W3|exact R|reflexivity].
Qed.
Lemma reads_include i line rest : ref_line (RInclude i) line -> exists d w, include_at (line ++ rest) d (w ++ rest) /\ Forall blank w /\ include_of d i.
Proof.
  intros Hl. inversion Hl as [? ps w1 w2 w3 [Hn Fn] Nr Nt Fp Ep [W1 N1] W2 W3|a b c w1 w2 w3|a b c w1 w2 w3]; subst. exists (in_name i, join [semi] ps), w3.
  assert (Fs : Forall (fun p => ~ In semi p) ps) by (eapply Forall_impl; [|exact Fp]; intros p (H & _); exact H).
  split; [|split; [apply W3|]].
  - exists w1, w2. cbn [fst snd]. split; [rewrite <- !app_assoc; cbn [app]; rewrite <- !app_assoc; reflexivity|]. split; [exact Hn|]. split; [exact W1|]. split; [exact W2|].
    clear - Fp. induction Fp as [|p ps (_ & Hq & _) F IH]; [intros []|]. destruct ps as [|q ps]; [exact Hq|]. change (join [semi] (p :: q :: ps)) with (p ++ [semi] ++ join [semi] (q :: ps)). rewrite !in_app_iff. intros [K|[[K|[]]|K]]; [contradiction|discriminate|contradiction].
  - split; [reflexivity|]. split; [exact Nr|]. split; [exact Nt|]. exists ps. split; [|exact Ep]. cbn [fst snd]. split; [destruct Ep as [[-> _]| ->]; discriminate|]. split; [reflexivity|exact Fs].
Qed.
Lemma lines_first items lines : Forall2 ref_line items lines -> no_blank_first (concat lines).
Proof.
  intros F b r E. destruct F as [|x line items lines Hl F]; [discriminate|]. cbn [concat] in E. destruct Hl; cbn [app bs] in E; vm_compute in E; injection E as <- _; apply letter_blank; cbn; lia.
Qed.
Lemma reads_references items lines : Forall2 ref_line items lines -> reads_all reference_at (concat lines) (item_references items).
Proof.
  intros F. induction F as [|x line items lines Hl F IH]; [constructor|]. cbn [concat]. unfold item_references. cbn [map concat]. fold (item_references items). destruct x as [i|a b c|a b c]; cbn [app].
  - apply (skip_include_line _ (bs "reference") (text_starts _ _) (or_intror (or_introl eq_refl)) i); [discriminate|exact Hl|exact IH].
  - eapply all_here; [|exact IH]. apply reads_reference; [exact Hl|apply (lines_first items); exact F].
  - apply (skip_replace_line _ (bs "reference") (text_starts _ _) (or_intror (or_introl eq_refl)) a b c); [discriminate|exact Hl|exact IH].
Qed.
Lemma reads_replacements items lines : Forall2 ref_line items lines -> reads_all replace_at (concat lines) (item_replacements items).
Proof.
  intros F. induction F as [|x line items lines Hl F IH]; [constructor|]. cbn [concat]. unfold item_replacements. cbn [map concat]. fold (item_replacements items). destruct x as [i|a b c|a b c]; cbn [app].
  - apply (skip_include_line _ (bs "replace") (text_starts _ _) (or_intror (or_intror (or_introl eq_refl))) i); [discriminate|exact Hl|exact IH].
  - apply (skip_reference_line _ (bs "replace") (text_starts _ _) (or_intror (or_intror (or_introl eq_refl))) a b c); [discriminate|exact Hl|exact IH].
  - eapply all_here; [|exact IH]. apply reads_replace; [exact Hl|apply (lines_first items); exact F].
Qed.
Lemma reads_includes items lines : Forall2 ref_line items lines -> exists ids, reads_all include_at (concat lines) ids /\ Forall2 include_of ids (item_includes items).
Proof.
  intros F. induction F as [|x line items lines Hl F (ids & R & I)]; [exists []; split; constructor|]. cbn [concat]. unfold item_includes. cbn [map concat]. fold (item_includes items). destruct x as [i|a b c|a b c]; cbn [app].
  - destruct (reads_include i line (concat lines) Hl) as (d & w & H & W & Hi). exists (d :: ids). split; [|constructor; assumption]. eapply all_here; [exact H|]. apply skip_blanks; [exact inc_no_blank|exact W|exact R].
  - exists ids. split; [|exact I]. apply (skip_reference_line _ (bs "include") include_starts (or_introl eq_refl) a b c); [discriminate|exact Hl|exact R].
  - exists ids. split; [|exact I]. apply (skip_replace_line _ (bs "include") include_starts (or_introl eq_refl) a b c); [discriminate|exact Hl|exact R].
Qed.
Lemma include_of_fun ids is is' : Forall (fun d => fst d <> []) ids -> Forall2 include_of ids is -> Forall2 include_of ids is' -> is = is'.
Proof.
  intros N F. revert is'. induction F as [|d i ids is Hi F IH]; intros is' F'; inversion F' as [|? i' ? is'' Hi' F'']; subst; [reflexivity|]. inversion N; subst. destruct (inc_of_iff d H1) as (I & _). apply I in Hi. apply I in Hi'. rewrite Hi in Hi'. injection Hi' as <-. f_equal. auto.
Qed.
Lemma references_as_written items text r : written_references items text -> (to_references text = Ok r <-> ref_items_mean items r).
Proof.
  intros (w & lines & W & F & ->). rewrite to_references_exact. destruct (reads_includes items lines F) as (ids & Ri & Fi). assert (Rf := reads_references items lines F). assert (Rp := reads_replacements items lines F).
  apply (skip_blanks _ inc_no_blank w _ _ W) in Ri. apply (skip_blanks _ ref_no_blank w _ _ W) in Rf. apply (skip_blanks _ rep_no_blank w _ _ W) in Rp. split.
  - intros (ids' & is & fds & fs & pds & ps & Ri' & Fi' & Rf' & Ff & Hf & Rp' & Fp & Hp). rewrite (includes_fun _ _ _ Ri' Ri) in Fi'. assert (E := include_of_fun ids _ _ (include_names _ _ Ri) Fi' Fi). subst is. rewrite (references_fun _ _ _ Rf' Rf) in Ff. rewrite (replacements_fun _ _ _ Rp' Rp) in Fp. exists fs, ps. auto.
  - intros (fs & ps & Ff & Hf & Fp & Hp). exists ids, (item_includes items), (item_references items), fs, (item_replacements items), ps. auto 10.
Qed.
