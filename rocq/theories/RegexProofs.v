(* RegexProofs.v - general facts on the byte by byte matcher of RegexBytes.v. *)
From Coq Require Import Strings.String Strings.Byte Lia.
From Verif Require Import GoLemmas.
From Verif Require Export RegexBytes.
Open Scope list_scope.

Fixpoint takec (c : cls) (s : bytes) : bytes := match s with b :: r => if in_class c b then b :: takec c r else [] | [] => [] end.
Fixpoint dropc (c : cls) (s : bytes) : bytes := match s with b :: r => if in_class c b then dropc c r else s | [] => [] end.
Definition all_in (c : cls) (s : bytes) : Prop := Forall (fun b => in_class c b = true) s.
Definition stops (c : cls) (s : bytes) : Prop := match s with b :: _ => in_class c b = false | [] => True end.

Lemma take_drop c s : s = takec c s ++ dropc c s.
Proof. induction s as [|b r IH]; [reflexivity|]. cbn. destruct (in_class c b); [cbn; f_equal; exact IH|reflexivity]. Qed.
Lemma takec_all c s : all_in c (takec c s).
Proof. induction s as [|b r IH]; [constructor|]. cbn. destruct (in_class c b) eqn:E; [constructor; assumption|constructor]. Qed.
Lemma dropc_stops c s : stops c (dropc c s).
Proof. induction s as [|b r IH]; [exact I|]. cbn. destruct (in_class c b) eqn:E; [exact IH|exact E]. Qed.
Lemma span_unique c u v : all_in c u -> stops c v -> takec c (u ++ v) = u /\ dropc c (u ++ v) = v.
Proof.
  intros Hu Hv. induction u as [|b u IH]; cbn.
  - destruct v as [|b v]; [split; reflexivity|]. cbn in Hv |- *. rewrite Hv. split; reflexivity.
  - inversion Hu as [|x y Hb Hu']; subst. rewrite Hb. destruct (IH Hu') as [-> ->]. split; reflexivity.
Qed.
Lemma length_take_drop c s : length s - length (dropc c s) = length (takec c s).
Proof. assert (H := take_drop c s). apply (f_equal (@length _)) in H. rewrite app_length in H. lia. Qed.
Lemma dropc_length c s : length (dropc c s) <= length s.
Proof. assert (H := take_drop c s). apply (f_equal (@length _)) in H. rewrite app_length in H. lia. Qed.
Lemma firstn_diff (u v : bytes) : firstn (length (u ++ v) - length v) (u ++ v) = u.
Proof. rewrite app_length, Nat.add_sub, firstn_app, Nat.sub_diag, firstn_all. cbn. apply app_nil_r. Qed.

(* ---- stars ---- *)
Section Star.
Context {A : Type} (c : cls) (k : bytes -> option A).
(* the continuation cannot start inside the run *)
Definition refuses : Prop := forall b t, in_class c b = true -> k (b :: t) = None.
Lemma star_greedy_det s : refuses -> star_greedy c k s = k (dropc c s).
Proof.
  intros R. induction s as [|b r IH]; [reflexivity|]. cbn [star_greedy dropc]. destruct (in_class c b) eqn:E; [|reflexivity].
  rewrite IH. destruct (k (dropc c r)); [reflexivity|]. apply R. exact E.
Qed.
Lemma star_lazy_det s : refuses -> star_lazy c k s = k (dropc c s).
Proof.
  intros R. induction s as [|b r IH]; cbn [star_lazy dropc]; [destruct (k []); reflexivity|]. destruct (in_class c b) eqn:E.
  - rewrite (R b r E). exact IH.
  - destruct (k (b :: r)); reflexivity.
Qed.
Lemma star_greedy_all s : k (dropc c s) <> None -> star_greedy c k s = k (dropc c s).
Proof.
  induction s as [|b r IH]; [reflexivity|]. cbn [star_greedy dropc]. destruct (in_class c b) eqn:E; [|reflexivity].
  intros H. rewrite (IH H). destruct (k (dropc c r)); [reflexivity|contradiction].
Qed.
Lemma star_lazy_none s : k s <> None -> star_lazy c k s = k s.
Proof. intros H. destruct s; cbn; [destruct (k []); [reflexivity|contradiction]|]. destruct (k (b :: s)); [reflexivity|contradiction]. Qed.
(* greedy: the longest run after which the rest matches *)
Lemma star_greedy_some s x : star_greedy c k s = Some x <->
  exists u v, s = u ++ v /\ all_in c u /\ k v = Some x /\ forall u' v', s = u' ++ v' -> all_in c u' -> length u < length u' -> k v' = None.
Proof.
  revert x. induction s as [|b r IH]; intros x; cbn [star_greedy].
  - split.
    + intros H. exists [], []. split; [reflexivity|]. split; [constructor|]. split; [exact H|]. intros u' v' E _ L. destruct u'; [cbn in L; lia|discriminate].
    + intros (u & v & E & _ & H & _). symmetry in E. apply app_eq_nil in E. destruct E as [_ ->]. exact H.
  - destruct (in_class c b) eqn:E.
    + destruct (star_greedy c k r) as [y|] eqn:G.
      * split.
        -- intros [= <-]. destruct (proj1 (IH y) eq_refl) as (u & v & E1 & E2 & E3 & E4). exists (b :: u), v. rewrite E1. split; [reflexivity|].
           split; [constructor; assumption|]. split; [exact E3|]. intros u' v' Eu Hu L. destruct u' as [|b' u']; [cbn in L; lia|]. injection Eu as -> Eu. inversion Hu; subst.
           apply (E4 u' v'); [exact Eu|assumption|cbn in L; lia].
        -- intros (u & v & E1 & E2 & E3 & E4). destruct (proj1 (IH y) eq_refl) as (u1 & v1 & F1 & F2 & F3 & F4).
           destruct (Nat.lt_trichotomy (length u) (length (b :: u1))) as [L|[L|L]].
           ++ rewrite (E4 (b :: u1) v1) in F3; [discriminate|cbn; rewrite F1; reflexivity|constructor; assumption|exact L].
           ++ assert (v = v1). { assert (K : u ++ v = (b :: u1) ++ v1) by (rewrite <- E1; cbn; rewrite F1; reflexivity). apply app_inv_head with (l := u). rewrite K. f_equal.
                clear - K L. revert u L K. generalize (b :: u1). intros w u L K. revert w L K. induction u as [|a u IHu]; intros [|d w] L K; cbn in L; try discriminate; [reflexivity|]. injection K as -> K. f_equal. apply IHu; [lia|exact K]. }
              subst v1. congruence.
           ++ destruct u as [|b' u]; [cbn in L; lia|]. injection E1 as -> E1. inversion E2; subst. rewrite (F4 u v) in E3; [discriminate|reflexivity|assumption|cbn in L; lia].
      * split.
        -- intros H. exists [], (b :: r). split; [reflexivity|]. split; [constructor|]. split; [exact H|]. intros u' v' Eu Hu L. destruct u' as [|b' u']; [cbn in L; lia|].
           injection Eu as -> Eu. inversion Hu; subst. destruct (k v') as [z|] eqn:Kz; [|reflexivity]. exfalso.
           (* some split succeeds, so the star would *)
           assert (S : exists z', star_greedy c k (u' ++ v') = Some z').
           { clear - Kz H3. induction u' as [|a u' IHu]; cbn; [destruct v' as [|d v']; cbn; [rewrite Kz; eauto|destruct (in_class c d); [destruct (star_greedy c k v'); eauto|eauto]]|].
             inversion H3; subst. rewrite H1. destruct (IHu H2) as [z' ->]. eauto. }
           destruct S as [z' S]. rewrite S in G. discriminate.
        -- intros (u & v & E1 & E2 & E3 & _). destruct u as [|b' u]; [cbn in E1; subst v; exact E3|]. injection E1 as -> E1. inversion E2; subst. exfalso.
           assert (S : exists z', star_greedy c k (u ++ v) = Some z').
           { clear - E3 H2. induction u as [|a u IHu]; cbn; [destruct v as [|d v']; cbn; [rewrite E3; eauto|destruct (in_class c d); [destruct (star_greedy c k v'); eauto|eauto]]|].
             inversion H2; subst. rewrite H1. destruct (IHu H3) as [z' ->]. eauto. }
           destruct S as [z' S]. rewrite S in G. discriminate.
    + split.
      * intros H. exists [], (b :: r). split; [reflexivity|]. split; [constructor|]. split; [exact H|]. intros u' v' Eu Hu L. destruct u' as [|b' u']; [cbn in L; lia|]. injection Eu as -> Eu. inversion Hu; subst. congruence.
      * intros (u & v & E1 & E2 & E3 & _). destruct u as [|b' u]; [cbn in E1; subst v; exact E3|]. injection E1 as -> E1. inversion E2; subst. congruence.
Qed.
End Star.

(* ---- find_all on a text cut in sections ---- *)
Section Sections.
Context {X : Type} (r : re) (P : bytes -> X -> Prop) (mk : X -> caps) (semi : byte).
Hypothesis Hsome : forall sec rest m, ~ In semi sec ->
  (match_at r (sec ++ semi :: rest) = Some m <-> exists x, P sec x /\ m = {| m_text := sec ++ [semi]; m_caps := mk x |}).
Hypothesis Hnone : forall s, ~ In semi s -> match_at r s = None.

Lemma find_skip a f t : find_from r (length a) f (a ++ t) = find_from r 0 f t.
Proof. revert f. induction a as [|b a IH]; intros f; [reflexivity|]. cbn. apply IH. Qed.
Lemma find_none s : ~ In semi s -> find_from r 0 false s = [].
Proof.
  induction s as [|b s IH]; intros H; cbn [find_from]; rewrite (Hnone _ H); [reflexivity|]. apply IH. intros K. apply H. right. exact K.
Qed.
Lemma find_none' f s : ~ In semi s -> find_from r 0 f s = [].
Proof.
  intros H. destruct f; [|apply find_none; exact H]. destruct s as [|b s]; cbn [find_from]; rewrite (Hnone _ H); [reflexivity|].
  apply find_none. intros K. apply H. right. exact K.
Qed.
(* the leftmost suffix of a section that is a declaration *)
Definition leftmost (sec : bytes) (x : X) : Prop :=
  exists pre u, sec = pre ++ u /\ P u x /\ forall pre' u' x', sec = pre' ++ u' -> length pre' < length pre -> ~ P u' x'.
Definition nowhere (sec : bytes) : Prop := forall pre u x, sec = pre ++ u -> ~ P u x.
Inductive reads : list bytes -> list X -> Prop :=
| reads_nil : reads [] []
| reads_skip s l xs : nowhere s -> reads l xs -> reads (s :: l) xs
| reads_take s l x xs : leftmost s x -> reads l xs -> reads (s :: l) (x :: xs).

Lemma find_section sec rest f : ~ In semi sec ->
  (nowhere sec /\ find_from r 0 f (sec ++ semi :: rest) = find_from r 0 false rest) \/
  (exists x u, leftmost sec x /\ find_from r 0 f (sec ++ semi :: rest) = {| m_text := u ++ [semi]; m_caps := mk x |} :: find_from r 0 true rest /\ exists pre, sec = pre ++ u /\ P u x).
Proof.
  revert f. induction sec as [|b sec IH]; intros f N.
  - destruct (match_at r (semi :: rest)) as [m|] eqn:E.
    + right. destruct (proj1 (Hsome [] rest m N) E) as (x & Hx & ->). exists x, []. split; [exists [], []; split; [reflexivity|]; split; [exact Hx|]; intros; cbn in *; lia|].
      split; [|exists []; split; [reflexivity|exact Hx]]. cbn [app find_from]. rewrite E. reflexivity.
    + left. split.
      * intros pre u x K Hx. symmetry in K. apply app_eq_nil in K. destruct K as [_ ->].
        assert (M : match_at r (semi :: rest) = Some {| m_text := [semi]; m_caps := mk x |}) by (apply (Hsome [] rest _ N); exists x; split; [exact Hx|reflexivity]). congruence.
      * cbn [app find_from]. rewrite E. reflexivity.
  - assert (N' : ~ In semi sec) by (intros K; apply N; right; exact K).
    destruct (match_at r ((b :: sec) ++ semi :: rest)) as [m|] eqn:E.
    + right. destruct (proj1 (Hsome (b :: sec) rest m N) E) as (x & Hx & ->). exists x, (b :: sec). split; [exists [], (b :: sec); split; [reflexivity|]; split; [exact Hx|]; intros; cbn in *; lia|].
      split; [|exists []; split; [reflexivity|exact Hx]]. cbn [app] in *. cbn [find_from]. rewrite E. cbn [m_text]. f_equal. replace (sec ++ semi :: rest) with ((sec ++ [semi]) ++ rest) by (rewrite <- app_assoc; reflexivity). apply find_skip.
    + assert (NP : forall x, ~ P (b :: sec) x).
      { intros x Hx. assert (M : match_at r ((b :: sec) ++ semi :: rest) = Some {| m_text := (b :: sec) ++ [semi]; m_caps := mk x |}) by (apply (Hsome _ rest _ N); exists x; split; [exact Hx|reflexivity]). congruence. }
      destruct (IH false N') as [[A B]|(x & u & A & B & pre & C1 & C2)].
      * left. split.
        -- intros pre u x K Hx. destruct pre as [|b' pre]; [cbn in K; subst u; apply (NP x Hx)|]. injection K as -> K. apply (A pre u x K Hx).
        -- cbn [app] in *. cbn [find_from]. rewrite E. exact B.
      * right. exists x, u. split; [|split].
        -- destruct A as (pre1 & u1 & A1 & A2 & A3). exists (b :: pre1), u1. split; [cbn; rewrite A1; reflexivity|]. split; [exact A2|].
           intros pre' u' x' K L. destruct pre' as [|b' pre']; [cbn in K; subst u'; apply NP|]. injection K as -> K. apply (A3 pre' u' x' K). cbn in L. lia.
        -- cbn [app] in *. cbn [find_from]. rewrite E. exact B.
        -- exists (b :: pre). split; [cbn; rewrite C1; reflexivity|exact C2].
Qed.
Lemma find_sections secs tail f : Forall (fun s => ~ In semi s) secs -> ~ In semi tail ->
  exists xs, reads secs xs /\ map m_caps (find_from r 0 f (concat (map (fun s => s ++ [semi]) secs) ++ tail)) = map mk xs.
Proof.
  revert f. induction secs as [|s secs IH]; intros f Hs Ht.
  - exists []. split; [constructor|]. cbn. rewrite (find_none' f tail Ht). reflexivity.
  - inversion Hs as [|a b N Hs']; subst. cbn [map concat]. rewrite <- !app_assoc. cbn [app].
    destruct (find_section s (concat (map (fun s => s ++ [semi]) secs) ++ tail) f N) as [[A B]|(x & u & A & B & _)]; rewrite B.
    + destruct (IH false Hs' Ht) as (xs & R & E). exists xs. split; [apply reads_skip; assumption|exact E].
    + destruct (IH true Hs' Ht) as (xs & R & E). exists (x :: xs). split; [apply reads_take; assumption|]. cbn [map m_caps]. rewrite E. reflexivity.
Qed.
(* when the text of a match is part of what is read *)
Lemma find_sections_text (text : X -> bytes) secs tail f : (forall u x, P u x -> text x = u ++ [semi]) -> Forall (fun s => ~ In semi s) secs -> ~ In semi tail ->
  exists xs, reads secs xs /\ find_from r 0 f (concat (map (fun s => s ++ [semi]) secs) ++ tail) = map (fun x => {| m_text := text x; m_caps := mk x |}) xs.
Proof.
  intros Htext. revert f. induction secs as [|s secs IH]; intros f Hs Ht.
  - exists []. split; [constructor|]. cbn. rewrite (find_none' f tail Ht). reflexivity.
  - inversion Hs as [|a b N Hs']; subst. cbn [map concat]. rewrite <- !app_assoc. cbn [app].
    destruct (find_section s (concat (map (fun s => s ++ [semi]) secs) ++ tail) f N) as [[A B]|(x & u & A & B & pre & C1 & C2)]; rewrite B.
    + destruct (IH false Hs' Ht) as (xs & R & E). exists xs. split; [apply reads_skip; assumption|exact E].
    + destruct (IH true Hs' Ht) as (xs & R & E). exists (x :: xs). split; [apply reads_take; assumption|]. cbn [map]. rewrite E, (Htext u x C2). reflexivity.
Qed.
End Sections.

(* every text is cut in one way *)
Lemma cut_exists (semi : byte) (t : bytes) : exists secs tail, t = concat (map (fun s => s ++ [semi]) secs) ++ tail /\ Forall (fun s => ~ In semi s) secs /\ ~ In semi tail.
Proof.
  induction t as [|b t IH]; [exists [], []; repeat split; [constructor|intros []]|].
  destruct IH as (secs & tail & E & Hs & Ht). destruct (Byte.eqb b semi) eqn:Eb.
  - apply Byte.byte_dec_bl in Eb. subst b. exists ([] :: secs), tail. split; [cbn; rewrite E; reflexivity|]. split; [constructor; [intros []|exact Hs]|exact Ht].
  - assert (Nb : b <> semi) by (intros ->; rewrite (Byte.byte_dec_lb eq_refl) in Eb; discriminate).
    destruct secs as [|s secs].
    + exists [], (b :: tail). split; [cbn in *; rewrite E; reflexivity|]. split; [constructor|]. intros [K|K]; [apply Nb; exact K|apply Ht; exact K].
    + inversion Hs; subst. exists ((b :: s) :: secs), tail. split; [reflexivity|]. split; [constructor; [|assumption]|exact Ht]. intros [K|K]; [apply Nb; exact K|contradiction].
Qed.
