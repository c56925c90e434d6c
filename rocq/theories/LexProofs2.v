From Coq Require Import Strings.String Strings.Byte Lia.
From Verif Require Import Go GoLemmas DomainModel DomainSpec CardModel CardSpec CardProofs PatModel PatSpec PatProofs RuleModel RuleSpec RuleProofs PathModel PathSpec LexModel LexSpec LexProofs.

(* ---- more fuel does not change an answer ---- *)
Definition mle {A} (m m' : M A) : Prop := forall s, fst (m s) <> NoFuel -> m' s = m s.
Lemma mle_refl {A} (m : M A) : mle m m. Proof. intros s _. reflexivity. Qed.
Lemma mle_bind {A B} (m m' : M A) (f f' : A -> M B) : mle m m' -> (forall a, mle (f a) (f' a)) -> mle (mbind m f) (mbind m' f').
Proof.
  intros Hm Hf s N. unfold mbind in *. specialize (Hm s). destruct (m s) as [[a| | |] s1]; cbn [fst] in *.
  - rewrite Hm by discriminate. apply Hf. exact N.
  - rewrite Hm by discriminate. reflexivity.
  - rewrite Hm by discriminate. reflexivity.
  - contradiction.
Qed.
Definition rle {A} (r r' : res A) : Prop := r <> NoFuel -> r' = r.
Lemma mle_lift {A} (r r' : res A) : rle r r' -> mle (lift r) (lift r').
Proof. intros H s N. unfold lift in *. cbn [fst] in N. rewrite H by exact N. reflexivity. Qed.
Lemma rle_bind {A B} (r r' : res A) (f f' : A -> res B) : rle r r' -> (forall a, rle (f a) (f' a)) -> rle (bind r f) (bind r' f').
Proof. intros Hr Hf N. unfold bind in *. destruct r; try (rewrite Hr by discriminate); [apply Hf; exact N|reflexivity|reflexivity|contradiction]. Qed.
Lemma rle_refl {A} (r : res A) : rle r r. Proof. intros _. reflexivity. Qed.
Lemma first_rule_mono d n : forall m name, n <= m -> rle (first_rule n d name) (first_rule m d name).
Proof.
  induction n as [|n IH]; intros m name L; [intros N; contradiction|]. destruct m as [|m]; [lia|]. cbn [first_rule].
  apply rle_bind; [apply rle_refl|]. intros e. destruct (el_must e); [apply rle_refl|]. destruct (first_container l) as [[ | | | ]|]; try apply rle_refl; apply IH; lia.
Qed.
Lemma build_next_mono n m c d : n <= m -> rle (build_next n c d) (build_next m c d).
Proof. intros L. destruct c; cbn [build_next]; try apply rle_refl; apply rle_bind; try (apply first_rule_mono; exact L); intros; apply rle_refl. Qed.

Definition fle (f g : pcontainer -> gmap element -> bytes -> bool -> bool -> M (option block)) : Prop :=
  forall c d s ch nx, mle (f c d s ch nx) (g c d s ch nx).
Section Mono.
Variable channels : nat -> list path.
Variables f g : pcontainer -> gmap element -> bytes -> bool -> bool -> M (option block).
Hypothesis Hfg : fle f g.
Lemma line_loop_mono l : forall d s ch nx acc, mle (line_loop f l d s ch nx acc) (line_loop g l d s ch nx acc).
Proof.
  induction l as [|[|c] l IH]; intros; cbn [line_loop]; [apply mle_refl|apply IH|]. apply mle_bind; [apply Hfg|]. intros [b|]; [|apply mle_refl].
  destruct (b_valid b); cbn [negb]; [|apply mle_refl]. destruct (has_prefix _ _); [apply IH|apply mle_refl].
Qed.
Lemma line_mono l d s ch : mle (line_to_matches f l d s ch) (line_to_matches g l d s ch).
Proof. apply mle_bind; [apply line_loop_mono|]. intros; apply mle_refl. Qed.
Lemma best_loop_mono ls : forall i d s ch big v iv, mle (best_loop f ls i d s ch big v iv) (best_loop g ls i d s ch big v iv).
Proof.
  induction ls as [|l ls IH]; intros; cbn [best_loop]; [apply mle_refl|]. apply mle_bind; [apply line_mono|]. intros [bl|]; [|apply IH].
  destruct (lm_valid _); cbn [negb]; [|apply IH]. destruct (_ <? _); apply IH.
Qed.
Lemma best_line_mono ls d s ch : mle (best_line f ls d s ch) (best_line g ls d s ch).
Proof. apply mle_bind; [apply best_loop_mono|]. intros; apply mle_refl. Qed.
Lemma element_mono e d s ch : mle (element_to_token f e d s ch) (element_to_token g e d s ch).
Proof.
  apply mle_bind; [|intros; apply mle_refl]. apply mle_bind; [apply best_line_mono|]. intros [m|]; [|apply mle_refl].
  destruct (el_not e); [|apply mle_refl]. apply mle_bind; [apply best_line_mono|]. intros; apply mle_refl.
Qed.
Lemma find_channels_mono s : forall chs, mle (find_in_channels f chs s) (find_in_channels g chs s).
Proof.
  induction chs as [|p chs IH]; cbn [find_in_channels]; [apply mle_refl|]. apply mle_bind; [apply element_mono|]. intros t. destruct (tok_valid t); [apply mle_refl|exact IH].
Qed.
Lemma find_block_mono c d s nx : mle (find_channel_block channels f c d s nx) (find_channel_block channels g c d s nx).
Proof.
  apply mle_bind; [intros st; apply find_channels_mono|]. intros [m|]; [|apply mle_refl]. destruct (has_prefix _ _); [|apply mle_refl]. apply mle_bind; [apply Hfg|]. intros; apply mle_refl.
Qed.
Lemma token_loop_mono e d pmax ch n : forall m acc s, n <= m -> mle (token_loop f n e d pmax ch acc s) (token_loop g m e d pmax ch acc s).
Proof.
  induction n as [|n IH]; intros m acc s L; [intros st N; contradiction|]. destruct m as [|m]; [lia|]. cbn [token_loop].
  apply mle_bind; [apply element_mono|]. intros t. destruct (tok_valid t); cbn [negb]; [|apply mle_refl]. destruct (tok_content t) as [[x y]|]; [|apply mle_refl].
  destruct (has_prefix _ _); [|apply mle_refl]. match goal with |- context [if ?b then _ else _] => destruct b end; [apply mle_refl|]. apply IH. lia.
Qed.
Lemma token_match_mono n m e sp k d s ch : n <= m -> mle (token_to_match f n e sp k d s ch) (token_to_match g m e sp k d s ch).
Proof. intros L. unfold token_to_match. destruct (delimiter k). apply mle_bind; [apply token_loop_mono; exact L|]. intros; apply mle_refl. Qed.
Lemma container_mono n m c d s ch : n <= m -> mle (container_to_match f n c d s ch) (container_to_match g m c d s ch).
Proof.
  intros L. destruct c; cbn [container_to_match].
  - apply mle_bind; [apply token_match_mono; exact L|]. intros; apply mle_refl.
  - apply mle_refl.
  - intros st. match goal with |- context [if ?b then _ else _] => destruct b end; [reflexivity|].
    revert st. intros st. match goal with |- fst (mbind ?a ?b ?s) <> _ -> mbind ?a ?b' ?s = _ => apply (mle_bind a a b b') end; [apply mle_refl|]. intros e.
    apply mle_bind; [apply token_match_mono; exact L|]. intros; apply mle_refl.
  - apply mle_bind; [apply best_line_mono|]. intros; apply mle_refl.
Qed.
Lemma cbm_step_mono n m : n <= m -> fle (cbm_step channels f n) (cbm_step channels g m).
Proof.
  intros L c d s ch nx. unfold cbm_step. destruct s as [|b s].
  - apply mle_lift. apply rle_bind; [apply rle_refl|]. intros k. destruct (is_valid k 0); [apply rle_refl|]. apply rle_bind; [apply build_next_mono; exact L|]. intros; apply rle_refl.
  - apply mle_bind; [destruct ch; [apply find_block_mono|apply mle_refl]|]. intros [x|]; [apply mle_refl|]. apply mle_bind; [apply container_mono; exact L|]. intros; apply mle_refl.
Qed.
End Mono.
Lemma cbm_mono channels n : forall m, n <= m -> fle (cbm channels n) (cbm channels m).
Proof.
  induction n as [|n IH]; intros m L; [intros c d s ch nx st N; contradiction|]. destruct m as [|m]; [lia|].
  intros c d s ch nx. cbn [cbm]. apply (cbm_step_mono channels (cbm channels n) (cbm channels m)); [apply IH; lia|lia].
Qed.
Lemma to_token_mono channels root n m script st : n <= m -> fst (to_token channels n root script st) <> NoFuel ->
  to_token channels m root script st = to_token channels n root script st.
Proof. intros L. unfold to_token. apply element_mono. apply cbm_mono. exact L. Qed.

(* ---- lexing ends ---- *)
(* the computation neither runs out of fuel nor panics... panics are possible *)
Definition fin {A} (m : M A) (P : A -> Prop) : Prop := forall s, fst (m s) <> NoFuel /\ forall a s', m s = (Ok a, s') -> P a.
Lemma fin_bind {A B} (m : M A) (f : A -> M B) P Q : fin m P -> (forall a, P a -> fin (f a) Q) -> fin (mbind m f) Q.
Proof.
  intros Hm Hf s. destruct (Hm s) as [N H]. unfold mbind. destruct (m s) as [[a| | |] s1]; cbn [fst] in *.
  - apply (Hf a (H a s1 eq_refl)).
  - split; [discriminate|]. intros ? ? E; discriminate.
  - split; [discriminate|]. intros ? ? E; discriminate.
  - contradiction.
Qed.
Lemma fin_ret {A} (a : A) (P : A -> Prop) : P a -> fin (ret a) P.
Proof. intros H s. split; [discriminate|]. intros b s' E. apply ret_ok in E. destruct E; subst. exact H. Qed.
Lemma fin_lift {A} (r : res A) (P : A -> Prop) : r <> NoFuel -> (forall a, r = Ok a -> P a) -> fin (lift r) P.
Proof. intros N H s. split; [exact N|]. intros b s' E. apply lift_ok in E. apply H. tauto. Qed.
Lemma fin_weak {A} (m : M A) (P Q : A -> Prop) : fin m P -> (forall a, P a -> Q a) -> fin m Q.
Proof. intros H I s. destruct (H s) as [N K]. split; [exact N|]. intros a s' E. apply I. apply (K a s' E). Qed.
Definition any {A} : A -> Prop := fun _ => True.

(* a valid block that reads nothing stands for an absent container *)
Definition consumes (c : pcontainer) (o : option block) : Prop :=
  match o with Some b => b_valid b = true -> b_disc b = [] -> may_be_absent c | None => True end.
Section Line.
Variable f : pcontainer -> gmap element -> bytes -> bool -> bool -> M (option block).
Variable d : gmap element.
Lemma line_loop_fin len (sw : bool) l : forall s ch nx acc,
  (sw = false -> ch = false /\ nx = false /\ ~ In ISwitch l) ->
  length s <= len ->
  (forall c s ch nx, In (ICont c) l -> (sw = false -> ch = false /\ nx = false) -> length s < len -> fin (f c d s ch nx) (consumes c)) ->
  (length s = len -> forall c s ch nx, leading l c -> (sw = false -> ch = false /\ nx = false) -> length s = len -> fin (f c d s ch nx) (consumes c)) ->
  fin (line_loop f l d s ch nx acc) any.
Proof.
  induction l as [|[|c] l IH]; intros s ch nx acc Hsw Ls Hin Hld; cbn [line_loop].
  - apply fin_ret. exact I.
  - apply IH.
    + intros E. destruct (Hsw E) as (_ & _ & X). exfalso. apply X. left. reflexivity.
    + exact Ls.
    + intros c s' ch' nx' Hc. apply Hin. right. exact Hc.
    + intros El c s' ch' nx' Hc. apply (Hld El). apply ld_switch. exact Hc.
  - assert (Hsw' : sw = false -> ch = false /\ nx = false) by (intros E; destruct (Hsw E) as (? & ? & _); auto).
    assert (F : fin (f c d s ch nx) (consumes c)).
    { destruct (Nat.eq_dec (length s) len) as [E|E]; [apply (Hld E c s ch nx (ld_here c l) Hsw' E)|apply Hin; [left; reflexivity|exact Hsw'|lia]]. }
    eapply fin_bind; [exact F|]. intros [b|] Hc; [|apply fin_ret; exact I].
    destruct (b_valid b) eqn:V; cbn [negb]; [|apply fin_ret; exact I]. destruct (has_prefix (b_disc b) s) eqn:P; [|apply fin_ret; exact I].
    apply has_prefix_is_prefix in P. assert (Lc : length (b_disc b) + length (cut (b_disc b) s) = length s) by (rewrite (prefix_cut _ _ P) at 2; rewrite app_length; reflexivity).
    apply IH.
    + intros E. destruct (Hsw E) as (-> & -> & X). split; [reflexivity|]. split; [reflexivity|]. intros Y. apply X. right. exact Y.
    + lia.
    + intros c' s' ch' nx' Hc'. apply Hin. right. exact Hc'.
    + intros El c' s' ch' nx' Hc'. apply (Hld ltac:(lia)). apply ld_absent; [|exact Hc']. apply Hc; [exact V|]. apply length_zero_iff_nil. lia.
Qed.
Lemma line_fin len sw l s ch :
  (sw = false -> ch = false /\ ~ In ISwitch l) ->
  length s = len ->
  (forall c s ch nx, In (ICont c) l -> (sw = false -> ch = false /\ nx = false) -> length s < len -> fin (f c d s ch nx) (consumes c)) ->
  (forall c s ch nx, leading l c -> (sw = false -> ch = false /\ nx = false) -> length s = len -> fin (f c d s ch nx) (consumes c)) ->
  fin (line_to_matches f l d s ch) any.
Proof.
  intros Hsw Ls Hin Hld. unfold line_to_matches. eapply fin_bind; [|intros; apply fin_ret; exact I].
  apply (line_loop_fin len sw); [|lia|exact Hin|intros _; exact Hld]. intros E. destruct (Hsw E) as (? & ?). auto.
Qed.
(* what a valid chosen line says *)
Definition nonempty_if_valid (o : option linematch) : Prop := match o with Some m => lm_valid m = true -> lm_disc m <> [] | None => True end.
Lemma best_loop_fin ls : forall i s ch big v iv, (forall l, In l ls -> fin (line_to_matches f l d s ch) any) ->
  match v with Some (i, bl) => lm_valid (LM i bl) = true /\ lm_disc (LM i bl) <> [] | None => True end ->
  match iv with Some (i, bl) => lm_valid (LM i bl) = false | None => True end ->
  fin (best_loop f ls i d s ch big v iv) (fun r => nonempty_if_valid (match r with (Some (i, bl), _) => Some (LM i bl) | (None, Some (i, bl)) => Some (LM i bl) | (None, None) => None end)).
Proof.
  induction ls as [|l ls IH]; intros i s ch big v iv Hl Hv Hi; cbn [best_loop].
  - apply fin_ret. destruct v as [[j bl]|]; [intros _; apply Hv|]. destruct iv as [[j bl]|]; [|exact I]. cbn. intros V. cbn in Hi. congruence.
  - eapply fin_bind; [apply Hl; left; reflexivity|]. intros [bl|] _; [|apply IH; [intros; apply Hl; right; assumption|exact Hv|exact Hi]].
    destruct (lm_valid (LM i bl)) eqn:V; cbn [negb].
    + destruct (big <? length (lm_disc (LM i bl))) eqn:L; apply IH; try (intros; apply Hl; right; assumption); try assumption.
      split; [exact V|]. apply Nat.ltb_lt in L. intros Z. rewrite Z in L. cbn in L. lia.
    + apply IH; [intros; apply Hl; right; assumption|exact Hv|]. destruct (0 <? length bl); [exact V|exact Hi].
Qed.
Lemma best_line_fin ls s ch : (forall l, In l ls -> fin (line_to_matches f l d s ch) any) -> fin (best_line f ls d s ch) nonempty_if_valid.
Proof. intros Hl. unfold best_line. eapply fin_bind; [apply best_loop_fin; [exact Hl|exact I|exact I]|]. intros r Hr. apply fin_ret. exact Hr. Qed.
Definition tok_consumes (t : tok) : Prop := tok_valid t = true -> tok_disc t <> [] /\ exists m, tok_content t = Some (m, None) /\ lm_disc m = tok_disc t.
Lemma element_fin e s ch : el_not e = None -> (forall l, In l (el_must e) -> fin (line_to_matches f l d s ch) any) -> fin (element_to_token f e d s ch) tok_consumes.
Proof.
  intros En Hl. unfold element_to_token. eapply fin_bind with (P := fun c => match c with Some (m, n) => n = None /\ (lm_valid m = true -> lm_disc m <> []) | None => True end).
  - unfold element_to_content. eapply fin_bind; [apply best_line_fin; exact Hl|]. intros [m|] Hm; [|apply fin_ret; exact I]. rewrite En. apply fin_ret. split; [reflexivity|exact Hm].
  - intros c Hc. apply fin_lift; [destruct (el_name e); discriminate|]. intros t Et. destruct (el_name e); [discriminate|]. inversion Et; subst t. intros V.
    destruct c as [[m n]|]; [|discriminate]. destruct Hc as [-> Hm]. cbn in V |- *. split; [apply Hm; exact V|]. exists m. auto.
Qed.
(* the repetition of a token: every valid occurrence reads something *)
Lemma token_loop_fin e pmax ch : forall fuel len acc s, length s <= len -> len < fuel ->
  (forall s, length s <= len -> fin (element_to_token f e d s ch) tok_consumes) -> Forall (fun t => tok_valid t = true /\ tok_disc t <> []) acc ->
  fin (token_loop f fuel e d pmax ch acc s) (Forall (fun t => tok_valid t = true /\ tok_disc t <> [])).
Proof.
  induction fuel as [|n IH]; intros len acc s Ls Lf He Ha; [lia|]. cbn [token_loop]. eapply fin_bind; [apply He; exact Ls|]. intros t Ht.
  destruct (tok_valid t) eqn:V; cbn [negb]; [|apply fin_ret; exact Ha]. destruct (Ht V) as (N & m & -> & Em).
  assert (Ha' : Forall (fun t => tok_valid t = true /\ tok_disc t <> []) (acc ++ [t])) by (apply Forall_app; split; [exact Ha|constructor; [split; assumption|constructor]]).
  destruct (has_prefix (lm_disc m) s) eqn:P; [|apply fin_ret; exact Ha'].
  match goal with |- context [if ?b then _ else _] => destruct b end; [apply fin_ret; exact Ha'|].
  apply has_prefix_is_prefix in P. assert (Lc : length (lm_disc m) + length (cut (lm_disc m) s) = length s) by (rewrite (prefix_cut _ _ P) at 2; rewrite app_length; reflexivity).
  assert (length (lm_disc m) <> 0) by (rewrite Em; destruct (tok_disc t); [congruence|discriminate]).
  destruct len as [|len]; [lia|]. apply (IH len); [lia|lia|intros; apply He; lia|exact Ha'].
Qed.
Lemma token_match_fin fuel e sp k s ch : length s < fuel -> (forall s', length s' <= length s -> fin (element_to_token f e d s' ch) tok_consumes) ->
  fin (token_to_match f fuel e sp k d s ch) (fun t => tm_card t = k /\ Forall (fun t => tok_valid t = true /\ tok_disc t <> []) (tm_toks t)).
Proof.
  intros L He. unfold token_to_match. destruct (delimiter k) as [mn mx]. eapply fin_bind; [apply (token_loop_fin e mx ch fuel (length s)); [lia|exact L|exact He|constructor]|].
  intros l Hl. apply fin_lift; [destruct s; [discriminate|]; destruct (forallb _ sp); discriminate|]. intros t Et. destruct s; [discriminate|]. destruct (forallb _ sp); [|discriminate]. inversion Et. split; [reflexivity|exact Hl].
Qed.
End Line.
Lemma token_or_skip_consumes t c k : card_of c = Some k -> tm_card t = k -> Forall (fun t => tok_valid t = true /\ tok_disc t <> []) (tm_toks t) ->
  consumes c (Some (BCont (token_or_skip t) None)).
Proof.
  intros Ec Ek F V D. exists k. split; [exact Ec|]. unfold token_or_skip in *. rewrite Ek in *. destruct (is_valid k 0) eqn:Z; [reflexivity|]. cbn [andb] in *.
  cbn [b_valid m_valid b_disc m_disc app] in V, D. destruct t as [e sp i k' l]. cbn [tm_toks tm_card] in *. subst k'. destruct l as [|t l].
  - apply tm_valid_card in V. cbn in V. congruence.
  - exfalso. cbn [tm_disc] in D. rewrite join_concat in D. cbn [map concat] in D. apply app_eq_nil in D. inversion F as [|? ? [_ N] _]; subst. tauto.
Qed.
Lemma rule_loop_fin r pmax local sl : good_rule r -> forall fuel acc s, length s < fuel -> fin (rule_loop fuel r pmax local sl acc s) (fun l => exists l', l = acc ++ l' /\ Forall (fun x => rr_content x <> []) l').
Proof.
  intros G. induction fuel as [|n IH]; intros acc s L; [lia|]. cbn [rule_loop]. destruct (to_result_answers r s G) as [x E]. rewrite E.
  assert (Nil : exists l', acc = acc ++ l' /\ Forall (fun x => rr_content x <> []) l') by (exists []; rewrite app_nil_r; auto).
  destruct (rr_matches x) as [ms|] eqn:Em; [|apply fin_ret; exact Nil].
  destruct (to_result_index r s x G E ltac:(congruence)) as (i & Fi & Nc & Lc). rewrite Fi.
  assert (One : exists l', acc ++ [x] = acc ++ l' /\ Forall (fun x => rr_content x <> []) l') by (exists [x]; auto).
  intros st. destruct ((0 <? i) && negb local).
  { split; [discriminate|]. intros a s' H. inversion H; subst. exact One. }
  destruct (sl <=? length (rr_content x)).
  { split; [discriminate|]. intros a s' H. inversion H; subst. exact One. }
  rewrite (proj2 (Nat.ltb_ge (length s) (length (rr_content x))) Lc).
  match goal with |- context [if ?b then (Ok _, _) else _] => destruct b end.
  { split; [discriminate|]. intros a s' H. inversion H; subst. exact One. }
  assert (Lk : length (skipn (length (rr_content x)) s) < n) by (rewrite skipn_length; assert (length (rr_content x) <> 0) by (destruct (rr_content x); [congruence|discriminate]); lia).
  assert (K := IH (acc ++ [x]) (skipn (length (rr_content x)) s) Lk). match goal with |- context [rule_loop n r pmax local sl (acc ++ [x]) _ ?st'] => destruct (K st') as [K1 K2] end.
  split; [exact K1|]. intros a s' H. destruct (K2 a s' H) as (l' & -> & Fl). exists (x :: l'). rewrite <- app_assoc. split; [reflexivity|constructor; assumption].
Qed.
Lemma rule_match_fin r k s ch : good_rule r -> fin (rule_to_match r k s ch) (fun x => rm_card x = k /\ Forall (fun x => rr_content x <> []) (rm_results x)).
Proof.
  intros G st. unfold rule_to_match. destruct (delimiter k) as [mn mx].
  match goal with |- context [mbind (rule_loop ?fu r mx ?lo ?sl [] s) ?ff st] => assert (K : fin (mbind (rule_loop fu r mx lo sl [] s) ff) (fun x => rm_card x = k /\ Forall (fun x => rr_content x <> []) (rm_results x))) end.
  { eapply fin_bind; [apply rule_loop_fin; [exact G|lia]|]. intros l (l' & -> & F). intros s'. split; [discriminate|]. intros a s2 E. inversion E; subst. split; [reflexivity|exact F]. }
  apply K.
Qed.
Lemma rule_or_skip_consumes x r k : rm_card x = k -> Forall (fun x => rr_content x <> []) (rm_results x) -> consumes (PRule r k) (Some (BCont (rule_or_skip x) None)).
Proof.
  intros Ek F V D. exists k. split; [reflexivity|]. unfold rule_or_skip in *. rewrite Ek in *. destruct (is_valid k 0) eqn:Z; [reflexivity|]. cbn [andb] in *.
  cbn [b_valid m_valid b_disc m_disc app] in V, D. unfold rm_valid, rm_card_valid, rm_amount, rm_disc in *. rewrite Ek in V. destruct (rm_results x) as [|y l].
  - cbn in V. rewrite Z in V. discriminate.
  - exfalso. rewrite join_concat in D. cbn [map concat] in D. apply app_eq_nil in D. inversion F; subst. tauto.
Qed.

(* ---- the bound ---- *)
Lemma first_rule_fin d n : forall fuel name, n < fuel -> (forall e, mlookup d name = Some e -> forall l c, In l (el_must e) -> leading l c -> leads d n c) -> first_rule fuel d name <> NoFuel.
Proof.
  induction n as [|n IH]; intros fuel name L H; (destruct fuel as [|fuel]; [lia|]); cbn [first_rule]; unfold dep_fetch; destruct (mlookup d name) as [e|] eqn:El; cbn [bind]; try discriminate;
    specialize (H e eq_refl); destruct (el_must e) as [|l ls]; try discriminate; specialize (H l);
    assert (FL : forall c, first_container l = Some c -> leading l c) by (clear; induction l as [|[|c] l IH]; cbn; intros c' E; [discriminate|apply ld_switch; apply IH; exact E|inversion E; apply ld_here]);
    destruct (first_container l) as [c|]; try discriminate; specialize (H c (or_introl eq_refl) (FL c eq_refl)).
  - destruct c; cbn in H; try contradiction. discriminate.
  - destruct c as [e' sp k|r k|nm sp k|]; cbn [leads] in H; try discriminate.
    + apply IH; [lia|]. intros e2 E2. apply (proj2 H e2 E2).
    + apply IH; [lia|]. intros e2 E2. apply (H e2 E2).
Qed.
Lemma build_next_fin d n c fuel : n <= fuel -> leads d n c -> build_next fuel c d <> NoFuel.
Proof.
  intros L H.
  assert (NR : forall r, next_from_rule r <> NoFuel) by (intros r; unfold next_from_rule; destruct (rl_content r) as [[|]|[|] ?]; discriminate).
  assert (B : forall x : res rule, x <> NoFuel -> (let* r := x in next_from_rule r) <> NoFuel) by (intros [x| | |] Nx; cbn; try discriminate; [apply NR|contradiction]).
  destruct c as [e sp k|r k|nm sp k|ls]; cbn [build_next]; [| apply NR | |discriminate].
  - destruct n as [|n]; [contradiction|]. apply B. apply (first_rule_fin d n); [lia|]. intros e' E'. apply (proj2 H e' E').
  - destruct n as [|n]; [contradiction|]. apply B. apply (first_rule_fin d n); [lia|]. intros e' E'. apply (H e' E').
Qed.
Section Ends.
Variable N : nat.
Variable channels : nat -> list path.
Hypothesis Hch : forall p, among channels p -> ends N p /\ switch_free p.
Definition K : nat := 2 * N + 4.

Lemma el_dep p n e : mlookup (pa_deps p) n = Some e -> element_of p e.
Proof. intros H. right. left. exists n. exact H. Qed.
Lemma occ_el p e c : element_of p e -> directly e c -> occurs_in p c.
Proof. intros [->|[(n & E)|(sp & k & O)]] D; [apply oc_root; exact D|apply (oc_dep p n e); assumption|apply (oc_inner p e sp k); assumption]. Qed.
Lemma leads_max d n : forall m c, n <= m -> leads d n c -> leads d m c.
Proof.
  induction n as [|n IH]; intros m c L H; destruct m as [|m]; try lia; destruct c; cbn [leads] in *; try contradiction; try exact I; try exact H.
  - destruct H as [H1 H2]. split; [intros l c Hl Hc; apply IH; [lia|apply (H1 l c Hl Hc)]|intros e' E' l c Hl Hc; apply IH; [lia|apply (H2 e' E' l c Hl Hc)]].
  - intros e E l c Hl Hc. apply IH; [lia|apply (H e E l c Hl Hc)].
Qed.
Lemma leading_in l c : leading l c -> In (ICont c) l.
Proof. intros H. induction H; [left; reflexivity|right; assumption|right; assumption]. Qed.

(* one step, for both kinds of paths: [sw] says whether flags may be anything *)
Section OneStep.
Variable p : path.
Hypothesis Hp : ends N p.
Variable sw : bool.
Hypothesis Hsw : sw = false -> switch_free p.
Variable extra : nat.
Definition flags (ch nx : bool) : Prop := sw = false -> ch = false /\ nx = false.
(* enough fuel for a container with n levels on a script of that length *)
Definition need (len n : nat) : nat := len * K + extra + n + 1.
Variable fuel : nat.
Hypothesis IH : forall c s ch nx n, occurs_in p c -> leads (pa_deps p) n c -> n <= N -> flags ch nx -> need (length s) n <= fuel ->
  fin (cbm channels fuel c (pa_deps p) s ch nx) (consumes c).
Lemma element_ends e s ch n : element_of p e -> (sw = false -> ch = false) -> (forall l c, In l (el_must e) -> leading l c -> leads (pa_deps p) n c) -> n <= N ->
  need (length s) n <= fuel -> fin (element_to_token (cbm channels fuel) e (pa_deps p) s ch) tok_consumes.
Proof.
  intros Oe Hc Hl Ln Lf. apply element_fin; [apply (proj1 Hp); exact Oe|]. intros l Il. apply (line_fin _ _ (length s) sw).
  - intros E. split; [apply Hc; exact E|]. apply (Hsw E e l Oe Il).
  - reflexivity.
  - intros c s' ch' nx' Ic Fl Ls. assert (Oc : occurs_in p c) by (apply (occ_el p e); [exact Oe|left; exists l; auto]). apply (IH c s' ch' nx' N); try assumption; [apply (proj1 (proj2 Hp)); exact Oc|lia|].
    unfold need in *. unfold K in *. nia.
  - intros c s' ch' nx' Lc Fl Ls. assert (Oc : occurs_in p c) by (apply (occ_el p e); [exact Oe|left; exists l; split; [exact Il|apply leading_in; exact Lc]]). apply (IH c s' ch' nx' n); try assumption; [apply (Hl l c Il Lc)|].
    rewrite Ls. exact Lf.
Qed.
Lemma container_ends c s ch n : occurs_in p c -> leads (pa_deps p) n c -> n <= N -> (sw = false -> ch = false) -> s <> [] -> need (length s) n <= S fuel ->
  fin (container_to_match (cbm channels fuel) fuel c (pa_deps p) s ch) (fun o => match o with Some m => consumes c (Some (BCont m None)) | None => True end).
Proof.
  intros Oc Ld Ln Hc Ns Lf.
  assert (Lpos : 0 < length s) by (destruct s; [congruence|cbn; lia]).
  assert (Tk : forall e sp k m, element_of p e -> (forall l c', In l (el_must e) -> leading l c' -> leads (pa_deps p) m c') -> n = S m ->
    fin (token_to_match (cbm channels fuel) fuel e sp k (pa_deps p) s ch) (fun t => tm_card t = k /\ Forall (fun t => tok_valid t = true /\ tok_disc t <> []) (tm_toks t))).
  { intros e sp k m Oe Hm En. apply token_match_fin; [unfold need, K in Lf; nia|]. intros s' Ls'. apply (element_ends e s' ch m); try assumption; [lia|]. unfold need, K in *. nia. }
  destruct c as [e sp k|r k|nm sp k|ls]; cbn [container_to_match].
  - destruct n as [|m]; [contradiction|]. eapply fin_bind; [apply (Tk e sp k m); [right; right; exists sp, k; exact Oc|apply (proj1 Ld)|reflexivity]|].
    intros t [Ek F]. apply fin_ret. apply (token_or_skip_consumes t _ k); [reflexivity|exact Ek|exact F].
  - eapply fin_bind; [apply rule_match_fin; apply (proj2 (proj2 Hp) r k Oc)|]. intros x [Ek F]. apply fin_ret. apply rule_or_skip_consumes; assumption.
  - intros st. match goal with |- context [if ?b then _ else _] => destruct b end.
    + split; [discriminate|]. intros a s' E. inversion E. exact I.
    + match goal with |- fst (?mm ?s0) <> _ /\ _ => assert (F : fin mm (fun o => match o with Some m => consumes (PRec nm sp k) (Some (BCont m None)) | None => True end)) end.
      { eapply fin_bind with (P := fun e => mlookup (pa_deps p) nm = Some e).
        - apply fin_lift; unfold dep_fetch; destruct (mlookup (pa_deps p) nm); try discriminate. intros a E. inversion E. reflexivity.
        - intros e El. destruct n as [|m]; [contradiction|]. eapply fin_bind; [apply (Tk e sp k m); [apply (el_dep p nm); exact El|apply (Ld e El)|reflexivity]|].
          intros t [Ek F]. apply fin_ret. apply (token_or_skip_consumes t _ k); [reflexivity|exact Ek|exact F]. }
      apply F.
  - destruct n; contradiction.
Qed.
End OneStep.
(* channel paths: flags off *)
Lemma chan_ends p : ends N p -> switch_free p -> forall fuel c s ch nx n, occurs_in p c -> leads (pa_deps p) n c -> n <= N -> flags false ch nx -> need 0 (length s) n <= fuel ->
  fin (cbm channels fuel c (pa_deps p) s ch nx) (consumes c).
Proof.
  intros Hp Hs. induction fuel as [|fuel IH]; intros c s ch nx n Oc Ld Ln Fl Lf; [unfold need in Lf; lia|]. cbn [cbm]. unfold cbm_step.
  destruct (Fl eq_refl) as [-> ->]. destruct s as [|b s].
  - apply fin_lift.
    + destruct (cont_card c) as [k| | |] eqn:Ek; try discriminate; [|destruct c; discriminate]. cbn [bind]. destruct (is_valid k 0); [discriminate|]. assert (B := build_next_fin (pa_deps p) n c fuel ltac:(unfold need in Lf; cbn in Lf; lia) Ld). destruct (build_next fuel c (pa_deps p)); cbn; try discriminate. contradiction.
    + intros o Eo. destruct (cont_card c); cbn in Eo; try discriminate. destruct (is_valid a 0); [inversion Eo; exact I|]. destruct (build_next _ _ _); cbn in Eo; try discriminate. inversion Eo. intros V. discriminate.
  - eapply fin_bind with (P := fun o => o = None); [apply fin_ret; reflexivity|]. intros o ->.
    eapply fin_bind; [apply (container_ends p Hp false (fun _ => Hs) 0 fuel IH c (b :: s) false n); try assumption; [reflexivity|discriminate]|].
    intros [m|] Hm; apply fin_ret; [exact Hm|exact I].
Qed.
Lemma main_ends p : ends N p -> forall fuel c s ch nx n, occurs_in p c -> leads (pa_deps p) n c -> n <= N -> flags true ch nx -> need (N + 2) (length s) n <= fuel ->
  fin (cbm channels fuel c (pa_deps p) s ch nx) (consumes c).
Proof.
  intros Hp. induction fuel as [|fuel IH]; intros c s ch nx n Oc Ld Ln Fl Lf; [unfold need in Lf; lia|]. cbn [cbm]. unfold cbm_step.
  destruct s as [|b s].
  - apply fin_lift.
    + destruct (cont_card c) as [k| | |] eqn:Ek; try discriminate; [|destruct c; discriminate]. cbn [bind]. destruct (is_valid k 0); [discriminate|]. assert (B := build_next_fin (pa_deps p) n c fuel ltac:(unfold need in Lf; cbn in Lf; lia) Ld). destruct (build_next fuel c (pa_deps p)); cbn; try discriminate. contradiction.
    + intros o Eo. destruct (cont_card c); cbn in Eo; try discriminate. destruct (is_valid a 0); [inversion Eo; exact I|]. destruct (build_next _ _ _); cbn in Eo; try discriminate. inversion Eo. intros V. discriminate.
  - eapply fin_bind with (P := consumes c).
    + destruct ch; [|apply fin_ret; exact I]. unfold find_channel_block.
      assert (FC : forall chs, (forall q, In q chs -> among channels q) -> fin (find_in_channels (cbm channels fuel) chs (b :: s)) (fun o => match o with Some m => lm_disc m <> [] | None => True end)).
      { induction chs as [|q chs IHc]; intros Hin; cbn [find_in_channels]; [apply fin_ret; exact I|]. destruct (Hch q (Hin q (or_introl eq_refl))) as [Hq Hqs].
        eapply fin_bind; [apply (element_ends q Hq false (fun _ => Hqs) 0 fuel (chan_ends q Hq Hqs fuel) (pa_element q) (b :: s) false N)|].
        - left. reflexivity.
        - reflexivity.
        - intros l c' Il Lc. apply (proj1 (proj2 Hq)). apply oc_root. left. exists l. split; [exact Il|apply leading_in; exact Lc].
        - lia.
        - unfold need, K in *. lia.
        - intros t Ht. destruct (tok_valid t) eqn:V; [|apply IHc; intros; apply Hin; right; assumption]. destruct (Ht V) as (Nn & m & -> & Em). apply fin_lift; [discriminate|]. intros a E. inversion E. rewrite Em. exact Nn. }
      eapply fin_bind; [intros st; apply FC; intros q Hq; eexists; exact Hq|]. intros [m|] Hm; [|apply fin_ret; exact I]. destruct (has_prefix (lm_disc m) (b :: s)) eqn:P; [|apply fin_ret; exact I].
      apply has_prefix_is_prefix in P. assert (Lc : length (lm_disc m) + length (cut (lm_disc m) (b :: s)) = length (b :: s)) by (rewrite (prefix_cut _ _ P) at 2; rewrite app_length; reflexivity).
      assert (length (lm_disc m) <> 0) by (destruct (lm_disc m); [congruence|discriminate]).
      eapply fin_bind; [apply (IH c _ nx nx N); try assumption; [apply (proj1 (proj2 Hp)); exact Oc|lia|intros E; discriminate|unfold need, K in *; nia]|].
      intros [x|] Hx; apply fin_ret; [|exact I]. intros V D. cbn [b_valid b_disc] in V, D. apply app_eq_nil in D. tauto.
    + intros [x|] Hx; [apply fin_ret; exact Hx|].
      eapply fin_bind; [apply (container_ends p Hp true (fun E => ltac:(discriminate)) (N + 2) fuel IH c (b :: s) nx n); try assumption; [discriminate|discriminate]|].
      intros [m|] Hm; apply fin_ret; [exact Hm|exact I].
Qed.
Lemma to_token_ends root script st fuel : ends N root -> (length script + 1) * (2 * N + 4) <= fuel -> fst (to_token channels fuel root script st) <> NoFuel.
Proof.
  intros Hr Lf. unfold to_token.
  assert (F : fin (element_to_token (cbm channels fuel) (pa_element root) (pa_deps root) script true) tok_consumes).
  { apply (element_ends root Hr true (fun E => ltac:(discriminate)) (N + 2) fuel (main_ends root Hr fuel) (pa_element root) script true N).
    - left. reflexivity.
    - discriminate.
    - intros l c Il Lc. apply (proj1 (proj2 Hr)). apply oc_root. left. exists l. split; [exact Il|apply leading_in; exact Lc].
    - lia.
    - unfold need, K. nia. }
  apply F.
Qed.
End Ends.
