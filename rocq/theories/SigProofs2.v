(* SigProofs2.v - which texts are keys and signatures. *)
From Coq Require Import Strings.String Strings.Byte Lia.
From Verif Require Import Go GoLemmas HashModel Base64 SigModel SigSpec.
Open Scope list_scope.

(* ---- splitting at a one-byte delimiter ---- *)
Lemma split_go1_clean d : forall s cur, ~ In d cur -> forall p, In p (split_go [d] 0 cur s) -> ~ In d p.
Proof.
  induction s as [|c r IH]; intros cur Hc p I.
  - cbn in I. destruct I as [<-|[]]. rewrite <- in_rev. exact Hc.
  - cbn [split_go has_prefix] in I. rewrite andb_true_r in I. destruct (Byte.eqb d c) eqn:B.
    + cbn [length Nat.sub] in I. destruct I as [<-|I]; [rewrite <- in_rev; exact Hc|]. apply (IH [] ltac:(intros []) p I).
    + apply (IH (c :: cur)); [|exact I]. intros [<-|J]; [rewrite byte_eqb_refl in B; discriminate|contradiction].
Qed.
Lemma split1_iff d s l : strsplit [d] s = l <-> l <> [] /\ s = join [d] l /\ forall p, In p l -> ~ In d p.
Proof.
  split.
  - intros <-. assert (J := join_split [d] s ltac:(discriminate)). split; [intros E; rewrite E in J; destruct (join_split_go [d] [] s ltac:(discriminate)) as (x & l & E1 & _); unfold strsplit in E; congruence|].
    split; [symmetry; exact J|]. unfold strsplit. apply (split_go1_clean d s [] ltac:(intros [])).
  - intros (N & -> & H). apply split1_join; assumption.
Qed.

Section Texts.
Variable C : suite.
Lemma to_scalar_exact s : (forall x, from_string_to_scalar C s = Ok x <-> exists b, hex_decode s = Some b /\ 32 <= length b /\ x = sdec C (firstn 32 b)) /\
  (from_string_to_scalar C s = Err \/ exists x, from_string_to_scalar C s = Ok x).
Proof.
  unfold from_string_to_scalar. destruct (hex_decode s) as [b|]; [|split; [intros x; split; [discriminate|intros (b & X & _); discriminate]|auto]].
  destruct (length b <? 32) eqn:L.
  - apply Nat.ltb_lt in L. split; [|auto]. intros x. split; [discriminate|]. intros (b' & [= <-] & X & _). lia.
  - apply Nat.ltb_ge in L. split; [|eauto]. intros x. split; [intros [= <-]; eauto|]. intros (b' & [= <-] & _ & ->). reflexivity.
Qed.
Lemma to_point_exact s : (forall p, from_string_to_point C s = Ok p <-> exists b, hex_decode s = Some b /\ pdec C b = Some p) /\
  (from_string_to_point C s = Err \/ exists x, from_string_to_point C s = Ok x).
Proof.
  unfold from_string_to_point. destruct (hex_decode s) as [b|]; [|split; [intros x; split; [discriminate|intros (b & X & _); discriminate]|auto]].
  destruct (pdec C b) as [q|] eqn:E; (split; [|eauto]); intros p; split.
  - intros [= <-]. eauto.
  - intros (b' & [= <-] & X). congruence.
  - discriminate.
  - intros (b' & [= <-] & X). congruence.
Qed.
Lemma signature_text_exact rnd txt : (forall sg, to_signature C rnd txt = Ok sg <->
    exists a b, b64_decode txt = Some (a ++ bs "#" ++ b) /\ ~ In "#"%byte a /\ ~ In "#"%byte b /\
      to_public_key C a = Ok (sig_r sg) /\ to_private_key C b = Ok (sig_s sg) /\ sig_verify C rnd sg = true) /\
  (to_signature C rnd txt = Err \/ exists sg, to_signature C rnd txt = Ok sg).
Proof.
  unfold to_signature, to_public_key, to_private_key. destruct (b64_decode txt) as [d|]; [|split; [intros sg; split; [discriminate|intros (a & b & X & _); discriminate]|auto]].
  change delimiter with ["#"%byte]. change (bs "#") with ["#"%byte].
  assert (H := proj1 (split1_iff "#"%byte d _) eq_refl). destruct (strsplit ["#"%byte] d) as [|a [|b [|c l]]] eqn:E.
  - destruct H as [H _]. contradiction.
  - split; [|auto]. intros sg. split; [discriminate|]. intros (x & y & [= X] & Hx & Hy & _). subst d. change (x ++ "#"%byte :: y) with (x ++ ["#"%byte] ++ y) in E. rewrite split1_cons in E by exact Hx. rewrite split1_none in E by exact Hy. discriminate.
  - destruct H as (_ & -> & Hd). cbn [join app] in *.
    assert (U : forall a' b', Some (a ++ "#"%byte :: b) = Some (a' ++ "#"%byte :: b') -> ~ In "#"%byte a' -> ~ In "#"%byte b' -> a' = a /\ b' = b).
    { intros a' b' [= X] Ha Hb. change (a ++ "#"%byte :: b) with (a ++ ["#"%byte] ++ b) in X, E. rewrite X in E. change (a' ++ "#"%byte :: b') with (a' ++ ["#"%byte] ++ b') in E. rewrite split1_cons in E by exact Ha. rewrite split1_none in E by exact Hb. injection E as -> ->. auto. }
    destruct (to_point_exact a) as [_ [Pa|[p Pa]]]; rewrite Pa; cbn [bind].
    { split; [|auto]. intros sg. split; [discriminate|]. intros (a' & b' & X & Ha & Hb & X1 & _). destruct (U _ _ X Ha Hb) as [-> ->]. congruence. }
    destruct (to_scalar_exact b) as [_ [Pb|[s Pb]]]; rewrite Pb; cbn [bind].
    { split; [|auto]. intros sg. split; [discriminate|]. intros (a' & b' & X & Ha & Hb & X1 & X2 & _). destruct (U _ _ X Ha Hb) as [-> ->]. congruence. }
    unfold create_signature. destruct (sig_verify C rnd {| sig_r := p; sig_s := s |}) eqn:V; cbn [negb].
    + split; [|eauto]. intros sg. split.
      * intros [= <-]. exists a, b. cbn. repeat split; auto; apply Hd; cbn; auto.
      * intros ([] & b' & X & Ha & Hb & X1 & X2 & X3); destruct (U _ _ X Ha Hb) as [<- ->]; destruct sg as [r' s']; cbn in *; congruence.
    + split; [|auto]. intros sg. split; [discriminate|]. intros (a' & b' & X & Ha & Hb & X1 & X2 & X3). destruct (U _ _ X Ha Hb) as [-> ->]. destruct sg as [r' s']; cbn in *. rewrite Pa in X1. rewrite Pb in X2. injection X1 as <-. injection X2 as <-. congruence.
  - split; [|auto]. intros sg. split; [discriminate|]. intros (x & y & [= X] & Hx & Hy & _). subst d. change (x ++ "#"%byte :: y) with (x ++ ["#"%byte] ++ y) in E. rewrite split1_cons in E by exact Hx. rewrite split1_none in E by exact Hy. discriminate.
Qed.
Lemma mapM_answers {A B} (f : A -> res B) l : (forall x, f x = Err \/ exists y, f x = Ok y) ->
  (forall m, mapM f l = Ok m <-> Forall2 (fun x y => f x = Ok y) l m) /\ (mapM f l = Err \/ exists m, mapM f l = Ok m).
Proof.
  intros Hf. induction l as [|x l [IH1 IH2]]; cbn [mapM].
  - split; [|eauto]. intros m. split; [intros [= <-]; constructor|intros F; inversion F; reflexivity].
  - destruct (Hf x) as [E|[y E]]; rewrite E; cbn [bind].
    + split; [|auto]. intros m. split; [discriminate|intros F; inversion F; subst; congruence].
    + destruct IH2 as [E2|[m2 E2]]; rewrite E2; cbn [bind].
      * split; [|auto]. intros m. split; [discriminate|]. intros F. inversion F as [|? ? ? m' ? F']; subst. apply IH1 in F'. congruence.
      * split; [|eauto]. intros m. split.
        -- intros [= <-]. constructor; [exact E|]. apply IH1. exact E2.
        -- intros F. inversion F as [|? y' ? m' E' F']; subst. apply IH1 in F'. congruence.
Qed.
Lemma pieces_iff s l : pieces s l <-> l = non_empty (strsplit element_delimiter s).
Proof.
  unfold pieces, non_empty. change element_delimiter with ["|"%byte]. change (bs "|") with ["|"%byte]. split.
  - intros (all & E & N & H & ->). f_equal. symmetry. apply split1_iff. auto.
  - intros ->. exists (strsplit ["|"%byte] s). assert (H := proj1 (split1_iff "|"%byte s _) eq_refl). destruct H as (H1 & H2 & H3). auto.
Qed.
Lemma ring_text_exact txt : (forall rs, to_ring_signature C txt = Ok rs <->
    exists a b c la lb ss, b64_decode txt = Some (a ++ bs "#" ++ b ++ bs "#" ++ c) /\ ~ In "#"%byte a /\ ~ In "#"%byte b /\ ~ In "#"%byte c /\
      pieces a la /\ Forall2 (fun s p => to_public_key C s = Ok p) la (rs_ring rs) /\
      pieces b lb /\ Forall2 (fun s x => to_private_key C s = Ok x) lb ss /\ rs_s rs = map Some ss /\ to_private_key C c = Ok (rs_e rs)) /\
  (to_ring_signature C txt = Err \/ exists rs, to_ring_signature C txt = Ok rs).
Proof.
  unfold to_ring_signature, to_public_key, to_private_key. destruct (b64_decode txt) as [d|]; [|split; [intros rs; split; [discriminate|intros (a & b & c & la & lb & ss & X & _); discriminate]|auto]].
  change delimiter with ["#"%byte]. change (bs "#") with ["#"%byte].
  assert (U : forall a b c, ~ In "#"%byte a -> ~ In "#"%byte b -> ~ In "#"%byte c -> d = a ++ ["#"%byte] ++ b ++ ["#"%byte] ++ c -> strsplit ["#"%byte] d = [a; b; c]).
  { intros a b c Ha Hb Hc ->. rewrite split1_cons, split1_cons, split1_none by assumption. reflexivity. }
  assert (H := proj1 (split1_iff "#"%byte d _) eq_refl). destruct (strsplit ["#"%byte] d) as [|a [|b [|c [|x l]]]] eqn:E.
  1,2,3,5: split; [|auto]; intros rs; split; [discriminate|]; intros (a' & b' & c' & la & lb & ss & [= X] & Ha & Hb & Hc & _); specialize (U _ _ _ Ha Hb Hc X); discriminate.
  destruct H as (_ & Ed & Hd). cbn [join] in Ed.
  assert (Ha : ~ In "#"%byte a) by (apply Hd; cbn; auto). assert (Hb : ~ In "#"%byte b) by (apply Hd; cbn; auto). assert (Hc : ~ In "#"%byte c) by (apply Hd; cbn; auto).
  destruct (mapM_answers (from_string_to_point C) (non_empty (strsplit element_delimiter a))) as [Ra Aa]; [intros x; apply to_point_exact|].
  destruct (mapM_answers (from_string_to_scalar C) (non_empty (strsplit element_delimiter b))) as [Rb Ab]; [intros x; apply to_scalar_exact|].
  destruct (to_scalar_exact c) as [_ Ac].
  assert (Bad : forall rs, (exists a0 b0 c0 la lb ss, Some d = Some (a0 ++ ["#"%byte] ++ b0 ++ ["#"%byte] ++ c0) /\ ~ In "#"%byte a0 /\ ~ In "#"%byte b0 /\ ~ In "#"%byte c0 /\
      pieces a0 la /\ Forall2 (fun s p => from_string_to_point C s = Ok p) la (rs_ring rs) /\
      pieces b0 lb /\ Forall2 (fun s x => from_string_to_scalar C s = Ok x) lb ss /\ rs_s rs = map Some ss /\ from_string_to_scalar C c0 = Ok (rs_e rs)) ->
      exists ss, mapM (from_string_to_point C) (non_empty (strsplit element_delimiter a)) = Ok (rs_ring rs) /\ mapM (from_string_to_scalar C) (non_empty (strsplit element_delimiter b)) = Ok ss /\ rs_s rs = map Some ss /\ from_string_to_scalar C c = Ok (rs_e rs)).
  { intros rs (a' & b' & c' & la & lb & ss & [= X] & Ha' & Hb' & Hc' & Pa & Fa & Pb & Fb & Es & Ec). specialize (U _ _ _ Ha' Hb' Hc' X). injection U as <- <- <-. apply pieces_iff in Pa, Pb. subst la lb. exists ss. split; [apply Ra; exact Fa|]. split; [apply Rb; exact Fb|]. auto. }
  destruct Aa as [Ea|[ring Ea]]; rewrite Ea; cbn [bind].
  { split; [|auto]. intros rs. split; [discriminate|]. intros X. apply Bad in X. destruct X as (ss & X & _). congruence. }
  destruct Ab as [Eb|[ss Eb]]; rewrite Eb; cbn [bind].
  { split; [|auto]. intros rs. split; [discriminate|]. intros X. apply Bad in X. destruct X as (ss & _ & X & _). congruence. }
  destruct Ac as [Ec|[e Ec]]; rewrite Ec; cbn [bind].
  { split; [|auto]. intros rs. split; [discriminate|]. intros X. apply Bad in X. destruct X as (ss' & _ & _ & _ & X). congruence. }
  split; [|eauto]. intros rs. split.
  - intros [= <-]. exists a, b, c, (non_empty (strsplit element_delimiter a)), (non_empty (strsplit element_delimiter b)), ss. cbn [rs_ring rs_s rs_e]. rewrite Ed.
    repeat split; auto; try (apply pieces_iff; reflexivity); try (apply Ra; assumption); try (apply Rb; assumption).
  - intros X. apply Bad in X. destruct X as (ss' & X1 & X2 & X3 & X4). destruct rs as [r1 r2 r3]; cbn in *. congruence.
Qed.
End Texts.
