(* TextTokProofs4.v - ToTokens: exactly what a text of tokens means. *)
From Coq Require Import Strings.String Strings.Byte Lia.
From Verif Require CardSpec CardProofs.
From Verif Require Import Utf8Spec TrimProofs Go GoLemmas DomainModel CardModel PatModel RuleModel RuleProofs PathModel Regex RegexProofs TextModel TextBytes TextSpec TextTokSpec TextProofs TextProofs2 TextProofs3 TextProofs4 TextProofs5 TextTokProofs TextTokProofs2 TextTokProofs3.
Open Scope list_scope.
Local Arguments in_class : simpl never.

(* ---- pieces ---- *)
Lemma prefix_app p s : has_prefix p s = true -> exists r, s = p ++ r.
Proof.
  revert s. induction p as [|b p IH]; intros s H; [exists s; reflexivity|]. destruct s as [|c s]; [discriminate|]. cbn [has_prefix] in H. apply andb_true_iff in H. destruct H as [H1 H2]. apply byte_eq in H1. subst. destruct (IH s H2) as (r & ->). exists r. reflexivity.
Qed.
Lemma pieces_split sep s l : sep <> [] -> pieces sep s l -> l = strsplit sep s.
Proof.
  intros Ne H. unfold strsplit. induction H as [s N|a b l F H IH].
  - rewrite split_go_none; [reflexivity|]. intros i Hi. destruct (has_prefix sep (skipn i s)) eqn:E; [|reflexivity]. apply prefix_app in E. destruct E as (r & E). exfalso. apply (N (firstn i s) r). rewrite <- E. symmetry. apply firstn_skipn.
  - rewrite split_go_first; [|exact Ne|].
    + rewrite app_nil_r, rev_involutive. f_equal. exact IH.
    + intros i Hi. destruct (has_prefix sep (skipn i (a ++ sep ++ b))) eqn:E; [|reflexivity]. apply prefix_app in E. destruct E as (r & E). exfalso.
      assert (K := F (firstn i (a ++ sep ++ b)) r). rewrite <- E, firstn_skipn in K. specialize (K eq_refl). rewrite firstn_length in K. lia.
Qed.
Lemma first_occurrence (sep s : bytes) : sep <> [] -> (forall a b : bytes, s <> a ++ sep ++ b) \/ exists a b : bytes, s = a ++ sep ++ b /\ forall a' b' : bytes, s = a' ++ sep ++ b' -> length a <= length a'.
Proof.
  intros Ne. induction s as [|c s IH].
  - left. intros a b E. apply (f_equal (@length _)) in E. rewrite !app_length in E. destruct sep; [contradiction|]. cbn in E. lia.
  - destruct (has_prefix sep (c :: s)) eqn:E.
    + apply prefix_app in E. destruct E as (r & E). right. exists [], r. split; [exact E|]. intros a' b' _. cbn. lia.
    + assert (Z : forall b', c :: s <> [] ++ sep ++ b') by (intros b' X; rewrite X in E; cbn [app] in E; rewrite has_prefix_app in E; discriminate).
      destruct IH as [N|(a & b & -> & F)].
      * left. intros [|x a] b X; [exact (Z b X)|]. injection X as -> X. exact (N a b X).
      * right. exists (c :: a), b. split; [reflexivity|]. intros [|x a'] b' X; [exfalso; exact (Z b' X)|]. injection X as _ X. cbn. specialize (F a' b' X). lia.
Qed.
Lemma pieces_exist sep : sep <> [] -> forall n s, length s <= n -> exists l, pieces sep s l.
Proof.
  intros Ne. induction n as [|n IH]; intros s L.
  - exists [s]. constructor. intros a b E. destruct s; [|cbn in L; lia]. apply (f_equal (@length _)) in E. rewrite !app_length in E. destruct sep; [contradiction|]. cbn in E. lia.
  - destruct (first_occurrence sep s Ne) as [N|(a & b & -> & F)]; [exists [s]; constructor; exact N|]. destruct (IH b) as (l & Hl); [rewrite !app_length in L; destruct sep; [contradiction|]; cbn in L; lia|]. exists (a :: l). constructor; assumption.
Qed.
Lemma pieces_iff sep s l : sep <> [] -> (pieces sep s l <-> l = strsplit sep s).
Proof. intros Ne. split; [apply pieces_split; exact Ne|]. intros ->. destruct (pieces_exist sep Ne (length s) s) as (l & Hl); [lia|]. rewrite <- (pieces_split sep s l Ne Hl). exact Hl. Qed.

Section Values.
Variable rules : table rule.
Definition find_rule (n : bytes) (r : rule) : Prop := table_find rules n = Ok r.
Lemma read_spec_iff m x : has_spec m x -> (forall y, read_specifier rules m = Ok y <-> spec_means find_rule x y) /\ tame (read_specifier rules m).
Proof.
  intros (H1 & H2 & H4 & N1 & N2). unfold read_specifier, spec_means. cbn [bind]. rewrite H1, H2, H4.
  assert (Hc : forall t, t <> [] -> tame (let* s := to_specific t in Ok (Some s))) by (intros t _; apply tame_bind; [apply to_specific_tame|intros; apply tame_ok]).
  assert (Ts : trimmed (trim_space (sf_range x)) (trim_space (sf_range x))) by (apply (trimmed_self (sf_range x)); apply trim_space_trimmed).
  destruct (sf_rule x) as [n|] eqn:Er; cbn [opt_text].
  - assert (Nn : n <> []) by (apply N2; reflexivity). destruct n as [|c n]; [contradiction|]. split.
    + intros y. split.
      * intros H. apply bind_ok in H. destruct H as (nm & Hn & H). apply bind_ok in Hn. destruct Hn as (r & Hr & [= <-]). apply bind_ok in H. destruct H as (cd & Hc' & H).
        split; [exists r; split; [exact Hr|]|exists (trim_space (sf_range x)); split; [apply trim_space_iff; reflexivity|]].
        -- destruct (opt_text (sf_token x)); destruct cd; try discriminate; injection H as <-; reflexivity.
        -- destruct (trim_space (sf_range x)) as [|t0 t]; [injection Hc' as <-; destruct (opt_text (sf_token x)); discriminate|]. split; [discriminate|]. apply bind_ok in Hc'. destruct Hc' as (s & Hs & [= <-]). apply (CardProofs.to_specific_exact _ _ Ts) in Hs. destruct (opt_text (sf_token x)); injection H as <-; exact Hs.
      * intros ((r & Hr & Hy) & t & Ht & Nt & Hs). unfold find_rule in Hr. rewrite Hr. cbn [bind]. apply (CardProofs.to_specific_exact _ _ (trimmed_self _ _ Ht)) in Hs. apply trim_space_iff in Ht. rewrite Ht. destruct t as [|t0 t]; [contradiction|]. rewrite Hs. cbn [bind]. destruct y. cbn in *. rewrite Hy. destruct (opt_text (sf_token x)); reflexivity.
    + apply tame_bind; [apply tame_bind; [apply table_find_tame|intros; apply tame_ok]|]. intros nm _. apply tame_bind; [destruct (trim_space (sf_range x)); [apply tame_ok|apply Hc; discriminate]|]. intros cd _. destruct (opt_text (sf_token x)), cd; (apply tame_ok || apply tame_err).
  - destruct (sf_token x) as [n|] eqn:Et; cbn [opt_text bind].
    + assert (Nn : n <> []) by (apply N1; reflexivity). destruct n as [|c n]; [contradiction|]. split.
      * intros y. split.
        -- intros H. apply bind_ok in H. destruct H as (cd & Hc' & H). destruct cd as [cd|]; [|discriminate]. injection H as <-. cbn [ts_name ts_card]. split; [reflexivity|]. exists (trim_space (sf_range x)). split; [apply trim_space_iff; reflexivity|].
           destruct (trim_space (sf_range x)) as [|t0 t]; [discriminate|]. split; [discriminate|]. apply bind_ok in Hc'. destruct Hc' as (s & Hs & [= <-]). apply (CardProofs.to_specific_exact _ _ Ts) in Hs. exact Hs.
        -- intros (Hy & t & Ht & Nt & Hs). apply (CardProofs.to_specific_exact _ _ (trimmed_self _ _ Ht)) in Hs. apply trim_space_iff in Ht. rewrite Ht. destruct t as [|t0 t]; [contradiction|]. rewrite Hs. cbn [bind]. destruct y. cbn in *. rewrite Hy. reflexivity.
      * apply tame_bind; [destruct (trim_space (sf_range x)); [apply tame_ok|apply Hc; discriminate]|]. intros cd _. destruct cd; (apply tame_ok || apply tame_err).
    + split.
      * intros y. split; [|intros [[] _]]. intros H. apply bind_ok in H. destruct H as (cd & _ & H). discriminate.
      * apply tame_bind; [destruct (trim_space (sf_range x)); [apply tame_ok|apply Hc; discriminate]|]. intros cd _. apply tame_err.
Qed.
Lemma trim_arrows w : trim_space (arrow_text (Some w)) = arrow_text (Some w).
Proof.
  apply trim_space_id2.
  - intros b r [= <- _]. split; reflexivity.
  - intros a b E. apply (f_equal (@rev byte)) in E. rewrite rev_app_distr in E. cbn in E. rewrite rev_app_distr in E. cbn in E. injection E as <- _. split; reflexivity.
Qed.
Lemma read_specs_iff sp : (forall l, read_specifiers rules (arrow_text sp) = Ok l <-> specs_mean find_rule sp l) /\ tame (read_specifiers rules (arrow_text sp)).
Proof.
  destruct sp as [w|]; [|split; [|apply tame_ok]; intros l; cbn; split; [intros [= <-]; exact I|destruct l; [contradiction|reflexivity]]].
  set (t := bs "->" ++ w ++ bs "<-").
  assert (E : read_specifiers rules (arrow_text (Some w)) = (let* l := mapM (read_specifier rules) (find_all (compile specifier_text) t) in let* x := last_table_now ts_name (Some l) in Ok (Some (table_all x)))).
  { unfold read_specifiers. rewrite trim_arrows. rewrite <- all_specifier. reflexivity. }
  rewrite E. clear E.
  destruct (specs_found (length w) w false (le_n _)) as (xs & R & _).
  destruct (specs_found (length t) t false (le_n _)) as (xs' & R' & F). assert (xs' = xs) by (eapply specs_fun; [exact R'|apply (specs_arrows w xs R)]). subst xs'.
  assert (M : (forall l, mapM (read_specifier rules) (find_all (compile specifier_text) t) = Ok l <-> Forall2 (spec_means find_rule) xs l) /\ tame (mapM (read_specifier rules) (find_all (compile specifier_text) t))).
  { unfold find_all. clear R R'. induction F as [|m x ms xs Hm F [IH1 IH2]]; cbn [mapM].
    - split; [|apply tame_ok]. intros l. split; [intros [= <-]; constructor|intros H; inversion H; reflexivity].
    - destruct (read_spec_iff m x Hm) as [S1 S2]. split.
      + intros l. split.
        * intros H. apply bind_ok in H. destruct H as (y & Hy & H). apply bind_ok in H. destruct H as (ys & Hys & [= <-]). constructor; [apply S1; exact Hy|apply IH1; exact Hys].
        * intros H. inversion H as [|? y ? ys Hy Hys]; subst. apply S1 in Hy. apply IH1 in Hys. rewrite Hy. cbn [bind]. rewrite Hys. reflexivity.
      + apply tame_bind; [exact S2|]. intros y _. apply tame_bind; [exact IH2|]. intros. apply tame_ok. }
  destruct M as [M1 M2]. split.
  - intros l. cbn [specs_mean]. split.
    + intros H. apply bind_ok in H. destruct H as (ys & Hy & H). apply bind_ok in H. destruct H as (tb & Ht & [= <-]). apply last_table_iff in Ht. destruct Ht as (Ne & ->). cbn. split; [exact Ne|]. exists xs. split; [exact R|]. apply M1. exact Hy.
    + destruct l as [l|]; [|contradiction]. intros (Ne & ys & Hy & Hl). rewrite (specs_fun _ _ Hy _ R) in Hl. apply M1 in Hl. rewrite Hl. cbn [bind]. rewrite (proj2 (last_table_iff ts_name l _) (conj Ne eq_refl)). reflexivity.
  - apply tame_bind; [exact M2|]. intros ys _. apply tame_bind; [apply last_table_tame|]. intros. apply tame_ok.
Qed.
Lemma read_card_iff m i e : m_cap m (i + 3) = el_card e -> (forall c, read_card m i = Ok c <-> card_means (el_card e) c) /\ tame (read_card m i).
Proof.
  intros H. unfold read_card. rewrite H. destruct (el_card e) as [|b t]; split.
  - intros c. unfold card_means. split; [intros [= <-]; reflexivity|destruct c; [intros [X _]; contradiction|reflexivity]].
  - apply tame_ok.
  - intros c. unfold card_means. split.
    + intros K. apply bind_ok in K. destruct K as (x & Hx & [= <-]). split; [discriminate|apply CardProofs.to_cardinality_exact; exact Hx].
    + destruct c as [c|]; [|discriminate]. intros [_ K]. apply CardProofs.to_cardinality_exact in K. rewrite K. reflexivity.
  - apply tame_bind; [apply to_card_tame|]. intros. apply tame_ok.
Qed.
Lemma read_token_iff m e : has_elem m 1 (Some e) -> el_name e <> [] -> (forall i, read_token_element rules m = Ok i <-> token_means find_rule e i) /\ tame (read_token_element rules m).
Proof.
  intros (_ & H1 & H3 & H9) Ne. cbn [Nat.add] in *. unfold read_token_element. rewrite H9, H1. destruct (read_specs_iff (el_specs e)) as [S1 S2]. destruct (read_card_iff m 1 e H3) as [C1 C2].
  destruct (el_name e) as [|b n] eqn:En; [contradiction|]. split.
  - intros i. split.
    + intros H. apply bind_ok in H. destruct H as (l & Hl & H). apply bind_ok in H. destruct H as (c & Hc & [= <-]). rewrite <- En. constructor; [apply C1; exact Hc|apply S1; exact Hl].
    + intros H. inversion H as [? c l Hc Hl]; subst. apply S1 in Hl. apply C1 in Hc. rewrite Hl. cbn [bind]. rewrite Hc. cbn [bind]. rewrite En. reflexivity.
  - apply tame_bind; [exact S2|]. intros. apply tame_bind; [exact C2|]. intros. apply tame_ok.
Qed.
Lemma read_relement_iff m e : has_elem m 12 (Some e) -> (forall i, read_rule_element rules m = Ok i <-> rule_means find_rule e i) /\ tame (read_rule_element rules m).
Proof.
  intros (_ & H1 & H3 & _). cbn [Nat.add] in *. unfold read_rule_element. rewrite H1. destruct (read_card_iff m 12 e H3) as [C1 C2]. split.
  - intros i. split.
    + intros H. apply bind_ok in H. destruct H as (r & Hr & H). apply bind_ok in H. destruct H as (c & Hc & [= <-]). constructor; [exact Hr|apply C1; exact Hc].
    + intros H. inversion H as [? r c Hr Hc]; subst. unfold find_rule in Hr. apply C1 in Hc. rewrite Hr. cbn [bind]. rewrite Hc. reflexivity.
  - apply tame_bind; [apply table_find_tame|]. intros. apply tame_bind; [exact C2|]. intros. apply tame_ok.
Qed.
(* ---- pieces of a line ---- *)
Lemma token_first e s u : sc_token s = Some (e, u) -> exists b n w, el_name e = b :: n /\ b <> "#"%byte /\ s = (el_name e ++ w) ++ u.
Proof.
  intros H. destruct (elem_split _ _ _ _ _ H) as (w & E). apply sc_token_iff in H. destruct H as (_ & _ & _ & _ & (b & n & En & L & _) & _). exists b, n, w. split; [exact En|]. split; [intros ->; unfold lower in L; cbn in L; lia|]. rewrite <- app_assoc. exact E.
Qed.
Lemma rule_first e s u : sc_rule s = Some (e, u) -> exists b n w, el_name e = b :: n /\ b <> "#"%byte /\ s = (el_name e ++ w) ++ u.
Proof.
  intros H. destruct (elem_split _ _ _ _ _ H) as (w & E). apply sc_rule_iff in H. destruct H as (_ & _ & _ & _ & (Ne & F) & _). destruct (el_name e) as [|b n] eqn:En; [contradiction|]. exists b, n, w. split; [reflexivity|]. split; [|rewrite <- app_assoc; exact E].
  inversion F as [|? ? Hb _]; subst. intros ->. destruct Hb as [Hb|Hb]; [unfold upper in Hb; cbn in Hb; lia|discriminate].
Qed.
Lemma perh_inv {X} (f : bytes -> option (X * bytes)) s x u : perh f s = (x, u) -> match x with Some y => f s = Some (y, u) | None => u = s /\ f s = None end.
Proof. unfold perh. destruct (f s) as [[y v]|]; intros [= <- <-]; auto. Qed.
Lemma piece_text s p u : sc_piece s = (p, u) -> exists w, s = w ++ u /\
  match pc_token p, pc_rule p, pc_hash p with
  | None, None, None => w = []
  | None, None, Some _ => w = bs "#"
  | _, _, _ => exists b r, w = b :: r /\ b <> "#"%byte
  end.
Proof.
  unfold sc_piece. destruct (perh sc_token s) as [t s1] eqn:H1. destruct (perh sc_rule s1) as [r s2] eqn:H2. destruct (perh _ s2) as [h s3] eqn:H3. intros [= <- <-]. cbn [pc_token pc_rule pc_hash].
  apply perh_inv in H1, H2, H3.
  assert (E3 : exists w, s2 = w ++ s3 /\ w = match h with Some _ => bs "#" | None => [] end).
  { destruct h as [x|]; [|exists []; split; [symmetry; apply H3|reflexivity]]. exists (bs "#"). split; [|reflexivity]. apply sc_unit_iff in H3. exact H3. }
  destruct E3 as (w3 & -> & ->).
  assert (E2 : exists w, s1 = w ++ match h with Some _ => bs "#" | None => [] end ++ s3 /\ match r with Some _ => exists b r, w = b :: r /\ b <> "#"%byte | None => w = [] end).
  { destruct r as [e|]; [|exists []; split; [symmetry; apply H2|reflexivity]]. destruct (rule_first _ _ _ H2) as (b & n & w & En & Hb & ->). exists (el_name e ++ w). split; [reflexivity|]. rewrite En. cbn. eauto. }
  destruct E2 as (w2 & -> & Hr). destruct t as [e|].
  - destruct (token_first _ _ _ H1) as (b & n & w & En & Hb & ->). exists ((el_name e ++ w) ++ w2 ++ match h with Some _ => bs "#" | None => [] end). split; [rewrite <- !app_assoc; reflexivity|]. rewrite En. cbn [app]. eauto.
  - destruct H1 as [E1 _]. exists (w2 ++ match h with Some _ => bs "#" | None => [] end). split; [rewrite <- app_assoc; symmetry; exact E1|]. destruct r as [e|]; [|subst w2; destruct h; reflexivity].
    destruct Hr as (b & n & -> & Hb). cbn [app]. eauto.
Qed.
Definition means_piece (p : piece) (l : list tinstr) : Prop := (p = no_piece /\ l = []) \/ piece_means find_rule p l.
Lemma read_piece_iff s : exists m p u, sc_piece s = (p, u) /\ match_at (compile instruction_text) s = Some m /\ s = m_text m ++ u /\ (m_text m = [] <-> p = no_piece) /\
  (forall l, read_instruction rules m = Ok l <-> means_piece p l) /\ tame (read_instruction rules m).
Proof.
  destruct (piece_at s) as (m & Hm & Em & H1 & H12). destruct (sc_piece s) as [p u] eqn:Ep. cbn [fst snd] in *. exists m, p, u. split; [reflexivity|]. split; [exact Hm|].
  assert (Hn : forall e, pc_token p = Some e -> el_name e <> []).
  { intros e X. unfold sc_piece in Ep. destruct (perh sc_token s) as [t s1] eqn:P1. destruct (perh sc_rule s1). destruct (perh _ b). injection Ep as <- <-. cbn in X. subst t. apply perh_inv in P1. destruct (token_first _ _ _ P1) as (c & n & w & -> & _). discriminate. }
  destruct (piece_text s p u Ep) as (w & E & Hw). rewrite (firstn_name w u s E) in Em. rewrite Em. split; [exact E|].
  assert (Hne : w = [] <-> p = no_piece).
  { split; [|intros ->; cbn in Hw; exact Hw]. intros Z. rewrite Z in Hw. destruct p as [t r h]. cbn [pc_token pc_rule pc_hash] in Hw. clear - Hw. destruct t, r, h; try (destruct Hw as (x & y & X & _); discriminate X); try discriminate Hw. reflexivity. }
  split; [exact Hne|]. unfold read_instruction. rewrite Em.
  assert (Hs : bytes_eqb w (bs "#") = match pc_token p, pc_rule p, pc_hash p with None, None, Some _ => true | _, _, _ => false end).
  { destruct (pc_token p), (pc_rule p), (pc_hash p); try (destruct Hw as (b & r & Ew & Hb); rewrite Ew; destruct (bytes_eqb (b :: r) (bs "#")) eqn:X; [|reflexivity]; apply bytes_eqb_eq in X; injection X as X _; contradiction); rewrite Hw; reflexivity. }
  rewrite Hs. destruct p as [t r h]. cbn [pc_token pc_rule pc_hash] in *. clear Hs Hw Hne.
  destruct t as [t|], r as [r|].
  - destruct (read_token_iff m t H1 (Hn t eq_refl)) as [A1 A2]. destruct (read_relement_iff m r H12) as [B1 B2].
    destruct (m_cap m 1) as [|c1 l1] eqn:C1; [destruct H1 as [X _]; contradiction|]. destruct (m_cap m 12) as [|c2 l2] eqn:C2; [destruct H12 as [X _]; contradiction|]. split.
    + intros l. split.
      * intros H. apply bind_ok in H. destruct H as (la & Ha & H). apply bind_ok in Ha. destruct Ha as (a & Ha & [= <-]). apply bind_ok in H. destruct H as (lb & Hb & H). apply bind_ok in Hb. destruct Hb as (b & Hb & [= <-]). injection H as <-. right. constructor; [apply A1; exact Ha|apply B1; exact Hb].
      * intros [[X _]|H]; [discriminate|]. inversion H as [? ? ? a b Ha Hb| | |]; subst. apply A1 in Ha. apply B1 in Hb. rewrite Ha, Hb. reflexivity.
    + apply tame_bind; [apply tame_bind; [exact A2|intros; apply tame_ok]|]. intros. apply tame_bind; [apply tame_bind; [exact B2|intros; apply tame_ok]|]. intros. apply tame_ok.
  - destruct (read_token_iff m t H1 (Hn t eq_refl)) as [A1 A2].
    destruct (m_cap m 1) as [|c1 l1] eqn:C1; [destruct H1 as [X _]; contradiction|]. cbn [has_elem] in H12. rewrite H12. split.
    + intros l. split.
      * intros H. apply bind_ok in H. destruct H as (la & Ha & H). apply bind_ok in Ha. destruct Ha as (a & Ha & [= <-]). injection H as <-. right. constructor. apply A1. exact Ha.
      * intros [[X _]|H]; [discriminate|]. inversion H as [|? ? a Ha| |]; subst. apply A1 in Ha. rewrite Ha. reflexivity.
    + apply tame_bind; [apply tame_bind; [exact A2|intros; apply tame_ok]|]. intros. apply tame_ok.
  - destruct (read_relement_iff m r H12) as [B1 B2].
    destruct (m_cap m 12) as [|c1 l1] eqn:C1; [destruct H12 as [X _]; contradiction|]. cbn [has_elem] in H1. rewrite H1. cbn [bind]. split.
    + intros l. split.
      * intros H. apply bind_ok in H. destruct H as (la & Ha & H). apply bind_ok in Ha. destruct Ha as (a & Ha & [= <-]). injection H as <-. right. constructor. apply B1. exact Ha.
      * intros [[X _]|H]; [discriminate|]. inversion H as [| |? ? a Ha|]; subst. apply B1 in Ha. rewrite Ha. reflexivity.
    + apply tame_bind; [apply tame_bind; [exact B2|intros; apply tame_ok]|]. intros. apply tame_ok.
  - cbn [has_elem] in H1, H12. rewrite H1, H12. cbn [bind]. destruct h as [[]|]; (split; [|apply tame_ok]); intros l; split.
    + intros [= <-]. right. constructor.
    + intros [[X _]|H]; [discriminate|]. inversion H. reflexivity.
    + intros [= <-]. left. auto.
    + intros [[_ ->]|H]; [reflexivity|]. inversion H.
Qed.
Definition means_pieces (ps : list piece) (l : list tinstr) : Prop := exists ls, Forall2 (piece_means find_rule) ps ls /\ l = concat ls.
Lemma pieces_cons p ps l : means_pieces (p :: ps) l <-> exists a b, piece_means find_rule p a /\ means_pieces ps b /\ l = a ++ b.
Proof.
  split.
  - intros (ls & F & ->). inversion F as [|? a ? lb Ha F']; subst. exists a, (concat lb). split; [exact Ha|]. split; [exists lb; auto|reflexivity].
  - intros (a & b & Ha & (ls & F & ->) & ->). exists (a :: ls). split; [constructor; assumption|reflexivity].
Qed.
Lemma empty_piece l : means_piece no_piece l <-> l = [].
Proof. split; [intros [[_ H]|H]; [exact H|inversion H]|intros ->; left; auto]. Qed.
Lemma line_found : forall n s f, length s <= n -> exists ps, reads_line s ps /\
  (forall l, read_instructions rules (find_from (compile instruction_text) 0 f s) = Ok l <-> means_pieces ps l) /\ tame (read_instructions rules (find_from (compile instruction_text) 0 f s)).
Proof.
  assert (Hnil : forall l, Ok [] = Ok l <-> means_pieces [] l).
  { intros l. split; [intros [= <-]; exists []; split; [constructor|reflexivity]|intros (ls & F & ->); inversion F; reflexivity]. }
  assert (Hskip : forall m ms ps, (forall l, read_instruction rules m = Ok l <-> l = []) -> tame (read_instruction rules m) ->
     (forall l, read_instructions rules ms = Ok l <-> means_pieces ps l) /\ tame (read_instructions rules ms) -> (forall l, read_instructions rules (m :: ms) = Ok l <-> means_pieces ps l) /\ tame (read_instructions rules (m :: ms))).
  { intros m ms ps Hm Tm [H Tms]. cbn [read_instructions]. rewrite (proj2 (Hm []) eq_refl). cbn [bind app]. split.
    - intros l. rewrite <- H. destruct (read_instructions rules ms); cbn [bind]; split; intros K; try discriminate K; exact K.
    - apply tame_bind; [exact Tms|]. intros. apply tame_ok. }
  induction n as [|n IH]; intros s f L.
  - destruct s; [|cbn in L; lia]. exists []. split; [constructor|]. cbn [find_from]. destruct (read_piece_iff []) as (m & p & u & Ep & Hm & E & He & Hr & Ht). symmetry in E. apply app_eq_nil in E. destruct E as [E ->].
    apply He in E as E'. subst p. rewrite Hm, E. rewrite app_nil_r. destruct f; [split; [apply Hnil|apply tame_ok]|]. apply Hskip; [intros l; rewrite Hr; apply empty_piece|exact Ht|]. split; [apply Hnil|apply tame_ok].
  - destruct (read_piece_iff s) as (m & p & u & Ep & Hm & E & He & Hr & Ht). destruct s as [|c t].
    + apply (IH [] f). cbn. lia.
    + destruct (m_text m) as [|b w] eqn:Em.
      * assert (p = no_piece) by (apply He; reflexivity). subst p. cbn [app] in E. subst u. destruct (IH t false) as (ps & R & H); [cbn in L; lia|]. exists ps. split; [apply line_skip; [apply sc_piece_iff; exact Ep|exact R]|].
        cbn [find_from]. rewrite Hm, Em. destruct f; [exact H|]. apply Hskip; [intros l; rewrite Hr; apply empty_piece|exact Ht|exact H].
      * assert (Np : p <> no_piece) by (intros X; apply He in X; discriminate). destruct (IH u true) as (ps & R & H1 & H2); [rewrite E in L; cbn in L; rewrite app_length in L; lia|].
        exists (p :: ps). split; [eapply line_piece; [apply sc_piece_iff; exact Ep|exact Np|exact R]|]. cbn [find_from]. rewrite Hm, Em. assert (Et : t = w ++ u) by (injection E; auto). rewrite Et, (find_skip (compile instruction_text)). cbn [read_instructions]. split.
        -- intros l. rewrite pieces_cons. split.
           ++ intros H. apply bind_ok in H. destruct H as (a & Ha & H). apply bind_ok in H. destruct H as (b' & Hb & [= <-]). exists a, b'. apply Hr in Ha. destruct Ha as [[X _]|Ha]; [contradiction|]. split; [exact Ha|]. split; [apply H1; exact Hb|reflexivity].
           ++ intros (a & b' & Ha & Hb & ->). rewrite (proj2 (Hr a) (or_intror Ha)). cbn [bind]. rewrite (proj2 (H1 b') Hb). reflexivity.
        -- apply tame_bind; [exact Ht|]. intros. apply tame_bind; [exact H2|]. intros. apply tame_ok.
Qed.
Lemma line_fun s ps : reads_line s ps -> forall qs, reads_line s qs -> ps = qs.
Proof.
  assert (N : forall p u, reads_piece [] p u -> p = no_piece).
  { intros p u H. apply sc_piece_iff in H. change (sc_piece []) with (no_piece, @nil byte) in H. injection H as <- _. reflexivity. }
  intros H. induction H as [|s p u l Hp Np H IH|b s l Hp H IH]; intros qs K; inversion K; subst; try reflexivity; try (exfalso; match goal with X : reads_piece [] _ _, Y : _ <> no_piece |- _ => apply N in X; contradiction end).
  - apply sc_piece_iff in Hp, H0. assert ((p, u) = (p0, rest)) as [= <- <-] by congruence. f_equal. auto.
  - apply sc_piece_iff in Hp, H0. assert (p = no_piece) by congruence. contradiction.
  - apply sc_piece_iff in Hp, H0. assert (p = no_piece) by congruence. contradiction.
  - auto.
Qed.
Lemma read_line_iff text : (forall l, read_line rules text = Ok l <-> line_means find_rule text l) /\ tame (read_line rules text).
Proof.
  unfold read_line. rewrite all_instruction. set (t := trim_space text). destruct (line_found (length t) t false (le_n _)) as (ps & R & H & Ht). unfold find_all. split.
  - intros l. unfold line_means. split.
    + intros K. apply bind_ok in K. destruct K as (l' & Hl & K). assert (l' = l /\ l <> []) as [-> Ne] by (destruct l'; [discriminate|]; injection K as <-; split; [reflexivity|discriminate]).
      split; [exact Ne|]. apply H in Hl. destruct Hl as (ls & F & ->). exists t, ps, ls. split; [apply trim_space_iff; reflexivity|]. auto.
    + intros (Ne & t' & ps' & ls & Ht' & R' & F & ->). apply trim_space_iff in Ht'. fold t in Ht'. subst t'. rewrite (line_fun _ _ R' _ R) in F. rewrite (proj2 (H (concat ls)) (ex_intro _ ls (conj F eq_refl))). cbn [bind]. destruct (concat ls); [contradiction|reflexivity].
  - apply tame_bind; [exact Ht|]. intros l _. destruct l; (apply tame_err || apply tame_ok).
Qed.
Lemma read_lines_iff text : (forall l, read_lines rules text = Ok l <-> lines_mean find_rule text l) /\ tame (read_lines rules text).
Proof.
  unfold read_lines. split.
  - intros l. rewrite mapM_iff. unfold lines_mean. split.
    + intros F. exists (strsplit (bs "|") text). split; [apply pieces_iff; [discriminate|reflexivity]|]. eapply Forall2_iff; [|exact F]. intros a b _. symmetry. apply read_line_iff.
    + intros (ts & P & F). apply pieces_iff in P; [|discriminate]. subst ts. eapply Forall2_iff; [|exact F]. intros a b _. apply read_line_iff.
  - apply tame_mapM. intros x _. apply read_line_iff.
Qed.
Lemma after_begin_iff s : (forall t, after_begin s = Ok t <-> after_colon s t) /\ tame (after_begin s).
Proof.
  unfold after_begin, after_colon. split.
  - intros t. rewrite trim_space_iff. destruct (trim_space s) as [|b r]; cbn [has_prefix bs]; [split; discriminate|]. change (bs ":") with [colon]. cbn [has_prefix]. rewrite andb_true_r. destruct (Byte.eqb colon b) eqn:E.
    + apply byte_eq in E. subst. cbn. split; intros X; injection X as ->; reflexivity.
    + apply byte_ne in E. split; [discriminate|]. intros X. injection X as X _. exfalso. apply E. symmetry. exact X.
  - destruct (has_prefix _ _); (apply tame_ok || apply tame_err).
Qed.
Lemma split_cons sep s : sep <> [] -> exists a l, strsplit sep s = a :: l.
Proof. intros Ne. destruct (pieces_exist sep Ne (length s) s (le_n _)) as (l & H). rewrite <- (pieces_split sep s l Ne H). inversion H; eauto. Qed.
Lemma read_block_iff text : (forall must not, read_block rules text = Ok (must, not) <-> block_means find_rule text must not) /\ tame (read_block rules text).
Proof.
  unfold read_block, block_means. destruct (split_cons (bs "---") text) as (t & ts & E); [discriminate|].
  assert (U : forall t' ts', pieces (bs "---") text (t' :: ts') <-> t' = t /\ ts' = ts).
  { intros t' ts'. rewrite pieces_iff by discriminate. rewrite E. split; [intros [= -> ->]; auto|intros [-> ->]; reflexivity]. }
  rewrite E. destruct (read_lines_iff t) as [A1 A2]. destruct ts as [|n ts].
  - split.
    + intros must not. split.
      * intros H. apply bind_ok in H. destruct H as (m & Hm & [= <- <-]). exists t, []. split; [apply U; auto|]. split; [apply A1; exact Hm|exact I].
      * intros (t' & ts' & P & Hm & Hn). apply U in P. destruct P as [-> ->]. destruct not; [contradiction|]. apply A1 in Hm. rewrite Hm. reflexivity.
    + apply tame_bind; [exact A2|intros; apply tame_ok].
  - destruct (after_begin_iff n) as [B1 B2]. split.
    + intros must not. split.
      * intros H. apply bind_ok in H. destruct H as (m & Hm & H). apply bind_ok in H. destruct H as (x & Hx & H). apply bind_ok in H. destruct H as (l & Hl & [= <- <-]). exists t, (n :: ts). split; [apply U; auto|]. split; [apply A1; exact Hm|]. exists x. split; [apply B1; exact Hx|apply read_lines_iff; exact Hl].
      * intros (t' & ts' & P & Hm & Hn). apply U in P. destruct P as [-> ->]. destruct not as [l|]; [|contradiction]. destruct Hn as (x & Hx & Hl). apply A1 in Hm. apply B1 in Hx. apply read_lines_iff in Hl. rewrite Hm. cbn [bind]. rewrite Hx. cbn [bind]. rewrite Hl. reflexivity.
    + apply tame_bind; [exact A2|]. intros. apply tame_bind; [exact B2|]. intros. apply tame_bind; [apply read_lines_iff|]. intros. apply tame_ok.
Qed.
End Values.
Lemma read_suite_iff text : (forall suite block, read_suite text = Ok (suite, block) <-> body_means text block suite) /\ tame (read_suite text).
Proof.
  unfold read_suite, body_means. destruct (split_cons (bs "+++") text) as (t & ts & E); [discriminate|].
  assert (U : forall t' ts', pieces (bs "+++") text (t' :: ts') <-> t' = t /\ ts' = ts).
  { intros t' ts'. rewrite pieces_iff by discriminate. rewrite E. split; [intros [= -> ->]; auto|intros [-> ->]; reflexivity]. }
  rewrite E. destruct ts as [|n ts].
  - split; [|apply tame_ok]. intros suite block. split.
    + intros [= <- <-]. exists []. split; [apply U; auto|exact I].
    + intros (ts' & P & Hn). apply U in P. destruct P as [-> ->]. destruct suite; [contradiction|reflexivity].
  - destruct (after_begin_iff n) as [B1 B2]. split.
    + intros suite block. split.
      * intros H. apply bind_ok in H. destruct H as (x & Hx & H). exists (n :: ts). destruct (filter (@non_empty byte) (strsplit (bs "###") x)) as [|l0 l] eqn:El; [discriminate|]. injection H as <- <-. split; [apply U; auto|].
        exists x, (strsplit (bs "###") x). split; [apply B1; exact Hx|]. split; [apply pieces_iff; [discriminate|reflexivity]|]. split; [symmetry; exact El|discriminate].
      * intros (ts' & P & Hn). apply U in P. destruct P as [-> ->]. destruct suite as [l|]; [|contradiction]. destruct Hn as (x & ps & Hx & Hp & El & Ne). apply B1 in Hx. rewrite Hx. cbn [bind]. apply pieces_iff in Hp; [|discriminate]. subst ps. rewrite <- El. destruct l; [contradiction|reflexivity].
    + apply tame_bind; [exact B2|]. intros x _. destruct (filter _ _); (apply tame_err || apply tame_ok).
Qed.
