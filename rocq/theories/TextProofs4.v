(* TextProofs4.v - a well-formed source of patterns, with any layout, is read back as written. *)
From Coq Require Import Strings.String Strings.Byte Lia.
From Verif Require Import Go GoLemmas DomainModel CardModel PatModel RuleModel RuleProofs PathModel SigProofs2 Regex RegexProofs TextModel TextBytes TextSpec TextProofs TextProofs2 TextProofs3.
Open Scope list_scope.
Local Arguments in_class : simpl never.

Lemma one_mid (c : byte) (a b a' b' : bytes) : a ++ c :: b = a' ++ c :: b' -> ~ In c a -> ~ In c b -> a' = a /\ b' = b.
Proof.
  revert a'. induction a as [|x a IH]; intros a' E Na Nb.
  - destruct a' as [|y a']; cbn in E; [injection E as ->; auto|]. injection E as _ E. exfalso. apply Nb. rewrite E. apply in_or_app. right. left. reflexivity.
  - destruct a' as [|y a']; cbn in E; injection E as E1 E.
    + exfalso. apply Na. left. exact E1.
    + subst y. destruct (IH a' E (fun H => Na (or_intror H)) Nb) as [-> ->]. auto.
Qed.
Lemma inside (w u pre u' : bytes) : w ++ u = pre ++ u' -> length pre < length w -> exists b v, u' = b :: v /\ In b w.
Proof.
  revert pre. induction w as [|x w IH]; intros pre E L; [cbn in L; lia|]. destruct pre as [|y pre].
  - cbn in E. exists x, (w ++ u). split; [symmetry; exact E|left; reflexivity].
  - cbn in E. injection E as _ E. destruct (IH pre E) as (b & v & -> & I); [cbn in L; lia|]. exists b, v. split; [reflexivity|right; exact I].
Qed.
Lemma notin {P : byte -> Prop} x w : Forall P w -> ~ P x -> ~ In x w.
Proof. intros F N H. rewrite Forall_forall in F. exact (N (F x H)). Qed.
Lemma blank_not x : (x <> " " /\ x <> x09 /\ x <> x0d /\ x <> x0a)%byte -> ~ blank x.
Proof. unfold blank. tauto. Qed.
Ltac nb := apply blank_not; repeat split; discriminate.
Lemma not_upper x : (Byte.to_N x < 65 \/ 90 < Byte.to_N x)%N -> ~ upper x. Proof. unfold upper. lia. Qed.
Lemma not_lower x : (Byte.to_N x < 97 \/ 122 < Byte.to_N x)%N -> ~ lower x. Proof. unfold lower. lia. Qed.
Lemma group_chars n x : group_name n -> In x n -> x = "$"%byte \/ upper x \/ underscore x.
Proof. intros (w & -> & _ & F) [H|H]; [left; symmetry; exact H|right]. rewrite Forall_forall in F. exact (F x H). Qed.
Lemma serie_chars n x : serie_name n -> In x n -> upper x \/ underscore x.
Proof. intros (b & w & -> & U & F) [H|H]; [left; subst; exact U|]. rewrite Forall_forall in F. exact (F x H). Qed.
Lemma pattern_chars n x : pattern_name n -> In x n -> lower x \/ underscore x.
Proof. intros (b & w & -> & U & F) [H|H]; [left; subst; exact U|]. rewrite Forall_forall in F. exact (F x H). Qed.
Lemma blanks x w : Forall blank w -> In x w -> blank x. Proof. intros F H. rewrite Forall_forall in F. exact (F x H). Qed.
(* the character classes are told apart by numbers *)
Ltac chars :=
  repeat match goal with
  | H : Forall blank ?w, K : In ?x ?w |- _ => apply (blanks x w H) in K
  end;
  unfold in_serie_name, upper, lower, underscore, blank in *;
  repeat match goal with
  | H : _ \/ _ |- _ => destruct H
  | H : _ /\ _ |- _ => destruct H
  end; subst; try discriminate; try (cbn in *; lia); try contradiction.
Lemma option_chars o t x : option_text o t -> In x t -> ~ In x [","; ";"; ":"; "$"]%byte.
Proof.
  intros [[_ ->]|[[F _] ->]] H.
  - destruct H as [<-|[<-|[]]]; cbn; intros [K|[K|[K|[K|[]]]]]; discriminate.
  - rewrite Forall_forall in F. apply F. exact H.
Qed.
Lemma join_chars sep l x : In x (join [sep] l) -> x = sep \/ exists t, In t l /\ In x t.
Proof.
  induction l as [|t l IH]; cbn [join]; [intros []|]. destruct l as [|t' l]; [intros H; right; exists t; split; [left; reflexivity|exact H]|].
  rewrite !in_app_iff. intros [H|[[H|[]]|H]]; [right; exists t; split; [left; reflexivity|exact H]|left; symmetry; exact H|]. destruct (IH H) as [K|(t'' & K1 & K2)]; [left; exact K|right; exists t''; split; [right; exact K1|exact K2]].
Qed.
Lemma options_chars os ts x : Forall2 option_text os ts -> In x (join (bs ",") ts) -> x <> ";"%byte /\ x <> ":"%byte /\ x <> "$"%byte.
Proof.
  intros F H. change (bs ",") with [","%byte] in H. apply join_chars in H. destruct H as [->|(t & I & H)]; [repeat split; discriminate|].
  assert (exists o, option_text o t) as (o & Ho). { clear - F I. induction F as [|o t' os ts Hh F IH]; [destruct I|]. destruct I as [->|I]; [eauto|apply IH; exact I]. }
  assert (K := option_chars o t x Ho H). cbn in K. repeat split; intros ->; apply K; auto.
Qed.
Lemma spread_chars gap l t x : spread gap l t -> In x t -> blank x \/ exists n, In n l /\ In x n.
Proof.
  intros H. induction H as [n w B|n w l t B G H IH]; rewrite !in_app_iff.
  - intros [K|K]; [right; exists n; split; [left; reflexivity|exact K]|left; exact (blanks x w B K)].
  - intros [K|[K|K]]; [right; exists n; split; [left; reflexivity|exact K]|left; exact (blanks x w B K)|]. destruct (IH K) as [J|(m & J1 & J2)]; [left; exact J|right; exists m; split; [right; exact J1|exact J2]].
Qed.
Lemma group_spread_chars gs t x : Forall group_name gs -> spread (fun _ => True) gs t -> In x t -> blank x \/ x = "$"%byte \/ upper x \/ underscore x.
Proof. intros F S H. destruct (spread_chars _ _ _ x S H) as [K|(n & I & K)]; [left; exact K|right]. rewrite Forall_forall in F. exact (group_chars n x (F n I) K). Qed.
Lemma choice_chars c x : serie_name (snd c) -> In x (choice_written c) -> x = "@"%byte \/ upper x \/ underscore x.
Proof. unfold choice_written. intros H K. apply in_app_iff in K. destruct K as [K|K]; [destruct (fst c); [destruct K as [<-|[]]; left; reflexivity|destruct K]|right; exact (serie_chars _ x H K)]. Qed.
Lemma choice_spread_chars cs t x : Forall (fun c => serie_name (snd c)) cs -> spread (fun w => w <> []) (map choice_written cs) t -> In x t -> blank x \/ x = "@"%byte \/ upper x \/ underscore x.
Proof.
  intros F S H. destruct (spread_chars _ _ _ x S H) as [K|(n & I & K)]; [left; exact K|right]. apply in_map_iff in I. destruct I as (c & <- & I). rewrite Forall_forall in F. exact (choice_chars c x (F c I) K).
Qed.
(* the line of an item: what precedes its only colon, and what follows *)
Definition before (i : item) (x : byte) : Prop :=
  match i with
  | IGroup _ _ => blank x \/ x = "$"%byte \/ upper x \/ underscore x
  | ISerie _ _ => blank x \/ upper x \/ underscore x
  | IPattern _ _ => blank x \/ lower x \/ underscore x
  end.
Definition behind (i : item) (x : byte) : Prop :=
  match i with
  | IGroup _ _ => x <> ";"%byte /\ x <> ":"%byte /\ x <> "$"%byte
  | ISerie _ _ => blank x \/ x = "$"%byte \/ upper x \/ underscore x
  | IPattern _ _ => blank x \/ x = "@"%byte \/ upper x \/ underscore x
  end.
Lemma line_parts i l : line i l -> exists a b, l = a ++ colon :: b /\ Forall (before i) a /\ Forall (behind i) b.
Proof.
  intros H. destruct H as [n os ts w0 w1 w2 w3 Hn _ Ho B0 B1 B2 B3|n gs t w0 w1 w2 Hn Hg S B0 B1 B2|n cs t w0 w1 w2 Hn Hc S B0 B1 B2].
  - exists (w0 ++ n ++ w1), (w2 ++ dq :: join (bs ",") ts ++ dq :: w3). split; [rewrite <- !app_assoc; reflexivity|]. split; apply Forall_forall; intros x Hx.
    + rewrite !in_app_iff in Hx. destruct Hx as [Hx|[Hx|Hx]]; [left; exact (blanks x _ B0 Hx)|right; exact (group_chars n x Hn Hx)|left; exact (blanks x _ B1 Hx)].
    + rewrite in_app_iff in Hx. cbn [In] in Hx. rewrite in_app_iff in Hx. cbn [In] in Hx. destruct Hx as [Hx|[Hx|[Hx|[Hx|Hx]]]].
      * apply (blanks x _ B2) in Hx. cbn. destruct Hx as [->|[->|[->| ->]]]; repeat split; discriminate.
      * subst x. cbn. repeat split; discriminate.
      * exact (options_chars os ts x Ho Hx).
      * subst x. cbn. repeat split; discriminate.
      * apply (blanks x _ B3) in Hx. cbn. destruct Hx as [->|[->|[->| ->]]]; repeat split; discriminate.
  - exists (w0 ++ n ++ w1), (w2 ++ t). split; [rewrite <- !app_assoc; reflexivity|]. split; apply Forall_forall; intros x Hx; rewrite !in_app_iff in Hx.
    + destruct Hx as [Hx|[Hx|Hx]]; [left; exact (blanks x _ B0 Hx)|right; exact (serie_chars n x Hn Hx)|left; exact (blanks x _ B1 Hx)].
    + destruct Hx as [Hx|Hx]; [left; exact (blanks x _ B2 Hx)|exact (group_spread_chars gs t x Hg S Hx)].
  - exists (w0 ++ n ++ w1), (w2 ++ t). split; [rewrite <- !app_assoc; reflexivity|]. split; apply Forall_forall; intros x Hx; rewrite !in_app_iff in Hx.
    + destruct Hx as [Hx|[Hx|Hx]]; [left; exact (blanks x _ B0 Hx)|right; exact (pattern_chars n x Hn Hx)|left; exact (blanks x _ B1 Hx)].
    + destruct Hx as [Hx|Hx]; [left; exact (blanks x _ B2 Hx)|exact (choice_spread_chars cs t x Hc S Hx)].
Qed.
Lemma before_no i x : before i x -> x <> semi /\ x <> colon /\ x <> dq /\ x <> backslash.
Proof. unfold semi, colon, dq, backslash. destruct i; cbn; intros H; repeat split; intros ->; chars. Qed.
Lemma behind_no i x : behind i x -> x <> semi /\ x <> colon.
Proof. unfold semi, colon. destruct i; cbn; intros H; [tauto| |]; repeat split; intros ->; chars. Qed.
Lemma line_no_semi i l : line i l -> ~ In semi l.
Proof.
  intros H. destruct (line_parts i l H) as (a & b & -> & Fa & Fb). rewrite in_app_iff. intros [K|[K|K]]; [|discriminate|].
  - rewrite Forall_forall in Fa. apply Fa in K. apply before_no in K. destruct K as [K _]. apply K. reflexivity.
  - rewrite Forall_forall in Fb. apply Fb in K. apply behind_no in K. destruct K as [K _]. apply K. reflexivity.
Qed.
(* a declaration in a line uses its only colon *)
Lemma line_opens is_name i l pre u x : line i l -> l = pre ++ u -> opens is_name u x ->
  exists a, Forall (before i) a /\ Forall (behind i) (snd x) /\ is_name (fst x) /\ exists w, a = pre ++ fst x ++ w.
Proof.
  intros H E (w & Eu & Hn & Hw). destruct (line_parts i l H) as (a & b & El & Fa & Fb). rewrite El, Eu in E. replace (pre ++ fst x ++ w ++ colon :: snd x) with ((pre ++ fst x ++ w) ++ colon :: snd x) in E by (rewrite <- !app_assoc; reflexivity).
  assert (Na : ~ In colon a). { intros K. rewrite Forall_forall in Fa. apply Fa in K. apply before_no in K. destruct K as (_ & K & _). apply K. reflexivity. }
  assert (Nb : ~ In colon b). { intros K. rewrite Forall_forall in Fb. apply Fb in K. apply behind_no in K. destruct K as [_ K]. apply K. reflexivity. }
  destruct (one_mid colon a b _ _ E Na Nb) as [E1 E2]. exists a. split; [exact Fa|]. split; [rewrite E2; exact Fb|]. split; [exact Hn|]. exists w. symmetry. exact E1.
Qed.
Lemma declares_at {X} (P : bytes -> X -> Prop) w u x : Forall blank w -> P u x -> (forall b v y, blank b -> ~ P (b :: v) y) -> declares P (w ++ u) x.
Proof.
  intros B H K. exists w, u. split; [reflexivity|]. split; [exact H|]. intros pre u' y E L. destruct (inside w u pre u' E L) as (b & v & -> & I). apply K. exact (blanks b w B I).
Qed.
(* ---- names in a body ---- *)
Section Bodies.
Variables (is_name : bytes -> Prop).
Hypothesis Hhead : forall n, is_name n -> match n with b :: _ => ~ blank b | [] => False end.
Lemma names_blank w t l : Forall blank w -> names is_name in_serie_name t l -> names is_name in_serie_name (w ++ t) l.
Proof.
  intros B H. induction B as [|b w Hb B IH]; [exact H|]. cbn [app]. apply names_skip; [|exact IH]. intros n u E Hn. apply Hhead in Hn. destruct n as [|c n]; [exact Hn|]. injection E as E _. subst c. contradiction.
Qed.
Lemma names_spread (gap : bytes -> Prop) l t : (forall w l t, gap w -> Forall blank w -> spread gap l t -> Forall is_name l -> match w ++ t with b :: _ => ~ in_serie_name b | [] => True end) ->
  Forall is_name l -> spread gap l t -> names is_name in_serie_name t l.
Proof.
  intros G F S. induction S as [n w B|n w l t B g S IH]; inversion F; subst.
  - apply names_here; [assumption| |].
    + destruct B as [|b w Hb B]; [exact I|]. cbn. intros K. chars.
    + rewrite <- (app_nil_r w). apply names_blank; [exact B|constructor].
  - apply names_here; [assumption|eapply G; eassumption|]. apply names_blank; [exact B|]. apply IH. assumption.
Qed.
End Bodies.
Lemma group_head n : group_name n -> match n with b :: _ => ~ blank b | [] => False end.
Proof. intros (w & -> & _). nb. Qed.
Lemma serie_head n : serie_name n -> match n with b :: _ => ~ blank b | [] => False end.
Proof. intros (b & w & -> & U & _). intros H. chars. Qed.
Lemma choice_head n : choice_name n -> match n with b :: _ => ~ blank b | [] => False end.
Proof. intros [H|(m & -> & _)]; [exact (serie_head n H)|nb]. Qed.
Lemma group_body w gs t : Forall group_name gs -> spread (fun _ => True) gs t -> Forall blank w -> names group_name in_serie_name (w ++ t) gs.
Proof.
  intros F S B. apply (names_blank group_name group_head w t gs B). apply (names_spread group_name group_head (fun _ => True)); [|exact F|exact S].
  clear. intros w l t _ B S F. destruct B as [|b w Hb B]; [|cbn; intros K; chars].
  destruct S as [n w Bw|n w l t Bw _ S]; inversion F as [|? ? Hn]; subst; destruct Hn as (v & -> & _); cbn; intros K; chars.
Qed.
Lemma choice_body w cs t : Forall (fun c => serie_name (snd c)) cs -> spread (fun w => w <> []) (map choice_written cs) t -> Forall blank w -> names choice_name in_serie_name (w ++ t) (map choice_written cs).
Proof.
  intros F S B. apply (names_blank choice_name choice_head w t _ B). apply (names_spread choice_name choice_head (fun w => w <> [])); [| |exact S].
  - clear. intros w l t N B S F. destruct B as [|b w Hb B]; [contradiction|]. cbn. intros K. chars.
  - apply Forall_forall. intros n Hn. apply in_map_iff in Hn. destruct Hn as ([r m] & <- & I). rewrite Forall_forall in F. specialize (F _ I). cbn in F. destruct r; cbn; [right; exists m; auto|left; exact F].
Qed.
Lemma no_group_names s : ~ In "$"%byte s -> names group_name in_serie_name s [].
Proof.
  induction s as [|b s IH]; intros N; [constructor|]. apply names_skip; [|apply IH; intros H; apply N; right; exact H]. intros n u E (w & -> & _). injection E as E _. apply N. left. exact E.
Qed.
Lemma spread_ne gap l t : spread gap l t -> l <> []. Proof. intros H. destruct H; discriminate. Qed.
(* ---- series and patterns ---- *)
Lemma either {X} (r : re) (mk : X -> caps) (P : bytes -> X -> Prop) s : (forall sec rest m, ~ In semi sec -> (match_at r (sec ++ semi :: rest) = Some m <-> exists x, P sec x /\ m = {| m_text := sec ++ [semi]; m_caps := mk x |})) ->
  (forall s, ~ In semi s -> match_at r s = None) -> ~ In semi s -> declares_nothing P s \/ exists x, declares P s x.
Proof.
  intros H1 H2 N. destruct (find_section r P mk semi H1 H2 s [] false N) as [[A _]|(x & u & A & _)]; [left; exact A|right; exists x; exact A].
Qed.
Lemma series_of_lines items lines : Forall2 line items lines -> exists sd, declared (opens serie_name) lines sd /\ naming group_name sd (item_series items).
Proof.
  intros H. induction H as [|i l items lines Hl H IH]; [exists []; split; constructor|]. destruct IH as (sd & D & N). unfold item_series. cbn [map concat]. fold (item_series items).
  destruct i as [n os|n gs|n cs].
  - destruct (either _ mk2 (opens serie_name) l serie_decl_some serie_decl_none (line_no_semi _ _ Hl)) as [K|(x & K)].
    + exists sd. split; [apply declared_skip; assumption|exact N].
    + exists (x :: sd). split; [apply declared_take; assumption|]. apply naming_skip; [|exact N]. destruct K as (pre & u & E & Hu & _). destruct (line_opens _ _ _ _ _ _ Hl E Hu) as (a & _ & F & _). apply no_group_names. intros K. rewrite Forall_forall in F. apply F in K. cbn in K. destruct K as (_ & _ & K). apply K. reflexivity.
  - inversion Hl; subst. exists ((n, w2 ++ t) :: sd). split.
    + apply declared_take; [|exact D]. apply declares_at; [assumption| |].
      * exists w1. cbn [fst snd]. auto.
      * intros b v y Hb (w & E & Hn & _). apply serie_head in Hn. destruct (fst y) as [|c m]; [contradiction|]. injection E as E _. subst c. contradiction.
    + apply (naming_take group_name (n, w2 ++ t) gs); [cbn [snd]; apply group_body; assumption|eapply spread_ne; eassumption|exact N].
  - exists sd. split; [|exact N]. apply declared_skip; [|exact D]. intros pre u x E Hu. destruct (line_opens _ _ _ _ _ _ Hl E Hu) as (a & F & _ & (b & m & En & U & _) & w & Ea). rewrite Forall_forall in F.
    assert (K : In b a) by (rewrite Ea, En; apply in_or_app; right; left; reflexivity). apply F in K. cbn in K. chars.
Qed.
Lemma patterns_of_lines items lines : Forall2 line items lines -> exists pd, declared (opens pattern_name) lines pd /\ naming choice_name pd (item_patterns items).
Proof.
  intros H. induction H as [|i l items lines Hl H IH]; [exists []; split; constructor|]. destruct IH as (pd & D & N). unfold item_patterns. cbn [map concat]. fold (item_patterns items).
  assert (No : (forall x, before i x -> ~ lower x) -> declares_nothing (opens pattern_name) l).
  { intros Hi pre u x E Hu. destruct (line_opens _ _ _ _ _ _ Hl E Hu) as (a & F & _ & (b & m & En & U & _) & w & Ea). rewrite Forall_forall in F.
    assert (K : In b a) by (rewrite Ea, En; apply in_or_app; right; left; reflexivity). exact (Hi b (F b K) U). }
  destruct i as [n os|n gs|n cs].
  - exists pd. split; [apply declared_skip; [apply No|exact D]|exact N]. cbn. intros x Hx L. chars.
  - exists pd. split; [apply declared_skip; [apply No|exact D]|exact N]. cbn. intros x Hx L. chars.
  - inversion Hl; subst. exists ((n, w2 ++ t) :: pd). split.
    + apply declared_take; [|exact D]. apply declares_at; [assumption| |].
      * exists w1. cbn [fst snd]. auto.
      * intros b v y Hb (w & E & (c & m & En & L & _) & _). rewrite En in E. injection E as E _. subst c. chars.
    + apply (naming_take choice_name (n, w2 ++ t) (map choice_written cs)); [cbn [snd]; apply choice_body; assumption|eapply spread_ne; eassumption|exact N].
Qed.
(* ---- groups ---- *)
Lemma hide_app p s : ~ In backslash p -> hide_quotes (p ++ s) = p ++ hide_quotes s.
Proof.
  induction p as [|a p IH]; intros N; [reflexivity|]. assert (Na : Byte.eqb a backslash = false) by (apply eqb_ne; intros ->; apply N; left; reflexivity).
  cbn [app]. rewrite <- IH by (intros K; apply N; right; exact K). destruct (p ++ s) as [|b r]; [reflexivity|]. change (hide_quotes (a :: b :: r)) with (if Byte.eqb a backslash && Byte.eqb b dq then escape_code ++ hide_quotes r else a :: hide_quotes (b :: r)). rewrite Na. reflexivity.
Qed.
Lemma hide_esc s : hide_quotes ([backslash; dq] ++ s) = escape_code ++ hide_quotes s. Proof. reflexivity. Qed.
(* the hidden text of an option *)
Definition hidden (o t : bytes) : Prop := (o = [dq] /\ t = escape_code) \/ (plain_option o /\ t = o).
Lemma hide_option o t : option_text o t -> exists h, hidden o h /\ forall s, hide_quotes (t ++ s) = h ++ hide_quotes s.
Proof.
  intros [[-> ->]|[H ->]].
  - exists escape_code. split; [left; auto|intros s; apply hide_esc].
  - exists o. split; [right; auto|]. intros s. apply hide_app. destruct H as [F _]. apply (notin _ _ F). intros (_ & _ & K). apply K. reflexivity.
Qed.
Lemma hide_options os ts : Forall2 option_text os ts -> exists hs, Forall2 hidden os hs /\ forall s, hide_quotes (join (bs ",") ts ++ s) = join (bs ",") hs ++ hide_quotes s.
Proof.
  intros H. induction H as [|o t os ts Ho H IH]; [exists []; split; [constructor|reflexivity]|]. destruct IH as (hs & Fh & Eh). destruct (hide_option o t Ho) as (h & Hh & E).
  exists (h :: hs). split; [constructor; assumption|]. intros s. destruct H as [|o' t' os ts Ho' H].
  - inversion Fh; subst. cbn [join]. apply E.
  - inversion Fh as [|? h' ? hs' Hh' Fh']; subst. change (join (bs ",") (t :: t' :: ts)) with (t ++ [","%byte] ++ join (bs ",") (t' :: ts)). change (join (bs ",") (h :: h' :: hs')) with (h ++ [","%byte] ++ join (bs ",") (h' :: hs')).
    rewrite <- !app_assoc, E, (hide_app [","%byte]) by (intros [K|[]]; discriminate). rewrite Eh. reflexivity.
Qed.
Lemma hidden_no o h : hidden o h -> ~ In ","%byte h /\ ~ In semi h /\ option_value h o.
Proof.
  intros [[-> ->]|[[F N] ->]].
  - repeat split; [cbn; intros [K|[K|[K|[]]]]; discriminate|cbn; intros [K|[K|[K|[]]]]; discriminate|left; auto].
  - rewrite Forall_forall in F. repeat split; [intros K; apply F in K; destruct K as [K _]; apply K; cbn; auto|intros K; apply F in K; destruct K as [K _]; apply K; cbn; auto|right; auto].
Qed.
Lemma hidden_group n os hs : os <> [] -> Forall2 hidden os hs -> group_of (n, join (bs ",") hs) {| g_name := n; g_list := os |} /\ ~ In semi (join (bs ",") hs).
Proof.
  intros Ne F. assert (K : Forall (fun h => ~ In ","%byte h /\ ~ In semi h) hs /\ Forall2 option_value hs os).
  { clear Ne. induction F as [|o h os hs Ho F IH]; [split; constructor|]. apply hidden_no in Ho. destruct IH, Ho as (? & ? & ?). split; constructor; auto. }
  destruct K as [K1 K2]. split.
  - split; [reflexivity|]. exists hs. cbn [snd g_list]. split; [|exact K2]. split; [destruct F; [contradiction|discriminate]|]. split; [reflexivity|]. eapply Forall_impl; [|exact K1]. cbn. tauto.
  - change (bs ",") with [","%byte]. intros H. apply join_chars in H. destruct H as [H|(t & I & H)]; [discriminate|]. rewrite Forall_forall in K1. destruct (K1 t I). contradiction.
Qed.
Lemma blank_plain w : Forall blank w -> ~ In backslash w /\ ~ In semi w.
Proof. intros B. split; apply (notin _ _ B); nb. Qed.
Lemma group_plain n : group_name n -> ~ In backslash n /\ ~ In semi n.
Proof. intros H. split; intros K; apply (group_chars n _ H) in K; unfold backslash, semi in K; chars. Qed.
(* the hidden line of an item *)
Lemma hide_line i l : line i l -> exists h, (forall s, hide_quotes (l ++ s) = h ++ hide_quotes s) /\ ~ In semi h /\
  match i with
  | IGroup n os => exists d, declares (opens_quoted group_name) h d /\ group_of d {| g_name := n; g_list := os |}
  | _ => declares_nothing (opens_quoted group_name) h
  end.
Proof.
  intros Hl. assert (Hl' := Hl). destruct Hl as [n os ts w0 w1 w2 w3 Hn Ne Ho B0 B1 B2 B3|n gs t w0 w1 w2 Hn Hg S B0 B1 B2|n cs t w0 w1 w2 Hn Hc S B0 B1 B2].
  - destruct (hide_options os ts Ho) as (hs & Fh & Eh). destruct (hidden_group n os hs Ne Fh) as [Hd Ns].
    destruct (blank_plain w0 B0) as [P0 S0], (blank_plain w1 B1) as [P1 S1], (blank_plain w2 B2) as [P2 S2], (blank_plain w3 B3) as [P3 S3], (group_plain n Hn) as [Pn Sn].
    exists (w0 ++ n ++ w1 ++ colon :: w2 ++ dq :: join (bs ",") hs ++ dq :: w3). split; [|split].
    + intros s. rewrite <- !app_assoc. rewrite (hide_app w0) by assumption. f_equal. rewrite (hide_app n) by assumption. f_equal. rewrite (hide_app w1) by assumption. f_equal.
      change ((colon :: w2 ++ dq :: join (bs ",") ts ++ dq :: w3) ++ s) with ([colon] ++ (w2 ++ dq :: join (bs ",") ts ++ dq :: w3) ++ s). rewrite (hide_app [colon]) by (intros [K|[]]; discriminate). cbn [app]. f_equal. rewrite <- !app_assoc. rewrite (hide_app w2) by assumption. f_equal.
      change ((dq :: join (bs ",") ts ++ dq :: w3) ++ s) with ([dq] ++ (join (bs ",") ts ++ dq :: w3) ++ s). rewrite (hide_app [dq]) by (intros [K|[]]; discriminate). cbn [app]. f_equal. rewrite <- !app_assoc. rewrite Eh. f_equal.
      change ((dq :: w3) ++ s) with ([dq] ++ w3 ++ s). rewrite (hide_app [dq]) by (intros [K|[]]; discriminate). cbn [app]. f_equal. apply hide_app. assumption.
    + rewrite !in_app_iff. cbn [In]. rewrite !in_app_iff. cbn [In]. rewrite !in_app_iff. cbn [In]. intros K. repeat destruct K as [K|K]; try contradiction; discriminate.
    + exists (n, join (bs ",") hs). split; [|exact Hd]. apply declares_at; [assumption| |].
      * exists w1, w2, w3. cbn [fst snd]. auto.
      * intros b v y Hb (v1 & v2 & v3 & E & Hy & _). apply group_head in Hy. destruct (fst y) as [|c m]; [contradiction|]. injection E as E _. subst c. contradiction.
  - assert (N : forall x, In x (w0 ++ n ++ w1 ++ colon :: w2 ++ t) -> x <> dq /\ x <> backslash).
    { intros x Hx. rewrite !in_app_iff in Hx. cbn [In] in Hx. rewrite in_app_iff in Hx. destruct Hx as [Hx|[Hx|[Hx|[Hx|[Hx|Hx]]]]].
      - apply (before_no (ISerie n gs)). left. exact (blanks x _ B0 Hx).
      - apply (before_no (ISerie n gs)). right. exact (serie_chars n x Hn Hx).
      - apply (before_no (ISerie n gs)). left. exact (blanks x _ B1 Hx).
      - subst x. split; discriminate.
      - apply (before_no (ISerie n gs)). left. exact (blanks x _ B2 Hx).
      - apply (before_no (IGroup n [])). exact (group_spread_chars gs t x Hg S Hx). }
    eexists. split; [intros s; apply hide_app; intros K; apply N in K; destruct K as [_ K]; apply K; reflexivity|]. split; [exact (line_no_semi _ _ Hl')|].
    intros pre u x E (v1 & v2 & v3 & Eu & _). assert (K : In dq (w0 ++ n ++ w1 ++ colon :: w2 ++ t)). { rewrite E, Eu. apply in_or_app. right. apply in_or_app. right. apply in_or_app. right. right. apply in_or_app. right. left. reflexivity. }
    apply N in K. destruct K as [K _]. apply K. reflexivity.
  - assert (N : forall x, In x (w0 ++ n ++ w1 ++ colon :: w2 ++ t) -> x <> dq /\ x <> backslash).
    { intros x Hx. rewrite !in_app_iff in Hx. cbn [In] in Hx. rewrite in_app_iff in Hx. destruct Hx as [Hx|[Hx|[Hx|[Hx|[Hx|Hx]]]]].
      - apply (before_no (IPattern n cs)). left. exact (blanks x _ B0 Hx).
      - apply (before_no (IPattern n cs)). right. exact (pattern_chars n x Hn Hx).
      - apply (before_no (IPattern n cs)). left. exact (blanks x _ B1 Hx).
      - subst x. split; discriminate.
      - apply (before_no (IPattern n cs)). left. exact (blanks x _ B2 Hx).
      - destruct (choice_spread_chars cs t x Hc S Hx) as [K|[K|K]]; [apply (before_no (ISerie n [])); left; exact K|subst x; split; discriminate|apply (before_no (ISerie n [])); right; exact K]. }
    eexists. split; [intros s; apply hide_app; intros K; apply N in K; destruct K as [_ K]; apply K; reflexivity|]. split; [exact (line_no_semi _ _ Hl')|].
    intros pre u x E (v1 & v2 & v3 & Eu & _). assert (K : In dq (w0 ++ n ++ w1 ++ colon :: w2 ++ t)). { rewrite E, Eu. apply in_or_app. right. apply in_or_app. right. apply in_or_app. right. right. apply in_or_app. right. left. reflexivity. }
    apply N in K. destruct K as [K _]. apply K. reflexivity.
Qed.
Lemma groups_of_lines items lines w : Forall2 line items lines -> Forall blank w -> exists hs gd,
  hide_quotes (concat (map (fun l => l ++ [semi]) lines) ++ w) = concat (map (fun l => l ++ [semi]) hs) ++ w /\ Forall (fun h => ~ In semi h) hs /\
  declared (opens_quoted group_name) hs gd /\ Forall2 group_of gd (item_groups items).
Proof.
  intros H B. induction H as [|i l items lines Hl H IH].
  - exists [], []. split; [cbn [map concat app]|]. { destruct (blank_plain w B) as [P _]. rewrite <- (app_nil_r w) at 1. rewrite (hide_app w [] P). cbn. apply app_nil_r. }
    split; [constructor|]. split; constructor.
  - destruct IH as (hs & gd & E & F & D & G). destruct (hide_line i l Hl) as (h & Eh & Nh & Dh). unfold item_groups. cbn [map concat]. fold (item_groups items).
    assert (Et : hide_quotes (((l ++ [semi]) ++ concat (map (fun l => l ++ [semi]) lines)) ++ w) = ((h ++ [semi]) ++ concat (map (fun l => l ++ [semi]) hs)) ++ w).
    { rewrite <- !app_assoc. rewrite Eh. f_equal. rewrite (hide_app [semi]) by (intros [K|[]]; discriminate). rewrite E. reflexivity. }
    destruct i as [n os|n gs|n cs].
    + destruct Dh as (d & Dd & Gd). exists (h :: hs), (d :: gd). split; [exact Et|]. split; [constructor; assumption|]. split; [apply declared_take; assumption|]. cbn [app]. constructor; assumption.
    + exists (h :: hs), gd. split; [exact Et|]. split; [constructor; assumption|]. split; [apply declared_skip; assumption|exact G].
    + exists (h :: hs), gd. split; [exact Et|]. split; [constructor; assumption|]. split; [apply declared_skip; assumption|exact G].
Qed.
Lemma naming_fun is_name (F : bytes -> list bytes) : (forall s l, names is_name in_serie_name s l <-> l = F s) -> forall d r r', naming is_name d r -> naming is_name d r' -> r = r'.
Proof.
  intros H d r r' N. revert r'. induction N as [|x l r Nx N IH|x ns l r Nx Ne N IH]; intros r' N'.
  - inversion N'. reflexivity.
  - apply IH. apply (naming_none is_name F x l r' H); [symmetry; apply H; exact Nx|exact N'].
  - destruct ns as [|n ns]; [contradiction|]. destruct (naming_some is_name F x l r' n ns H (eq_sym (proj1 (H _ _) Nx)) N') as (r'' & -> & N''). f_equal. apply IH. exact N''.
Qed.
Lemma written_means items text ps : written items text -> (means_patterns text ps <-> items_mean items ps).
Proof.
  intros (lines & w & Fl & Et & Bw). destruct (groups_of_lines items lines w Fl Bw) as (hs & gd & Eh & Fh & Dg & Gg). destruct (series_of_lines items lines Fl) as (sd & Ds & Ns). destruct (patterns_of_lines items lines Fl) as (pd & Dp & Np).
  assert (C : cut text lines w). { split; [exact Et|]. split; [|apply blank_plain; exact Bw]. clear - Fl. induction Fl as [|i l items lines Hl F IH]; constructor; [exact (line_no_semi i l Hl)|exact IH]. }
  assert (Ch : cut (hide_quotes text) hs w). { split; [rewrite Et; exact Eh|]. split; [exact Fh|apply blank_plain; exact Bw]. }
  assert (Ag : declares_all (opens_quoted group_name) (hide_quotes text) gd) by (exists hs, w; auto).
  assert (As : declares_all (opens serie_name) text sd) by (exists lines, w; auto).
  assert (Ap : declares_all (opens pattern_name) text pd) by (exists lines, w; auto).
  split.
  - intros (gd' & groups & sd' & sn & series & pd' & pn & Dg' & Fg & Ng & Ds' & Nn & Fs & Dp' & Np' & Fp & Nps).
    rewrite (declares_all_fun _ fun_group _ _ _ Dg' Ag) in *. rewrite (declares_all_fun _ fun_serie _ _ _ Ds' As) in *. rewrite (declares_all_fun _ fun_pattern _ _ _ Dp' Ap) in *.
    rewrite (naming_fun _ _ group_names_iff _ _ _ Nn Ns) in *. rewrite (naming_fun _ _ choice_names_iff _ _ _ Np' Np) in *.
    assert (groups = item_groups items). { rewrite (Forall2_iff _ (fun d g => g = group_fun d) _ _ (fun a b _ => group_of_iff a b)), Forall2_fun in Fg. rewrite (Forall2_iff _ (fun d g => g = group_fun d) _ _ (fun a b _ => group_of_iff a b)), Forall2_fun in Gg. congruence. }
    subst groups. exists series. auto.
  - intros (series & Ng & Fs & Fp & Nps). exists gd, (item_groups items), sd, (item_series items), series, pd, (item_patterns items). repeat (split; [assumption|]). exact Nps.
Qed.
