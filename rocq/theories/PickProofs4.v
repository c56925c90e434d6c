(* PickProofs4.v - proofs for PickProps.v: the parser on a text with a longest-line reading. *)
From Coq Require Import Strings.String Strings.Byte Lia.
From Verif Require Import Go GoLemmas DomainModel DomainSpec DomainProofs CardModel CardSpec CardProofs PatModel PatSpec PatProofs RuleModel RuleSpec RuleProofs PathModel PathSpec PathProofs LexModel LexSpec LexProofs LexProofs2 LexProofs3 AstModel AstSpec AstProofs AstProofs2 AstProofs3 OrdSpec OrdProofs PickSpec PickProofs PickProofs2 PickProofs3.
Open Scope list_scope.

Section Top.
Variable channels : nat -> list path.
Hypothesis Hc : plain_channels channels.
Hypothesis Hp : forall p, among channels p -> plain p.
Variable root : path.
Hypothesis Hr : plain root.
Variables (fuel : nat) (st : lst).
Hypothesis Pst : ls_pre st = false.

Lemma tok_of_ast script r : fst (to_ast channels fuel root false script st) = Ok r -> exists t, fst (to_token channels fuel root script st) = Ok t.
Proof. unfold to_ast. destruct (to_token channels fuel root script st) as [[t| | |] s']; cbn [fst]; try discriminate. eauto. Qed.
Lemma read_by_picks script t rest r : picks channels (pa_element root) true script t rest -> fst (to_ast channels fuel root false script st) = Ok r ->
  exists a, r = ASuccess a /\ drawn a = t /\ script = at_discovery a ++ rest.
Proof.
  intros Pk H. destruct (tok_of_ast _ _ H) as (x & Ex). destruct (proj1 (proj2 (proj2 (proj2 (proj2 (proj2 (main channels Hc)))))) _ _ _ _ _ Pk fuel (pa_deps root) {| ls_rec := []; ls_pre := ls_pre st; ls_tick := ls_tick st |} x (snd (to_token channels fuel root script st)) Pst) as (m & a & Ec & V & _ & Es & _ & Ea & Da & _).
  { rewrite <- Ex. unfold to_token. destruct (element_to_token _ _ _ _ _ _). reflexivity. }
  destruct (proj1 (ast_decides channels root fuel script st x Hp Hr Ex) V) as (a' & Ea' & D & _). rewrite H in Ea'. injection Ea' as ->. exists a'. split; [reflexivity|].
  unfold to_ast in H. destruct (to_token channels fuel root script st) as [o s'] eqn:E. cbn [fst] in Ex. subst o. cbn [fst] in H. destruct (to_mistake false x) as [[mk|]| | |]; cbn [bind] in H; try discriminate. rewrite Ea in H. cbn [bind] in H. injection H as <-. split; [exact Da|]. rewrite D. exact Es.
Qed.
Lemma refused script r : beaten channels (length script) true script (el_must (pa_element root)) -> fst (to_ast channels fuel root false script st) = Ok r -> exists m, r = AMistake m.
Proof.
  unfold bytes in *. intros Bt H. destruct (tok_of_ast _ _ H) as (x & Ex). assert (Nn : el_not (pa_element root) = None) by (apply (proj1 Hr _ (or_introl eq_refl))).
  destruct (to_token_chosen channels root fuel script st x Ex) as (outs & st' & R & C & El). destruct (proj1 (proj2 (proj2 (proj2 (proj2 (main channels Hc))))) _ _ _ _ Bt fuel (pa_deps root) {| ls_rec := []; ls_pre := ls_pre st; ls_tick := ls_tick st |} outs st' Pst R) as (_ & CB).
  destruct (ast_decides channels root fuel script st x Hp Hr Ex) as [A1 A2]. destruct (tok_valid x) eqn:V; [|destruct (A2 eq_refl) as (m & Em & _); rewrite H in Em; injection Em as ->; eauto]. exfalso.
  assert (S := to_token_sound channels ltac:(intros p X; apply plain_good, Hp, X) root fuel script st x (plain_good _ Hr) Ex V). destruct S as (rest & _ & _ & Ne). specialize (Ne Nn).
  assert (K : exists i bl, the_must x = Some (LM i bl) /\ tok_disc x = lm_disc (LM i bl) /\ forallb b_valid bl = true).
  { unfold to_token, element_to_token, element_to_content in Ex. destruct (mbind _ _ _) as [o s'] eqn:E in Ex. cbn [fst] in Ex. subst o. apply mbind_ok in E. destruct E as (c & s1 & E & E'). apply lift_ok in E'. destruct E' as [E' <-]. apply mbind_ok in E. destruct E as (om & s2 & _ & E2). rewrite Nn in E2. destruct (el_name (pa_element root)); [discriminate|]. injection E' as <-. destruct om as [[i bl]|]; apply ret_ok in E2; destruct E2 as [<- _]; [|discriminate]. exists i, bl. split; [reflexivity|]. split; [reflexivity|]. exact V. }
  destruct K as (i & bl & Em & Ed & Vb). rewrite Em in C. destruct C as [[Ci _]|[_ [[_ F] _]]]; [|congruence]. specialize (CB _ _ Ci). rewrite Ed, lm_disc_valid in Ne by exact Vb. unfold text in CB. destruct (concat (map b_disc bl)); [congruence|cbn in CB; lia].
Qed.
End Top.
(* a relation of the longest line has one value *)
Lemma reading_one channels root script t rest t' rest' fuel st r : plain_channels channels -> (forall p, among channels p -> plain p) -> plain root -> ls_pre st = false -> fst (to_ast channels fuel root false script st) = Ok r ->
  picks channels (pa_element root) true script t rest -> picks channels (pa_element root) true script t' rest' -> t = t' /\ rest = rest'.
Proof.
  intros Hc Hp Hr P H A B. destruct (read_by_picks channels Hc Hp root Hr fuel st P _ _ _ _ A H) as (a & -> & <- & E). destruct (read_by_picks channels Hc Hp root Hr fuel st P _ _ _ _ B H) as (a' & X & <- & E'). injection X as <-. split; [reflexivity|]. rewrite E in E' at 1. apply app_inv_head in E'. exact E'.
Qed.
