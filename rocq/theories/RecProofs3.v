(* RecProofs3.v - proofs for RecProps.v: without recursive references the notes do not matter. *)
From Coq Require Import Strings.String Strings.Byte Lia.
From Verif Require Import Go GoLemmas DomainModel DomainSpec CardModel CardSpec PatModel PatSpec RuleModel RuleSpec PathModel PathSpec LexModel LexSpec AstModel AstSpec OrdSpec PickSpec PickProofs3 RecSpec.
Open Scope list_scope.

Section Embed.
Variable channels : nat -> list path.
Variable lookup : bytes -> option element.
Lemma still_before ch nx c s N : still channels ch c s -> before channels lookup c ch nx s N N.
Proof.
  intros S. destruct ch; [|constructor]. destruct (S eq_refl) as [Q|(n & w & k & P & C & V)]; [apply be_quiet, Q|]. eapply be_left; [exact P|]. eapply le_over; eauto.
Qed.
Lemma embed :
  (forall c ch nx s o r, gives channels c ch nx s o r -> forall N, finds channels lookup c ch nx s N o r N) /\
  (forall c ch nx s, bad channels c ch nx s -> forall N, lacks channels lookup c ch nx s N N) /\
  (forall l ch nx s o r, line_gives channels l ch nx s o r -> forall N, line_finds channels lookup l ch nx s N o r N) /\
  (forall l ch nx s, line_bad channels l ch nx s -> forall N, line_lacks channels lookup l ch nx s N N) /\
  (forall m nx s ls, beaten channels m nx s ls -> forall N, outdone channels lookup m nx s ls N N) /\
  (forall e nx s t r, picks channels e nx s t r -> forall N, chooses channels lookup e nx s N t r N) /\
  (forall e nx k d s ts r, tokens channels e nx k d s ts r -> forall N, repeats channels lookup e nx k d s N ts r N).
Proof.
  apply pick_ind; intros.
  - eapply fi_rule; eauto using still_before.
  - eapply fi_no_rule; eauto using still_before.
  - eapply fi_tokens; eauto using still_before.
  - eapply fi_skip; eauto.
  - eapply la_end; eauto.
  - eapply la_rule; eauto using still_before.
  - eapply la_tokens; eauto using still_before.
  - eapply la_skip; eauto.
  - constructor.
  - constructor; auto.
  - econstructor; eauto.
  - apply lf_left. eapply le_over; eauto.
  - constructor; auto.
  - constructor; auto.
  - eapply ll_later; eauto.
  - constructor.
  - eapply od_lacks; eauto.
  - eapply od_less; eauto.
  - eapply ch_line; eauto.
  - apply re_none; eauto.
  - apply re_last; eauto.
  - eapply re_more; eauto.
Qed.
End Embed.
