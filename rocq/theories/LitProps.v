(* LitProps.v - C106: literals mean what is written. *)
From Coq Require Import Strings.String Strings.Byte Lia.
From Verif Require Import Go GoLemmas DomainModel PathModel LexModel AstModel TextModel AppModel AppSpec AppProps GramModel RootModel BaseModel BaseSpec EvtModel PickSpec OrdSpec ProgSpec ListSpec LitSpec LitProofs4.
Open Scope list_scope.

(* Read with the shipped language, a literal - digits, a minus and digits, digits around a dot, true
   or false, a quoted text - followed by anything that does not continue it is accepted, as a
   declarableValue as well as under the two narrower names it falls under, up to its last byte, and
   its tree is the one of LitSpec.  Executed on that tree, the base events give the value it stands
   for, the number in decimal or the text between the quotes; a number that does not fit in the
   bits asked for, and a float that strconv.ParseFloat refuses, is an error.  Nothing else comes
   out, in whatever order Go's maps are walked. *)
Theorem C106_literals_mean_what_is_written :
  forall rules_file tokens_file order lex_fuel fuel bitsize parse_float l n t x rest s,
  an_order order -> In (n, t) (readings l) -> good_literal l -> may_follow l rest -> bitsize <> 1%N ->
  tx_prefix x = false -> tx_content x = literal_text l ++ rest -> (length (tx_content x) + 2) * 22 <= lex_fuel ->
  exists a r,
    fst (app_ast rules_file tokens_file order lex_fuel fuel [] {| rt_root := bs n; rt_rest := {| mu_container := base_texts; mu_channels := base_channels |} |} x) = Ok (ASuccess a) /\
    drawn a = t /\ at_discovery a = literal_text l /\
    fst (to_root a s) = Ok (Some r) /\
    forall o, app_execute (base_events bitsize parse_float) r o <->
      o = match literal_value bitsize parse_float l with Some v => Ok (VObj (OValue v)) | None => Err end.
Proof. intros rf tf order lf f bz pf l n t x rest s O I G F B Hx Es Hf. exact (literal_executes rf tf order O lf f bz pf l n t x rest s B I G F Hx Es Hf). Qed.
Print Assumptions C106_literals_mean_what_is_written.

(* for instance "-  12" and "300" with 8 bits, "3 .14", "true" and a quoted text *)
Definition any_float (w : bytes) (b : N) : option N := Some 7%N.
Example C106_literals_example :
  let l1 := LNegative (bs "  ") (bs "12") in let l2 := LNatural (bs "300") in let l3 := LFloat None (bs "3") (bs " ") [] (bs "14") in let l4 := LQuoted (bs "say // this") in
  Forall good_literal [l1; l2; l3; LTruth true; l4] /\ Forall (fun l => may_follow l (bs " ; 5")) [l1; l2; l3; LTruth true; l4] /\
  map literal_text [l1; l2; l3; LTruth true; l4] = [bs "-  12"; bs "300"; bs "3 .14"; bs "true"; [x22] ++ bs "say // this" ++ [x22]] /\
  map (literal_value 8 any_float) [l1; l2; l3; LTruth true; l4] = [Some (int_value (-12)); None; Some (float_value 7); Some (bool_value true); Some (string_value (bs "say // this"))] /\
  map fst (readings l1) = ["declarableValue"; "computableValue"; "intValue"]%string.
Proof.
  assert (B : forall a l, forallb (fun b => existsb (Byte.eqb b) a) l = true -> Forall (fun b => In b a) l).
  { intros a l H. apply Forall_forall. intros b I. rewrite forallb_forall in H. specialize (H b I). apply existsb_exists in H. destruct H as (y & J & E). apply Byte.byte_dec_bl in E. subst. exact J. }
  assert (D : forall w, w <> [] -> forallb (fun b => existsb (Byte.eqb b) digits) w = true -> is_digits w) by (intros w N H; split; [exact N|apply B, H]).
  assert (NI : forall b a, existsb (Byte.eqb b) a = false -> ~ In b a) by (intros b a H I; assert (X : existsb (Byte.eqb b) a = true) by (apply existsb_exists; exists b; split; [exact I|apply Byte.byte_dec_lb; reflexivity]); congruence).
  assert (ND : no_digit (bs " ; 5")) by (intros b r E; injection E as <- _; apply NI; reflexivity).
  assert (FI : no_digit (bs " ; 5") /\ (bs " ; 5" = [] \/ exists g b r, bs " ; 5" = g ++ b :: r /\ blank g /\ ~ In b spaces /\ b <> x2e /\ b <> x2f)).
  { split; [exact ND|]. right. exists [x20], x3b, (bs " 5"). split; [reflexivity|]. split; [apply B; reflexivity|]. split; [apply NI; reflexivity|]. split; discriminate. }
  cbv zeta. split; [|split; [|split; [|split]]].
  - constructor; [split; [apply B; reflexivity|apply D; [discriminate|reflexivity]]|]. constructor; [apply D; [discriminate|reflexivity]|]. constructor; [split; [exact I|split; [apply D; [discriminate|reflexivity]|split; [apply B; reflexivity|split; [apply B; reflexivity|apply D; [discriminate|reflexivity]]]]]|]. constructor; [exact I|]. constructor; [split; [discriminate|apply NI; reflexivity]|constructor].
  - constructor; [exact FI|]. constructor; [exact FI|]. constructor; [exact ND|]. constructor; [exact I|]. constructor; [exact I|constructor].
  - reflexivity.
  - vm_compute. reflexivity.
  - reflexivity.
Qed.
Print Assumptions C106_literals_example.
