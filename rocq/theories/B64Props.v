(* B64Props.v - property theorem C102: the text forms of keys, signatures, hashes and cipher
   texts.  coded, unbroken and hexed are defined in B64Spec.v. *)
From Coq Require Import Strings.String Strings.Byte Lia.
From Verif Require Import Go GoLemmas Base64 HashModel CryptModel SigModel B64Spec B64Proofs.
Open Scope list_scope.

(* exactly the base64 texts are decoded, to the data they stand for; line breaks and left-over
   bits do not matter *)
Theorem C102_base64_accepted_exactly :
  forall s d, b64_decode s = Some d <-> exists t, unbroken s t /\ coded (fun _ => True) t d.
Proof.
  intros s d. unfold b64_decode. split.
  - intros H. exists (filter not_newline s). split; [apply unbroken_filter; reflexivity|apply go_coded, H].
  - intros (t & U & H). apply unbroken_filter in U. subst t. eapply coded_go, H.
Qed.
Print Assumptions C102_base64_accepted_exactly.

(* the text that is written is the one without line breaks and without left-over bits *)
Theorem C102_base64_written_exactly :
  forall s d, s = b64_encode d <-> coded (fun e => e = 0) s d.
Proof. intros s d. split; [intros ->; apply encode_coded|intros H; exact (coded_one_text s d H _ (encode_coded d))]. Qed.
Print Assumptions C102_base64_written_exactly.

Theorem C102_hex_accepted_exactly :
  forall s d, hex_decode s = Some d <-> hexed hex_is s d.
Proof. exact hex_hexed. Qed.
Print Assumptions C102_hex_accepted_exactly.

Theorem C102_hex_written_exactly :
  forall s d, s = hex_encode d <-> hexed (fun c n => nth_error hex_small n = Some c) s d.
Proof. intros s d. split; [intros ->; apply encode_hexed|intros H; exact (hexed_one_text s d H _ (encode_hexed d))]. Qed.
Print Assumptions C102_hex_written_exactly.

(* for the adapters: which texts they refuse *)
Theorem C102_decrypt_needs_base64 :
  forall aes sha256 password txt m, decrypt aes (new_encryption sha256 password) txt = Ok m -> exists t d, unbroken txt t /\ coded (fun _ => True) t d /\ 16 <= length d.
Proof.
  intros aes sha pw txt m H. unfold decrypt in H. destruct (b64_decode txt) as [d|] eqn:E; [|discriminate H]. destruct (negb _); [discriminate H|]. destruct (Nat.ltb_spec (length d) 16); [discriminate H|]. apply C102_base64_accepted_exactly in E. destruct E as (t & U & K). exists t, d. auto.
Qed.
Print Assumptions C102_decrypt_needs_base64.
Theorem C102_hash_from_string_exactly :
  forall sha512 s h, from_string sha512 s = Ok h <-> exists d, hexed hex_is s d /\ h = from_bytes sha512 d.
Proof.
  intros sha s h. unfold from_string. split.
  - intros H. destruct (hex_decode s) as [d|] eqn:E; [|discriminate H]. apply hex_hexed in E. exists d. split; [exact E|congruence].
  - intros (d & E & ->). apply hex_hexed in E. rewrite E. reflexivity.
Qed.
Print Assumptions C102_hash_from_string_exactly.

(* two texts of the same data (a capital letter; a line break and left-over bits), and texts
   that are refused *)
Example C102_case :
  hexed hex_is (bs "aF") [xaf] /\ hexed hex_is (bs "af") [xaf] /\ hex_decode (bs "a") = None /\ hex_decode (bs "ag") = None /\
  unbroken (x0a :: bs "QUJ=") (bs "QUJ=") /\ coded (fun _ => True) (bs "QUJ=") (bs "AB") /\ b64_encode (bs "AB") = bs "QUI=" /\
  b64_decode (bs "QUJ") = None /\ b64_decode (bs "Q*J=") = None /\ b64_decode (bs "QQ==QUJD") = None.
Proof.
  split; [apply hex_hexed; reflexivity|]. split; [apply hex_hexed; reflexivity|]. repeat split; try reflexivity; [apply unbroken_filter; reflexivity|apply go_coded; reflexivity].
Qed.
