(* CryptProps.v - property theorems C15, C16, C51: domain/cryptography.
   [aes] and [sha256] are external; only their output sizes are assumed. *)
From Coq Require Import Strings.String Strings.Byte.
From Verif Require Import GoLemmas Base64 CryptModel CryptSpec CryptProofs.

Example sizes_satisfiable : block_size toy_aes /\ key_size toy_sha256.
Proof. exact (conj toy_aes_size toy_sha256_size). Qed.

(* ---- C15 ---- *)
Theorem C15_encrypt_decrypt : forall aes sha256, block_size aes -> key_size sha256 ->
  forall password iv message, length iv = 16 ->
  exists txt, encrypt aes (new_encryption sha256 password) iv message = Ok txt /\
    decrypt aes (new_encryption sha256 password) txt = Ok message.
Proof. intros aes sha256 HB HK password iv message. apply encrypt_decrypt; [exact HB | apply HK]. Qed.
Print Assumptions C15_encrypt_decrypt.

(* the builder makes the same encryption as NewEncryption, and needs a password *)
Theorem C15_builder : forall sha256 pass,
  builder_now sha256 pass = match pass with Some p => Ok (new_encryption sha256 p) | None => Err end.
Proof. intros sha256 []; reflexivity. Qed.
Print Assumptions C15_builder.

Example C15_example : exists txt,
  encrypt toy_aes (new_encryption toy_sha256 (bs "pw")) (repeat x07 16) (bs "a message longer than one block") = Ok txt /\
  length txt = 64.
Proof. eexists. split; vm_compute; reflexivity. Qed.

(* ---- C16 ---- *)
Theorem C16_decrypt_fails_exactly : forall aes sha256, key_size sha256 -> forall password txt,
  decrypt aes (new_encryption sha256 password) txt = Err <->
  b64_decode txt = None \/ exists c, b64_decode txt = Some c /\ length c < 16.
Proof. intros aes sha256 HK password txt. apply decrypt_err. apply HK. Qed.
Print Assumptions C16_decrypt_fails_exactly.

(* no integrity: everything else, under every password, decrypts to something *)
Theorem C16_decrypt_authenticates_refuted : forall aes sha256, block_size aes -> key_size sha256 ->
  forall password txt c, b64_decode txt = Some c -> 16 <= length c ->
  exists m, decrypt aes (new_encryption sha256 password) txt = Ok m /\ length m = length c - 16.
Proof. intros aes sha256 HB HK password txt c. apply decrypt_ok_length; [exact HB | apply HK]. Qed.
Print Assumptions C16_decrypt_authenticates_refuted.

(* malleability: changing the last block of cipher text changes the same bits of
   the plain text and nothing before it *)
Theorem C16_bit_flips_carry_over : forall aes sha256, block_size aes -> key_size sha256 ->
  forall password iv n pre blk blk' m, length iv = 16 -> length pre = 16 * n ->
  length blk <= 16 -> length blk' = length blk ->
  decrypt aes (new_encryption sha256 password) (b64_encode (iv ++ pre ++ blk)) = Ok m ->
  exists M N, m = M ++ N /\ length M = length pre /\
    decrypt aes (new_encryption sha256 password) (b64_encode (iv ++ pre ++ blk')) =
      Ok (M ++ xors N (xors blk blk')).
Proof. intros aes sha256 HB HK password iv n pre blk blk' m. apply (malleable aes HB). apply HK. Qed.
Print Assumptions C16_bit_flips_carry_over.

(* whatever the iv and the first n blocks are replaced with, the plain text after
   block n+1 is the same *)
Theorem C16_prefix_replaceable : forall aes sha256, block_size aes -> key_size sha256 ->
  forall password iv iv' n pre pre' blk post m m', length iv = 16 -> length iv' = 16 ->
  length pre = 16 * n -> length pre' = 16 * n -> length blk = 16 ->
  decrypt aes (new_encryption sha256 password) (b64_encode (iv ++ pre ++ blk ++ post)) = Ok m ->
  decrypt aes (new_encryption sha256 password) (b64_encode (iv' ++ pre' ++ blk ++ post)) = Ok m' ->
  skipn (16 * S n) m = skipn (16 * S n) m'.
Proof. exact prefix_replaceable. Qed.
Print Assumptions C16_prefix_replaceable.

Example C16_example :
  decrypt toy_aes (new_encryption toy_sha256 (bs "wrong")) (b64_encode (repeat x01 40)) =
  Ok (cfb toy_aes false (new_encryption toy_sha256 (bs "wrong")) (repeat x01 16) [] (repeat x01 24)) /\
  decrypt toy_aes (new_encryption toy_sha256 (bs "pw")) (bs "AAAA") = Err /\
  decrypt toy_aes (new_encryption toy_sha256 (bs "pw")) (bs "A*AA") = Err.
Proof. split; [|split]; vm_compute; reflexivity. Qed.

(* ---- C51 ---- *)
Theorem C51_rsa_key_text : forall Key (marshal : Key -> bytes) parse,
  (forall k, parse (marshal k) = Some k) ->
  forall k, rsa_from_encoded Key parse (rsa_to_encoded Key marshal k) = Ok k.
Proof. exact rsa_round_trip. Qed.
Print Assumptions C51_rsa_key_text.

Theorem C51_rsa_key_text_errors : forall Key (parse : bytes -> option Key) s,
  rsa_from_encoded Key parse s = Err <->
  b64_decode s = None \/ exists d, b64_decode s = Some d /\ parse d = None.
Proof. exact rsa_from_encoded_err. Qed.
Print Assumptions C51_rsa_key_text_errors.

Example C51_example : rsa_from_encoded bytes Some (rsa_to_encoded bytes (fun k => k) (bs "key")) = Ok (bs "key").
Proof. vm_compute. reflexivity. Qed.
