(* CryptModel.v - domain/cryptography (password encryption) and
   domain/cryptography/keys/encryption (RSA key text forms).  Definitions only.
   AES, SHA-256 and PKCS#1 are external libraries: parameters. *)
From Coq Require Import Strings.String Strings.Byte.
From Verif Require Export Go Base64.

(* byte exclusive or *)
Definition bxor (a b : byte) : byte := byte_of_N (N.lxor (Byte.to_N a) (Byte.to_N b)).

Section Crypt.
Variable aes : bytes -> bytes -> bytes.    (* key, 16-byte block: aes.Cipher.Encrypt *)
Variable sha256 : bytes -> bytes.          (* curve.Hash() of the kyber suite *)

(* crypto/cipher CFB XORKeyStream, byte by byte.  [next] collects the cipher
   text of the current block (initially the iv), [out] is the unused key stream;
   [enc] selects what is fed back (cfb.go: the output when encrypting, the input
   when decrypting). *)
Fixpoint cfb (enc : bool) (key : bytes) (next out src : bytes) : bytes :=
  match src with
  | [] => []
  | x :: src =>
    let '(next, out) := match out with [] => ([], aes key next) | _ => (next, out) end in
    match out with
    | [] => []  (* not reachable: AES blocks have 16 bytes *)
    | k :: out =>
      let y := bxor x k in
      y :: cfb enc key (next ++ [if enc then y else x]) out src
    end
  end.

(* aes.NewCipher: the key must have 16, 24 or 32 bytes *)
Definition valid_aes_key (key : bytes) : bool :=
  (length key =? 16) || (length key =? 24) || (length key =? 32).

(* domain/cryptography/sdk.go:10-14 NewEncryption, builder.go:22-31 Now with a
   password: an Encryption is its hashed password *)
Definition new_encryption (pass : bytes) : bytes := sha256 pass.
(* builder.go:22-31 Now; None is a nil password *)
Definition builder_now (pass : option bytes) : res bytes :=
  match pass with None => Err | Some p => Ok (sha256 p) end.

(* encryption.go:25-41 Encrypt; [iv] is what rand.Reader delivered.
   SIMPLIFICATION: a failing random source is not modelled. *)
Definition encrypt (key iv message : bytes) : res bytes :=
  if negb (valid_aes_key key) then Err
  else Ok (b64_encode (iv ++ cfb true key iv [] message)).

(* encryption.go:44-69 Decrypt *)
Definition decrypt (key txt : bytes) : res bytes :=
  match b64_decode txt with
  | None => Err
  | Some c =>
    if negb (valid_aes_key key) then Err
    else if length c <? 16 then Err
    else Ok (cfb false key (firstn 16 c) [] (skipn 16 c))
  end.
End Crypt.

(* keys/encryption: [marshal]/[parse] are x509.MarshalPKCS1PrivateKey (PublicKey)
   and x509.ParsePKCS1PrivateKey (PublicKey) *)
Section RSA.
Variable Key : Type.
Variable marshal : Key -> bytes.
Variable parse : bytes -> option Key.
(* adapter.go:21-28 FromBytes, publickey_adapter.go:25-32 FromBytes (the builder
   never fails once a key is given) *)
Definition rsa_from_bytes (b : bytes) : res Key :=
  match parse b with Some k => Ok k | None => Err end.
(* adapter.go:31-38, publickey_adapter.go:35-42 FromEncoded *)
Definition rsa_from_encoded (s : bytes) : res Key :=
  match b64_decode s with None => Err | Some d => rsa_from_bytes d end.
(* adapter.go:47-50, publickey_adapter.go:51-54 ToEncoded *)
Definition rsa_to_encoded (k : Key) : bytes := b64_encode (marshal k).
End RSA.
