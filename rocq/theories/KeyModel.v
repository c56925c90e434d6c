(* KeyModel.v - domain/cryptography/keys/encryption: RSA keys, their builders, adapters and
   factory.  Definitions only.  crypto/rsa, crypto/x509 and the random source are external
   libraries: the record [rsa] lists the operations the package calls. *)
From Coq Require Import Strings.String Strings.Byte.
From Verif Require Import Go HashModel Base64 DomainModel.
Open Scope list_scope.

Record rsa := {
  rsa_private : Type;                                  (* rsa.PrivateKey *)
  rsa_public : Type;                                   (* rsa.PublicKey *)
  rsa_half : rsa_private -> rsa_public;                (* the field PublicKey *)
  rsa_generate : bytes -> N -> option rsa_private;     (* GenerateKey; the bytes rand.Reader delivers, the bits *)
  rsa_size : rsa_public -> nat;                        (* Size: the bytes of the modulus *)
  rsa_encrypt : bytes -> rsa_public -> bytes -> bytes; (* EncryptOAEP with SHA-256 and no label, on messages that fit *)
  rsa_decrypt : rsa_private -> bytes -> option bytes;  (* DecryptOAEP with SHA-256 and no label *)
  rsa_write : rsa_private -> bytes;                    (* x509.MarshalPKCS1PrivateKey *)
  rsa_parse : bytes -> option rsa_private;             (* x509.ParsePKCS1PrivateKey *)
  rsa_write_public : rsa_public -> bytes;              (* x509.MarshalPKCS1PublicKey *)
  rsa_parse_public : bytes -> option rsa_public        (* x509.ParsePKCS1PublicKey *)
}.

Section Keys.
Variable R : rsa.
Notation private := (rsa_private R).
Notation public := (rsa_public R).

(* publickey.go:9-24: a PublicKey is its rsa.PublicKey.  privatekey.go:9-32 *)
Record key_pair := { kp_key : private; kp_public : public }.

(* publickey.go:27-30 Encrypt; EncryptOAEP refuses messages longer than the modulus without
   two hashes and two bytes *)
Definition pub_encrypt (rnd : bytes) (p : public) (msg : bytes) : res bytes :=
  if rsa_size R p <? length msg + 2 * 32 + 2 then Err else Ok (rsa_encrypt R rnd p msg).
(* privatekey.go:34-42 Decrypt *)
Definition priv_decrypt (k : key_pair) (cipher : bytes) : res bytes :=
  match rsa_decrypt R (kp_key k) cipher with None => Err | Some m => Ok m end.

(* publickey_builder.go:8-29 *)
Inductive pkb_op := PkbCreate | PkbWithKey (k : public) | PkbNow.
Definition pkb_step (s : option public) (o : pkb_op) : option public :=
  match o with PkbCreate => None | PkbWithKey k => Some k | PkbNow => s end.
(* publickey_builder.go:32-38 Now *)
Definition pkb_now (s : option public) : res public := match s with None => Err | Some k => Ok k end.

(* builder.go:8-30; the public key builder is only used through Create *)
Inductive kb_op := KbCreate | KbWithPK (k : private) | KbNow.
Definition kb_step (s : option private) (o : kb_op) : option private :=
  match o with KbCreate => None | KbWithPK k => Some k | KbNow => s end.
(* builder.go:33-44 Now; [other] is what the shared public key builder holds *)
Definition kb_now (other : option public) (s : option private) : res key_pair :=
  match s with
  | None => Err
  | Some k =>
    let* p := pkb_now (run pkb_step other [PkbCreate; PkbWithKey (rsa_half R k)]) in
    Ok {| kp_key := k; kp_public := p |}
  end.

(* factory.go:22-29 Create *)
Definition factory_create (bits : N) (rnd : bytes) (s : option private) : res key_pair :=
  match rsa_generate R rnd bits with
  | None => Err
  | Some k => kb_now None (run kb_step s [KbCreate; KbWithPK k])
  end.

(* adapter.go:21-28 FromBytes: the outcome and the adapter's builder afterwards (it is not
   created anew) *)
Definition key_from_bytes (s : option private) (b : bytes) : res key_pair * option private :=
  match rsa_parse R b with
  | None => (Err, s)
  | Some k => let s := run kb_step s [KbWithPK k] in (kb_now None s, s)
  end.
(* adapter.go:31-38 FromEncoded *)
Definition key_from_encoded (s : option private) (txt : bytes) : res key_pair * option private :=
  match b64_decode txt with None => (Err, s) | Some b => key_from_bytes s b end.
(* adapter.go:41-44 ToBytes, :47-50 ToEncoded *)
Definition key_to_bytes (k : key_pair) : bytes := rsa_write R (kp_key k).
Definition key_to_encoded (k : key_pair) : bytes := b64_encode (key_to_bytes k).
(* the adapter after some conversions *)
Fixpoint adapter_after (s : option private) (l : list (bool * bytes)) : option private :=
  match l with
  | [] => s
  | (encoded, b) :: l => adapter_after (snd (if encoded then key_from_encoded s b else key_from_bytes s b)) l
  end.

(* publickey_adapter.go:25-32 FromBytes; [other] is what the adapter's builder holds *)
Definition pub_from_bytes (other : option public) (b : bytes) : res public :=
  match rsa_parse_public R b with
  | None => Err
  | Some k => pkb_now (run pkb_step other [PkbCreate; PkbWithKey k])
  end.
(* publickey_adapter.go:35-42 FromEncoded *)
Definition pub_from_encoded (other : option public) (txt : bytes) : res public :=
  match b64_decode txt with None => Err | Some b => pub_from_bytes other b end.
(* publickey_adapter.go:45-48 ToBytes, :51-54 ToEncoded, :57-60 ToHash *)
Definition pub_to_bytes (p : public) : bytes := rsa_write_public R p.
Definition pub_to_encoded (p : public) : bytes := b64_encode (pub_to_bytes p).
Definition pub_to_hash (sha512 : bytes -> bytes) (p : public) : bytes := from_bytes sha512 (pub_to_bytes p).
End Keys.
Arguments kp_key {R}. Arguments kp_public {R}.
