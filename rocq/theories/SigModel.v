(* SigModel.v - domain/cryptography/keys/signature.  Definitions only.
   The curve (kyber edwards25519, an external library) is a parameter: the record
   [suite] lists exactly the kyber operations the package calls.
   SIMPLIFICATION: a kyber scalar is 32 raw bytes; only reduced scalars (one per
   residue) are modelled, so Scalar.Equal is equality of residues.  Points are
   compared by their canonical encoding, so Point.Equal is equality of points. *)
From Coq Require Import Strings.String Strings.Byte.
From Verif Require Export Go HashModel Base64.

Record suite := {
  scalar : Type;
  point : Type;
  ssub : scalar -> scalar -> scalar;        (* Scalar.Sub *)
  smul : scalar -> scalar -> scalar;        (* Scalar.Mul *)
  sdiv : scalar -> scalar -> scalar;        (* Scalar.Div *)
  sone : scalar;                            (* Scalar.One *)
  seqb : scalar -> scalar -> bool;          (* Scalar.Equal *)
  base : point;                             (* Point.Base *)
  pmul : scalar -> point -> point;          (* Point.Mul *)
  padd : point -> point -> point;           (* Point.Add *)
  psub : point -> point -> point;           (* Point.Sub *)
  peqb : point -> point -> bool;            (* Point.Equal *)
  hash_scalar : bytes -> scalar;            (* Scalar.SetBytes(sha256(msg)) *)
  senc : scalar -> bytes;                   (* the bytes Scalar.String prints in hex *)
  sdec : bytes -> scalar;                   (* Scalar.UnmarshalBinary on 32 bytes (never fails) *)
  penc : point -> bytes;                    (* the bytes Point.String prints in hex *)
  pdec : bytes -> option point              (* Point.UnmarshalBinary *)
}.

(* slice[i] = v *)
Fixpoint upd {A} (l : list A) (i : nat) (v : A) : list A :=
  match l, i with
  | [], _ => []
  | _ :: r, O => v :: r
  | x :: r, S k => x :: upd r k v
  end.

Section Signature.
Variable C : suite.
Notation scalar := (scalar C).
Notation point := (point C).

(* kyber scalar.go String / point.go String: hex of the encoding *)
Definition sstr (s : scalar) : bytes := hex_encode (senc C s).
Definition pstr (p : point) : bytes := hex_encode (penc C p).

(* helper.go:10-16 createHash *)
Definition create_hash (msg : bytes) : scalar := hash_scalar C msg.
(* helper.go:18-20 genK *)
Definition gen_k (x : scalar) (msg : bytes) : scalar := create_hash (msg ++ sstr x).
(* helper.go:22-36 fromStringToScalar: hex, then the first 32 bytes (the rest is
   ignored); an error when there are fewer *)
Definition from_string_to_scalar (str : bytes) : res scalar :=
  match hex_decode str with
  | None => Err
  | Some b => if length b <? 32 then Err else Ok (sdec C (firstn 32 b))
  end.
(* helper.go:38-51 fromStringToPoint *)
Definition from_string_to_point (str : bytes) : res point :=
  match hex_decode str with
  | None => Err
  | Some b => match pdec C b with Some p => Ok p | None => Err end
  end.

(* sdk.go:28-29 *)
Definition delimiter : bytes := bs "#".
Definition element_delimiter : bytes := bs "|".

(* publickey.go:7-32: a PublicKey is its point.  privatekey.go:10-20: a
   PrivateKey is its scalar. *)

(* privatekey.go:23-27 PublicKey *)
Definition public_key (x : scalar) : point := pmul C x (base C).

(* privatekey.go:107-109 String; privatekey_adapter.go:12-19 ToPrivateKey;
   publickey_adapter.go:12-19 ToPublicKey *)
Definition private_key_string (x : scalar) : bytes := sstr x.
Definition to_private_key (s : bytes) : res scalar := from_string_to_scalar s.
Definition to_public_key (s : bytes) : res point := from_string_to_point s.

(* signature.go:13-16 *)
Record signature := { sig_r : point; sig_s : scalar }.

(* signature.go:28-40 PublicKey *)
Definition sig_public_key (sg : signature) (msg : bytes) : point :=
  let e := create_hash (msg ++ pstr (sig_r sg)) in
  let y := psub C (sig_r sg) (pmul C (sig_s sg) (base C)) in
  pmul C (sdiv C (sone C) e) y.

(* signature.go:43-65 Verify; [rnd] is strconv.Itoa(rand.Int()) *)
Definition sig_verify (rnd : bytes) (sg : signature) : bool :=
  let p := sig_public_key sg rnd in
  let e := create_hash (rnd ++ pstr (sig_r sg)) in
  let sgv := psub C (sig_r sg) (pmul C e p) in
  peqb C (pmul C (sig_s sg) (base C)) sgv.

(* signature.go:18-25 createSignature *)
Definition create_signature (rnd : bytes) (r : point) (s : scalar) : res signature :=
  let out := {| sig_r := r; sig_s := s |} in
  if negb (sig_verify rnd out) then Err else Ok out.

(* privatekey.go:85-104 Sign *)
Definition sign (rnd : bytes) (x : scalar) (msg : bytes) : res signature :=
  let k := gen_k x msg in
  let r := pmul C k (base C) in
  let e := create_hash (msg ++ pstr r) in
  let s := ssub C k (smul C e x) in
  create_signature rnd r s.

(* signature.go:68-71 String *)
Definition sig_string (sg : signature) : bytes :=
  b64_encode (pstr (sig_r sg) ++ delimiter ++ sstr (sig_s sg)).

(* adapter.go:19-43 ToSignature *)
Definition to_signature (rnd : bytes) (txt : bytes) : res signature :=
  match b64_decode txt with
  | None => Err
  | Some decoded =>
    match strsplit delimiter decoded with
    | [a; b] =>
      let* p := from_string_to_point a in
      let* s := from_string_to_scalar b in
      create_signature rnd p s
    | _ => Err
    end
  end.

(* ringsignature.go:10-14.  An element of [rs_s] is a possibly nil interface. *)
Record ring_signature := {
  rs_ring : list point; rs_s : list (option scalar); rs_e : scalar }.

(* privatekey.go:31-40 retrieveSignerIndexFn; None is -1 *)
Fixpoint signer_index_from (i : nat) (ring : list point) (pk : point) : option nat :=
  match ring with
  | [] => None
  | p :: r => if peqb C p pk then Some i else signer_index_from (S i) r pk
  end.

(* privatekey.go:66-75 the loop, from index [i]; [fuel] bounds the iterations *)
Fixpoint ring_loop (fuel : nat) (x : scalar) (msg : bytes) (ring : list point)
    (signer i : nat) (es ss : list (option scalar))
    : res (list (option scalar) * list (option scalar)) :=
  if i =? signer then Ok (es, ss)
  else
    match fuel with
    | O => NoFuel
    | S fuel =>
      let r := length ring in
      let si := gen_k x (msg ++ itoa (N.of_nat i)) in
      let ss := upd ss i (Some si) in
      match nth_error es i, nth_error ring i with
      | Some (Some ei), Some pi =>
        let h := create_hash (msg ++ pstr (padd C (pmul C si (base C)) (pmul C ei pi))) in
        ring_loop fuel x msg ring signer ((i + 1) mod r) (upd es ((i + 1) mod r) (Some h)) ss
      | _, _ => Panic
      end
    end.

(* privatekey.go:30-82 RingSign *)
Definition ring_sign (x : scalar) (msg : bytes) (ring : list point) : res ring_signature :=
  match signer_index_from 0 ring (public_key x) with
  | None => Err
  | Some signer =>
    let k := gen_k x msg in
    let r := length ring in
    let begin := (signer + 1) mod r in
    let es := upd (repeat None r) begin (Some (create_hash (msg ++ pstr (pmul C k (base C))))) in
    let* (es, ss) := ring_loop r x msg ring signer begin es (repeat None r) in
    match nth_error es signer, nth_error es 0 with
    | Some (Some e_signer), Some (Some e0) =>
      let ss := upd ss signer (Some (ssub C k (smul C e_signer x))) in
      Ok {| rs_ring := ring; rs_s := ss; rs_e := e0 |}
    | _, _ => Panic
    end
  end.

(* ringsignature.go:41-46 the loop; a missing (index out of range) or nil scalar panics *)
Fixpoint ring_verify_loop (msg : bytes) (ring : list point) (s : list (option scalar))
    (e : scalar) : res scalar :=
  match ring with
  | [] => Ok e
  | p :: ring =>
    match s with
    | Some si :: s =>
      let added := padd C (pmul C si (base C)) (pmul C e p) in
      ring_verify_loop msg ring s (create_hash (msg ++ pstr added))
    | _ => Panic
    end
  end.

(* ringsignature.go:32-49 Verify *)
Definition ring_verify (rs : ring_signature) (msg : bytes) : res bool :=
  let* e := ring_verify_loop msg (rs_ring rs) (rs_s rs) (rs_e rs) in
  Ok (seqb C (rs_e rs) e).

(* ringsignature.go:58-61: oneScalar.String() on a nil scalar panics *)
Fixpoint scalars_string (l : list (option scalar)) : res bytes :=
  match l with
  | [] => Ok []
  | None :: _ => Panic
  | Some s :: r => let* t := scalars_string r in Ok (sstr s ++ element_delimiter ++ t)
  end.
(* ringsignature.go:52-65 String *)
Definition ring_string (rs : ring_signature) : res bytes :=
  let ring_str := fold_left (fun acc p => acc ++ pstr p ++ element_delimiter) (rs_ring rs) [] in
  let* s_str := scalars_string (rs_s rs) in
  Ok (b64_encode (ring_str ++ delimiter ++ s_str ++ delimiter ++ sstr (rs_e rs))).

(* ringsignature_adapter.go:40-52 and 56-67: empty elements are skipped *)
Definition non_empty (l : list bytes) : list bytes :=
  filter (fun s => negb (match s with [] => true | _ => false end)) l.

(* ringsignature_adapter.go:26-75 ToSignature *)
Definition to_ring_signature (txt : bytes) : res ring_signature :=
  match b64_decode txt with
  | None => Err
  | Some decoded =>
    match strsplit delimiter decoded with
    | [a; b; c] =>
      let* ring := mapM from_string_to_point (non_empty (strsplit element_delimiter a)) in
      let* ss := mapM from_string_to_scalar (non_empty (strsplit element_delimiter b)) in
      let* e := from_string_to_scalar c in
      Ok {| rs_ring := ring; rs_s := map Some ss; rs_e := e |}
    | _ => Err
    end
  end.

(* ringsignature_adapter.go:89-100 *)
Fixpoint compare_hashes (sha512 : bytes -> bytes) (ring : list point) (hashes : list bytes) : res bool :=
  match ring with
  | [] => Ok true
  | p :: ring =>
    let* h := from_string sha512 (pstr p) in
    match hashes with
    | [] => Panic
    | g :: hashes => if negb (hash_compare h g) then Err else compare_hashes sha512 ring hashes
    end
  end.
(* ringsignature_adapter.go:78-103 ToVerification: (true, nil) is [Ok true],
   (false, err) is [Err] *)
Definition to_verification (sha512 : bytes -> bytes) (rs : ring_signature) (msg : bytes)
    (hashes : list bytes) : res bool :=
  let* ok := ring_verify rs msg in
  if negb ok then Err
  else if negb (length hashes =? length (rs_ring rs)) then Err
  else compare_hashes sha512 (rs_ring rs) hashes.
End Signature.

Arguments sig_r {C}.
Arguments sig_s {C}.
Arguments rs_ring {C}.
Arguments rs_s {C}.
Arguments rs_e {C}.
