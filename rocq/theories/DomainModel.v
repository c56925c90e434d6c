(* DomainModel.v - domain/rings, genesis, genesis/privates, transactions,
   transactions/privates, transactions/secrets, receipts, chains, peers,
   identities.  Definitions only.
   Every builder is modelled by its mutable fields, the step each method call
   makes on them (Create rebinds to a fresh builder) and Now.  A history is a list
   of method calls, [Now] included, because some Now methods change the builder.
   SIMPLIFICATIONS: a signature, ring signature or private key held by an entity
   is represented by its text form (String()), see C13; a nil interface argument
   is [None]; a time is its instant in nanoseconds since 1970. *)
From Coq Require Import Strings.String Strings.Byte.
From Verif Require Export Go HashModel.
Open Scope list_scope.

(* time.Time.UnixNano: int64 arithmetic, wraps outside 1678..2262 *)
Definition unix_nano (t : Z) : Z := ((t + 2 ^ 63) mod 2 ^ 64 - 2 ^ 63)%Z.
(* time.Time.Unix: whole seconds, rounded down *)
Definition unix (t : Z) : Z := (t / 1000000000)%Z.
(* time.Time.Before *)
Definition before (a b : Z) : bool := (a <? b)%Z.
(* strconv.Itoa(int(u)) for a uint u *)
Definition itoa_uint (u : N) : bytes := itoaZ (to_int64 u).

(* runs a history *)
Definition run {S O} (step : S -> O -> S) (init : S) (ops : list O) : S := fold_left step ops init.

Section Domain.
Variable sha512 : bytes -> bytes.
Notation hash_of := (from_multi_bytes sha512).

(* ------------- the builders of non-empty lists: rings/builder.go,
   genesis/units_builder.go, genesis/privates/builder.go, transactions/builder.go,
   transactions/privates/builder.go, transactions/secrets/builder.go,
   peers/builder.go (whose result has no hash) ------------- *)
Inductive list_op (A : Type) := LCreate | LWithList (l : option (list A)) | LNow.
Arguments LCreate {A}. Arguments LWithList {A}. Arguments LNow {A}.
(* builder.go:36-40 (in each): an empty list becomes nil *)
Definition norm_list {A} (l : option (list A)) : option (list A) :=
  match l with Some [] => None | _ => l end.
Definition list_step {A} (s : option (list A)) (o : list_op A) : option (list A) :=
  match o with LCreate => None | LWithList l => l | LNow => norm_list s end.
(* builder.go:35-57 Now; [h] is the element's Hash().  The result is (hash, list). *)
Definition list_now {A} (h : A -> bytes) (s : option (list A)) : res (bytes * list A) :=
  match norm_list s with
  | None => Err
  | Some l => Ok (hash_of (map h l), l)
  end.
(* peers/builder.go:29-40 Now *)
Definition peers_now {A} (s : option (list A)) : res (list A) :=
  match norm_list s with None => Err | Some l => Ok l end.

(* ------------- rings ------------- *)
(* rings/ring.go:5-8 *)
Record ring := { ring_hash : bytes; ring_list : list bytes }.
Inductive ring_op := RCreate | RWithList (l : option (list bytes)) | RNow.
Definition ring_step (s : option (list bytes)) (o : ring_op) : option (list bytes) :=
  match o with RCreate => None | RWithList l => l | RNow => s end.
(* rings/ring_builder.go:48-75 Now *)
Definition ring_now (min max : N) (s : option (list bytes)) : res ring :=
  match s with
  | None => Err
  | Some l =>
    let amount := N.of_nat (length l) in
    if (amount <? min)%N then Err
    else if (max <? amount)%N then Err
    else Ok {| ring_hash := hash_of l; ring_list := l |}
  end.

(* ------------- genesis ------------- *)
(* genesis/unitcontent.go:9-15 *)
Record unit_content := { uc_hash : bytes; uc_amount : N; uc_nonce : bytes; uc_activated : Z; uc_created : Z }.
(* genesis/unitcontent_builder.go:12-18 *)
Record uc_builder := { ucb_amount : N; ucb_nonce : bytes; ucb_activated : option Z; ucb_created : option Z }.
Inductive uc_op := UCreate | UWithAmount (n : N) | UWithNonce (s : bytes)
  | UActivatedOn (t : Z) | UCreatedOn (t : Z) | UNow.
(* unitcontent_builder.go:20-32 *)
Definition uc_init : uc_builder := {| ucb_amount := 0; ucb_nonce := []; ucb_activated := None; ucb_created := None |}.
(* unitcontent_builder.go:35-61 *)
Definition uc_step (s : uc_builder) (o : uc_op) : uc_builder :=
  match o with
  | UCreate => uc_init
  | UWithAmount n => {| ucb_amount := n; ucb_nonce := ucb_nonce s; ucb_activated := ucb_activated s; ucb_created := ucb_created s |}
  | UWithNonce v => {| ucb_amount := ucb_amount s; ucb_nonce := v; ucb_activated := ucb_activated s; ucb_created := ucb_created s |}
  | UActivatedOn t => {| ucb_amount := ucb_amount s; ucb_nonce := ucb_nonce s; ucb_activated := Some t; ucb_created := ucb_created s |}
  | UCreatedOn t => {| ucb_amount := ucb_amount s; ucb_nonce := ucb_nonce s; ucb_activated := ucb_activated s; ucb_created := Some t |}
  | UNow => s
  end.
(* unitcontent_builder.go:64-98 Now *)
Definition uc_now (s : uc_builder) : res unit_content :=
  if (ucb_amount s <=? 0)%N then Err
  else match ucb_nonce s with
  | [] => Err
  | _ =>
    match ucb_activated s with
    | None => Err
    | Some a =>
      match ucb_created s with
      | None => Err
      | Some c =>
        if before a c then Err
        else Ok {| uc_hash := hash_of [itoa_uint (ucb_amount s); ucb_nonce s; itoaZ (unix_nano a); itoaZ (unix_nano c)];
                   uc_amount := ucb_amount s; uc_nonce := ucb_nonce s; uc_activated := a; uc_created := c |}
      end
    end
  end.

(* genesis/unit.go *)
Record gunit := { gu_hash : bytes; gu_content : unit_content; gu_owner : ring }.
Record gu_builder := { gub_content : option unit_content; gub_owner : option ring }.
Inductive gu_op := GUCreate | GUWithContent (c : option unit_content) | GUWithOwner (r : option ring) | GUNow.
Definition gu_init : gu_builder := {| gub_content := None; gub_owner := None |}.
(* genesis/unit_builder.go:29-45 *)
Definition gu_step (s : gu_builder) (o : gu_op) : gu_builder :=
  match o with
  | GUCreate => gu_init
  | GUWithContent c => {| gub_content := c; gub_owner := gub_owner s |}
  | GUWithOwner r => {| gub_content := gub_content s; gub_owner := r |}
  | GUNow => s
  end.
(* genesis/unit_builder.go:48-67 Now *)
Definition gu_now (s : gu_builder) : res gunit :=
  match gub_content s, gub_owner s with
  | Some c, Some o => Ok {| gu_hash := hash_of [uc_hash c; ring_hash o]; gu_content := c; gu_owner := o |}
  | _, _ => Err
  end.
(* genesis/units.go, units_builder.go: (hash, list) of [list_now] *)
Definition gunits := (bytes * list gunit)%type.

(* genesis/genesis.go *)
Record genesis := { g_hash : bytes; g_units : gunits; g_fees : N; g_created : Z }.
Record g_builder := { gb_units : option gunits; gb_fees : option N; gb_created : option Z }.
Inductive g_op := GCreate | GWithUnits (u : option gunits) | GWithFees (n : N) | GCreatedOn (t : Z) | GNow.
Definition g_init : g_builder := {| gb_units := None; gb_fees := None; gb_created := None |}.
(* genesis/builder.go:33-53 *)
Definition g_step (s : g_builder) (o : g_op) : g_builder :=
  match o with
  | GCreate => g_init
  | GWithUnits u => {| gb_units := u; gb_fees := gb_fees s; gb_created := gb_created s |}
  | GWithFees n => {| gb_units := gb_units s; gb_fees := Some n; gb_created := gb_created s |}
  | GCreatedOn t => {| gb_units := gb_units s; gb_fees := gb_fees s; gb_created := Some t |}
  | GNow => s
  end.
(* genesis/builder.go:56-89 Now *)
Definition g_now (s : g_builder) : res genesis :=
  match gb_units s with
  | None => Err
  | Some u =>
    match gb_fees s with
    | None => Err
    | Some f =>
      match gb_created s with
      | None => Err
      | Some t =>
        if existsb (fun x => before (uc_created (gu_content x)) t) (snd u) then Err
        else Ok {| g_hash := hash_of [itoa_uint f; fst u; itoaZ (unix_nano t)];
                   g_units := u; g_fees := f; g_created := t |}
      end
    end
  end.

(* genesis/privates/private.go, private_builder.go; a private key is its text *)
Record gprivate := { gp_hash : bytes; gp_unit : gunit; gp_pk : bytes }.
Record gp_builder := { gpb_unit : option gunit; gpb_pk : option bytes }.
Inductive gp_op := GPCreate | GPWithUnit (u : option gunit) | GPWithPrivateKey (k : option bytes) | GPNow.
Definition gp_init : gp_builder := {| gpb_unit := None; gpb_pk := None |}.
Definition gp_step (s : gp_builder) (o : gp_op) : gp_builder :=
  match o with
  | GPCreate => gp_init
  | GPWithUnit u => {| gpb_unit := u; gpb_pk := gpb_pk s |}
  | GPWithPrivateKey k => {| gpb_unit := gpb_unit s; gpb_pk := k |}
  | GPNow => s
  end.
(* genesis/privates/private_builder.go:47-65 Now *)
Definition gp_now (s : gp_builder) : res gprivate :=
  match gpb_unit s, gpb_pk s with
  | Some u, Some k => Ok {| gp_hash := hash_of [gu_hash u; k]; gp_unit := u; gp_pk := k |}
  | _, _ => Err
  end.

(* ------------- transactions ------------- *)
(* transactions/transaction.go, content.go, origin.go *)
Inductive transaction : Type :=
| Transaction (hash : bytes) (content : tcontent) (auth : bytes)
with tcontent : Type :=
| TContent (hash : bytes) (owner : ring) (amount : bytes) (origin : torigin) (external : bytes) (created : Z)
with torigin : Type :=
| OGenesis (u : gunit)
| OTransaction (t : transaction).
Definition t_hash (t : transaction) : bytes := match t with Transaction h _ _ => h end.
Definition t_content (t : transaction) : tcontent := match t with Transaction _ c _ => c end.
Definition t_auth (t : transaction) : bytes := match t with Transaction _ _ a => a end.
Definition tc_hash (c : tcontent) : bytes := match c with TContent h _ _ _ _ _ => h end.
(* content.go:44-67 Owner, Amount, Origin, External, CreatedOn *)
Definition tc_owner (c : tcontent) : ring := match c with TContent _ w _ _ _ _ => w end.
Definition tc_amount (c : tcontent) : bytes := match c with TContent _ _ a _ _ _ => a end.
Definition tc_origin (c : tcontent) : torigin := match c with TContent _ _ _ o _ _ => o end.
Definition tc_external (c : tcontent) : bytes := match c with TContent _ _ _ _ e _ => e end.
Definition tc_created (c : tcontent) : Z := match c with TContent _ _ _ _ _ t => t end.
(* origin.go:38-44 Hash *)
Definition o_hash (o : torigin) : bytes :=
  match o with OGenesis u => gu_hash u | OTransaction t => t_hash t end.

(* transactions/origin_builder.go:9-38 *)
Record o_builder := { ob_genesis : option gunit; ob_trx : option transaction }.
Inductive o_op := OCreate | OWithGenesis (u : option gunit) | OWithTransaction (t : option transaction) | ONow.
Definition o_init : o_builder := {| ob_genesis := None; ob_trx := None |}.
(* transactions/origin_builder.go:24-38 *)
Definition o_step (s : o_builder) (o : o_op) : o_builder :=
  match o with
  | OCreate => o_init
  | OWithGenesis u => {| ob_genesis := u; ob_trx := ob_trx s |}
  | OWithTransaction t => {| ob_genesis := ob_genesis s; ob_trx := t |}
  | ONow => s
  end.
(* transactions/origin_builder.go:41-51 Now: the genesis unit takes precedence *)
Definition o_now (s : o_builder) : res torigin :=
  match ob_genesis s with
  | Some u => Ok (OGenesis u)
  | None => match ob_trx s with Some t => Ok (OTransaction t) | None => Err end
  end.

(* transactions/content_builder.go:12-69 *)
Record tc_builder := { tcb_owner : option ring; tcb_amount : option bytes; tcb_origin : option torigin;
  tcb_external : option bytes; tcb_created : option Z }.
Inductive tc_op := TCCreate | TCWithOwner (r : option ring) | TCWithAmount (h : bytes)
  | TCWithOrigin (o : option torigin) | TCWithExternal (h : bytes) | TCCreatedOn (t : Z) | TCNow.
Definition tc_init : tc_builder :=
  {| tcb_owner := None; tcb_amount := None; tcb_origin := None; tcb_external := None; tcb_created := None |}.
(* transactions/content_builder.go:37-69 *)
Definition tc_step (s : tc_builder) (o : tc_op) : tc_builder :=
  match o with
  | TCCreate => tc_init
  | TCWithOwner r => {| tcb_owner := r; tcb_amount := tcb_amount s; tcb_origin := tcb_origin s; tcb_external := tcb_external s; tcb_created := tcb_created s |}
  | TCWithAmount h => {| tcb_owner := tcb_owner s; tcb_amount := Some h; tcb_origin := tcb_origin s; tcb_external := tcb_external s; tcb_created := tcb_created s |}
  | TCWithOrigin x => {| tcb_owner := tcb_owner s; tcb_amount := tcb_amount s; tcb_origin := x; tcb_external := tcb_external s; tcb_created := tcb_created s |}
  | TCWithExternal h => {| tcb_owner := tcb_owner s; tcb_amount := tcb_amount s; tcb_origin := tcb_origin s; tcb_external := Some h; tcb_created := tcb_created s |}
  | TCCreatedOn t => {| tcb_owner := tcb_owner s; tcb_amount := tcb_amount s; tcb_origin := tcb_origin s; tcb_external := tcb_external s; tcb_created := Some t |}
  | TCNow => s
  end.
(* transactions/content_builder.go:72-106 Now *)
Definition tc_now (s : tc_builder) : res tcontent :=
  match tcb_owner s, tcb_amount s, tcb_origin s, tcb_external s, tcb_created s with
  | Some w, Some a, Some o, Some e, Some t =>
    Ok (TContent (hash_of [ring_hash w; a; o_hash o; e; itoaZ (unix t)]) w a o e t)
  | _, _, _, _, _ => Err
  end.

(* transactions/transaction_builder.go:10-43 *)
Record t_builder := { tb_content : option tcontent; tb_auth : option bytes }.
Inductive t_op := TCreate | TWithContent (c : option tcontent) | TWithAuthorization (a : option bytes) | TNow.
Definition t_init : t_builder := {| tb_content := None; tb_auth := None |}.
(* transactions/transaction_builder.go:29-43 *)
Definition t_step (s : t_builder) (o : t_op) : t_builder :=
  match o with
  | TCreate => t_init
  | TWithContent c => {| tb_content := c; tb_auth := tb_auth s |}
  | TWithAuthorization a => {| tb_content := tb_content s; tb_auth := a |}
  | TNow => s
  end.
(* transactions/transaction_builder.go:46-65 Now *)
Definition t_now (s : t_builder) : res transaction :=
  match tb_content s, tb_auth s with
  | Some c, Some a => Ok (Transaction (hash_of [tc_hash c; a]) c a)
  | _, _ => Err
  end.
(* transactions/transactions.go, builder.go: (hash, list) of [list_now] *)
Definition transactions := (bytes * list transaction)%type.

(* transactions/secrets/secret.go, secrets.go *)
Inductive secret : Type :=
| Secret (hash : bytes) (amount : N) (nonce : bytes) (public : transaction)
    (origin : option secret) (sides : option (bytes * list secret)).
Definition secrets := (bytes * list secret)%type.
Definition s_hash (s : secret) : bytes := match s with Secret h _ _ _ _ _ => h end.
(* secrets/secret.go Amount, Nonce, Public, Origin, Sides *)
Definition s_amount (s : secret) : N := match s with Secret _ n _ _ _ _ => n end.
Definition s_nonce (s : secret) : bytes := match s with Secret _ _ v _ _ _ => v end.
Definition s_public (s : secret) : transaction := match s with Secret _ _ _ p _ _ => p end.
Definition s_origin (s : secret) : option secret := match s with Secret _ _ _ _ o _ => o end.
Definition s_sides (s : secret) : option secrets := match s with Secret _ _ _ _ _ x => x end.
Record s_builder := { sb_amount : N; sb_nonce : bytes; sb_public : option transaction;
  sb_origin : option secret; sb_sides : option secrets }.
Inductive s_op := SCreate | SWithAmount (n : N) | SWithNonce (v : bytes) | SWithPublic (t : option transaction)
  | SWithOrigin (o : option secret) | SWithSides (x : option secrets) | SNow.
Definition s_init : s_builder :=
  {| sb_amount := 0; sb_nonce := []; sb_public := None; sb_origin := None; sb_sides := None |}.
(* transactions/secrets/secret_builder.go:36-68 *)
Definition s_step (s : s_builder) (o : s_op) : s_builder :=
  match o with
  | SCreate => s_init
  | SWithAmount n => {| sb_amount := n; sb_nonce := sb_nonce s; sb_public := sb_public s; sb_origin := sb_origin s; sb_sides := sb_sides s |}
  | SWithNonce v => {| sb_amount := sb_amount s; sb_nonce := v; sb_public := sb_public s; sb_origin := sb_origin s; sb_sides := sb_sides s |}
  | SWithPublic t => {| sb_amount := sb_amount s; sb_nonce := sb_nonce s; sb_public := t; sb_origin := sb_origin s; sb_sides := sb_sides s |}
  | SWithOrigin x => {| sb_amount := sb_amount s; sb_nonce := sb_nonce s; sb_public := sb_public s; sb_origin := x; sb_sides := sb_sides s |}
  | SWithSides x => {| sb_amount := sb_amount s; sb_nonce := sb_nonce s; sb_public := sb_public s; sb_origin := sb_origin s; sb_sides := x |}
  | SNow => s
  end.
Definition opt_part {A} (h : A -> bytes) (o : option A) : list bytes :=
  match o with Some x => [h x] | None => [] end.
(* transactions/secrets/secret_builder.go:71-116 Now *)
Definition s_now (s : s_builder) : res secret :=
  if (sb_amount s <=? 0)%N then Err
  else match sb_nonce s with
  | [] => Err
  | _ =>
    match sb_public s with
    | None => Err
    | Some p =>
      Ok (Secret (hash_of ([t_hash p; itoa_uint (sb_amount s); sb_nonce s]
                   ++ opt_part s_hash (sb_origin s) ++ opt_part fst (sb_sides s)))
            (sb_amount s) (sb_nonce s) p (sb_origin s) (sb_sides s))
    end
  end.

(* receipts/receipt.go, builder.go; a signature is its text *)
Record receipt := { rc_hash : bytes; rc_secret : secret; rc_sig : bytes }.
Record rc_builder := { rcb_secret : option secret; rcb_sig : option bytes }.
Inductive rc_op := RCCreate | RCWithSecret (s : option secret) | RCWithSignature (g : option bytes) | RCNow.
Definition rc_init : rc_builder := {| rcb_secret := None; rcb_sig := None |}.
Definition rc_step (s : rc_builder) (o : rc_op) : rc_builder :=
  match o with
  | RCCreate => rc_init
  | RCWithSecret x => {| rcb_secret := x; rcb_sig := rcb_sig s |}
  | RCWithSignature g => {| rcb_secret := rcb_secret s; rcb_sig := g |}
  | RCNow => s
  end.
(* receipts/builder.go:47-62 Now: the hash of no parts *)
Definition rc_now (s : rc_builder) : res receipt :=
  match rcb_secret s, rcb_sig s with
  | Some x, Some g => Ok {| rc_hash := hash_of []; rc_secret := x; rc_sig := g |}
  | _, _ => Err
  end.

(* transactions/privates/private.go, private_builder.go *)
Record tprivate := { tp_hash : bytes; tp_pk : bytes; tp_receipt : receipt }.
Record tp_builder := { tpb_pk : option bytes; tpb_receipt : option receipt }.
Inductive tp_op := TPCreate | TPWithPrivateKey (k : option bytes) | TPWithReceipt (r : option receipt) | TPNow.
Definition tp_init : tp_builder := {| tpb_pk := None; tpb_receipt := None |}.
Definition tp_step (s : tp_builder) (o : tp_op) : tp_builder :=
  match o with
  | TPCreate => tp_init
  | TPWithPrivateKey k => {| tpb_pk := k; tpb_receipt := tpb_receipt s |}
  | TPWithReceipt r => {| tpb_pk := tpb_pk s; tpb_receipt := r |}
  | TPNow => s
  end.
(* transactions/privates/private_builder.go:47-62 Now: the hash of no parts *)
Definition tp_now (s : tp_builder) : res tprivate :=
  match tpb_pk s, tpb_receipt s with
  | Some k, Some r => Ok {| tp_hash := hash_of []; tp_pk := k; tp_receipt := r |}
  | _, _ => Err
  end.

(* ------------- chains ------------- *)
(* chains/block.go *)
Record block := { b_hash : bytes; b_height : N; b_fees : ring; b_trx : transactions;
  b_created : Z; b_previous : option bytes }.
Record b_builder := { bb_height : N; bb_fees : option ring; bb_trx : option transactions;
  bb_created : option Z; bb_previous : option bytes }.
Inductive b_op := BCreate | BWithHeight (n : N) | BWithFees (r : option ring)
  | BWithTransactions (t : option transactions) | BWithPrevious (h : bytes) | BCreatedOn (t : Z) | BNow.
Definition b_init : b_builder :=
  {| bb_height := 0; bb_fees := None; bb_trx := None; bb_created := None; bb_previous := None |}.
(* chains/block_builder.go:38-70 *)
Definition b_step (s : b_builder) (o : b_op) : b_builder :=
  match o with
  | BCreate => b_init
  | BWithHeight n => {| bb_height := n; bb_fees := bb_fees s; bb_trx := bb_trx s; bb_created := bb_created s; bb_previous := bb_previous s |}
  | BWithFees r => {| bb_height := bb_height s; bb_fees := r; bb_trx := bb_trx s; bb_created := bb_created s; bb_previous := bb_previous s |}
  | BWithTransactions t => {| bb_height := bb_height s; bb_fees := bb_fees s; bb_trx := t; bb_created := bb_created s; bb_previous := bb_previous s |}
  | BWithPrevious h => {| bb_height := bb_height s; bb_fees := bb_fees s; bb_trx := bb_trx s; bb_created := bb_created s; bb_previous := Some h |}
  | BCreatedOn t => {| bb_height := bb_height s; bb_fees := bb_fees s; bb_trx := bb_trx s; bb_created := Some t; bb_previous := bb_previous s |}
  | BNow => s
  end.
(* chains/block_builder.go:73-111 Now *)
Definition b_now (s : b_builder) : res block :=
  if (bb_height s =? 0)%N then Err
  else match bb_fees s, bb_trx s, bb_created s with
  | Some f, Some t, Some c =>
    Ok {| b_hash := hash_of ([itoa_uint (bb_height s); ring_hash f; fst t; itoaZ (unix c)]
                      ++ opt_part (fun h => h) (bb_previous s));
          b_height := bb_height s; b_fees := f; b_trx := t; b_created := c; b_previous := bb_previous s |}
  | _, _, _ => Err
  end.

(* chains/chain.go; a uuid is its 16 bytes *)
Record chain := { c_id : bytes; c_hash : bytes; c_root : bytes; c_created : Z; c_head : option block }.
Record c_builder := { cb_id : option bytes; cb_root : option bytes; cb_created : option Z; cb_head : option block }.
Inductive c_op := CCreate | CWithID (i : bytes) | CWithRoot (h : bytes) | CWithHead (b : option block)
  | CCreatedOn (t : Z) | CNow.
Definition c_init : c_builder := {| cb_id := None; cb_root := None; cb_created := None; cb_head := None |}.
(* chains/builder.go:35-61 *)
Definition c_step (s : c_builder) (o : c_op) : c_builder :=
  match o with
  | CCreate => c_init
  | CWithID i => {| cb_id := Some i; cb_root := cb_root s; cb_created := cb_created s; cb_head := cb_head s |}
  | CWithRoot h => {| cb_id := cb_id s; cb_root := Some h; cb_created := cb_created s; cb_head := cb_head s |}
  | CWithHead b => {| cb_id := cb_id s; cb_root := cb_root s; cb_created := cb_created s; cb_head := b |}
  | CCreatedOn t => {| cb_id := cb_id s; cb_root := cb_root s; cb_created := Some t; cb_head := cb_head s |}
  | CNow => s
  end.
(* chains/builder.go:64-97 Now *)
Definition c_now (s : c_builder) : res chain :=
  match cb_id s, cb_root s, cb_created s with
  | Some i, Some r, Some t =>
    Ok {| c_id := i; c_hash := hash_of ([i; r; itoaZ (unix t)] ++ opt_part b_hash (cb_head s));
          c_root := r; c_created := t; c_head := cb_head s |}
  | _, _, _ => Err
  end.

(* ------------- identities ------------- *)
(* identities/transactions.go, transactions_builder.go *)
Definition tprivates := (bytes * list tprivate)%type.
Record id_trx := { it_outgoing : option tprivates; it_incoming : option secrets }.
Inductive it_op := ITCreate | ITWithOutgoing (o : option tprivates) | ITWithIncoming (i : option secrets) | ITNow.
Definition it_init : id_trx := {| it_outgoing := None; it_incoming := None |}.
Definition it_step (s : id_trx) (o : it_op) : id_trx :=
  match o with
  | ITCreate => it_init
  | ITWithOutgoing x => {| it_outgoing := x; it_incoming := it_incoming s |}
  | ITWithIncoming x => {| it_outgoing := it_outgoing s; it_incoming := x |}
  | ITNow => s
  end.
(* identities/transactions_builder.go:41-55 Now: never fails *)
Definition it_now (s : id_trx) : res id_trx := Ok s.
(* identities/identity.go, builder.go *)
Record identity := { id_name : bytes; id_transactions : id_trx; id_genesis : option tprivates }.
Record id_builder := { idb_name : bytes; idb_trx : option id_trx; idb_genesis : option tprivates }.
Inductive id_op := IDCreate | IDWithName (n : bytes) | IDWithTransactions (t : option id_trx)
  | IDWithGenesis (g : option tprivates) | IDNow.
Definition id_init : id_builder := {| idb_name := []; idb_trx := None; idb_genesis := None |}.
Definition id_step (s : id_builder) (o : id_op) : id_builder :=
  match o with
  | IDCreate => id_init
  | IDWithName n => {| idb_name := n; idb_trx := idb_trx s; idb_genesis := idb_genesis s |}
  | IDWithTransactions t => {| idb_name := idb_name s; idb_trx := t; idb_genesis := idb_genesis s |}
  | IDWithGenesis g => {| idb_name := idb_name s; idb_trx := idb_trx s; idb_genesis := g |}
  | IDNow => s
  end.
(* identities/builder.go:49-63 Now *)
Definition id_now (s : id_builder) : res identity :=
  match idb_name s with
  | [] => Err
  | _ =>
    match idb_trx s with
    | None => Err
    | Some t => Ok {| id_name := idb_name s; id_transactions := t; id_genesis := idb_genesis s |}
    end
  end.
End Domain.

Arguments LCreate {A}. Arguments LWithList {A}. Arguments LNow {A}.

(* ------------- peers ------------- *)
(* peers/peer.go *)
Record peer := { p_host : bytes; p_port : N; p_delim : bytes }.
(* peers/peer.go:35-38 String *)
Definition peer_string (p : peer) : bytes := p_host p ++ p_delim p ++ itoa (p_port p).
Record p_builder := { pb_delim : bytes; pb_host : bytes; pb_port : option N; pb_str : bytes }.
Inductive p_op := PCreate | PWithHost (h : bytes) | PWithPort (n : N) | PWithString (s : bytes) | PNow.
Definition p_init (delim : bytes) : p_builder :=
  {| pb_delim := delim; pb_host := []; pb_port := None; pb_str := [] |}.
(* peers/peer_builder.go:57-71: the text, if any, is parsed into host and port,
   which are stored in the builder.  None: an error is returned.
   An empty delimiter makes strings.Split cut into UTF-8 characters: not modelled. *)
Definition p_parse (s : p_builder) : option p_builder :=
  match pb_str s with
  | [] => Some s
  | _ =>
    match strsplit (pb_delim s) (pb_str s) with
    | [h; p] =>
      match atoi p with
      | None => None
      | Some z => Some {| pb_delim := pb_delim s; pb_host := h; pb_port := Some (to_uint64 z); pb_str := pb_str s |}
      end
    | _ => None
    end
  end.
(* peers/peer_builder.go:31-53; Now keeps the parsed host and port *)
Definition p_step (s : p_builder) (o : p_op) : p_builder :=
  match o with
  | PCreate => p_init (pb_delim s)
  | PWithHost h => {| pb_delim := pb_delim s; pb_host := h; pb_port := pb_port s; pb_str := pb_str s |}
  | PWithPort n => {| pb_delim := pb_delim s; pb_host := pb_host s; pb_port := Some n; pb_str := pb_str s |}
  | PWithString x => {| pb_delim := pb_delim s; pb_host := pb_host s; pb_port := pb_port s; pb_str := x |}
  | PNow => match p_parse s with Some s' => s' | None => s end
  end.
(* peers/peer_builder.go:56-83 Now *)
Definition p_now (s : p_builder) : res peer :=
  match p_parse s with
  | None => Err
  | Some s =>
    match pb_host s with
    | [] => Err
    | _ =>
      match pb_port s with
      | None => Err
      | Some n => Ok {| p_host := pb_host s; p_port := n; p_delim := pb_delim s |}
      end
    end
  end.
