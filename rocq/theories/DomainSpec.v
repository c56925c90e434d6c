(* DomainSpec.v - vocabulary of the entity builder properties.
   For a history [ops] of calls on a builder, [last_x ops] is the argument of the
   last call of that With... method since the last Create (None: no such call;
   a nil interface argument counts as none). *)
From Coq Require Import Strings.String Strings.Byte.
From Verif Require Import Go HashModel DomainModel.

(* [arg o] is None when o is another method's call, Some a when it is a call with
   argument a (a itself None for nil) *)
Definition last_call {O V} (is_create : O -> bool) (arg : O -> option (option V)) (ops : list O) : option V :=
  fold_left (fun acc o => if is_create o then None
                          else match arg o with Some v => v | None => acc end) ops None.

(* uc_op *)
Definition uc_is_create (o : uc_op) : bool := match o with UCreate => true | _ => false end.
Definition last_u_amount : list uc_op -> option N :=
  last_call uc_is_create (fun o => match o with UWithAmount v => Some (Some v) | _ => None end).
Definition last_u_nonce : list uc_op -> option bytes :=
  last_call uc_is_create (fun o => match o with UWithNonce v => Some (Some v) | _ => None end).
Definition last_u_activated : list uc_op -> option Z :=
  last_call uc_is_create (fun o => match o with UActivatedOn v => Some (Some v) | _ => None end).
Definition last_u_created : list uc_op -> option Z :=
  last_call uc_is_create (fun o => match o with UCreatedOn v => Some (Some v) | _ => None end).
(* gu_op *)
Definition gu_is_create (o : gu_op) : bool := match o with GUCreate => true | _ => false end.
Definition last_gu_content_of : list gu_op -> option unit_content :=
  last_call gu_is_create (fun o => match o with GUWithContent v => Some (v) | _ => None end).
Definition last_gu_owner_of : list gu_op -> option ring :=
  last_call gu_is_create (fun o => match o with GUWithOwner v => Some (v) | _ => None end).
(* g_op *)
Definition g_is_create (o : g_op) : bool := match o with GCreate => true | _ => false end.
Definition last_g_units_of : list g_op -> option gunits :=
  last_call g_is_create (fun o => match o with GWithUnits v => Some (v) | _ => None end).
Definition last_g_fees_of : list g_op -> option N :=
  last_call g_is_create (fun o => match o with GWithFees v => Some (Some v) | _ => None end).
Definition last_g_created_of : list g_op -> option Z :=
  last_call g_is_create (fun o => match o with GCreatedOn v => Some (Some v) | _ => None end).
(* gp_op *)
Definition gp_is_create (o : gp_op) : bool := match o with GPCreate => true | _ => false end.
Definition last_gp_unit_of : list gp_op -> option gunit :=
  last_call gp_is_create (fun o => match o with GPWithUnit v => Some (v) | _ => None end).
Definition last_gp_pk_of : list gp_op -> option bytes :=
  last_call gp_is_create (fun o => match o with GPWithPrivateKey v => Some (v) | _ => None end).
(* o_op *)
Definition o_is_create (o : o_op) : bool := match o with OCreate => true | _ => false end.
Definition last_o_genesis_of : list o_op -> option gunit :=
  last_call o_is_create (fun o => match o with OWithGenesis v => Some (v) | _ => None end).
Definition last_o_trx_of : list o_op -> option transaction :=
  last_call o_is_create (fun o => match o with OWithTransaction v => Some (v) | _ => None end).
(* tc_op *)
Definition tc_is_create (o : tc_op) : bool := match o with TCCreate => true | _ => false end.
Definition last_tc_owner_of : list tc_op -> option ring :=
  last_call tc_is_create (fun o => match o with TCWithOwner v => Some (v) | _ => None end).
Definition last_tc_amount_of : list tc_op -> option bytes :=
  last_call tc_is_create (fun o => match o with TCWithAmount v => Some (Some v) | _ => None end).
Definition last_tc_origin_of : list tc_op -> option torigin :=
  last_call tc_is_create (fun o => match o with TCWithOrigin v => Some (v) | _ => None end).
Definition last_tc_external_of : list tc_op -> option bytes :=
  last_call tc_is_create (fun o => match o with TCWithExternal v => Some (Some v) | _ => None end).
Definition last_tc_created_of : list tc_op -> option Z :=
  last_call tc_is_create (fun o => match o with TCCreatedOn v => Some (Some v) | _ => None end).
(* t_op *)
Definition t_is_create (o : t_op) : bool := match o with TCreate => true | _ => false end.
Definition last_t_content_of : list t_op -> option tcontent :=
  last_call t_is_create (fun o => match o with TWithContent v => Some (v) | _ => None end).
Definition last_t_auth_of : list t_op -> option bytes :=
  last_call t_is_create (fun o => match o with TWithAuthorization v => Some (v) | _ => None end).
(* s_op *)
Definition s_is_create (o : s_op) : bool := match o with SCreate => true | _ => false end.
Definition last_s_amount_of : list s_op -> option N :=
  last_call s_is_create (fun o => match o with SWithAmount v => Some (Some v) | _ => None end).
Definition last_s_nonce_of : list s_op -> option bytes :=
  last_call s_is_create (fun o => match o with SWithNonce v => Some (Some v) | _ => None end).
Definition last_s_public_of : list s_op -> option transaction :=
  last_call s_is_create (fun o => match o with SWithPublic v => Some (v) | _ => None end).
Definition last_s_origin_of : list s_op -> option secret :=
  last_call s_is_create (fun o => match o with SWithOrigin v => Some (v) | _ => None end).
Definition last_s_sides_of : list s_op -> option secrets :=
  last_call s_is_create (fun o => match o with SWithSides v => Some (v) | _ => None end).
(* rc_op *)
Definition rc_is_create (o : rc_op) : bool := match o with RCCreate => true | _ => false end.
Definition last_rc_secret_of : list rc_op -> option secret :=
  last_call rc_is_create (fun o => match o with RCWithSecret v => Some (v) | _ => None end).
Definition last_rc_sig_of : list rc_op -> option bytes :=
  last_call rc_is_create (fun o => match o with RCWithSignature v => Some (v) | _ => None end).
(* tp_op *)
Definition tp_is_create (o : tp_op) : bool := match o with TPCreate => true | _ => false end.
Definition last_tp_pk_of : list tp_op -> option bytes :=
  last_call tp_is_create (fun o => match o with TPWithPrivateKey v => Some (v) | _ => None end).
Definition last_tp_receipt_of : list tp_op -> option receipt :=
  last_call tp_is_create (fun o => match o with TPWithReceipt v => Some (v) | _ => None end).
(* b_op *)
Definition b_is_create (o : b_op) : bool := match o with BCreate => true | _ => false end.
Definition last_b_height_of : list b_op -> option N :=
  last_call b_is_create (fun o => match o with BWithHeight v => Some (Some v) | _ => None end).
Definition last_b_fees_of : list b_op -> option ring :=
  last_call b_is_create (fun o => match o with BWithFees v => Some (v) | _ => None end).
Definition last_b_trx_of : list b_op -> option transactions :=
  last_call b_is_create (fun o => match o with BWithTransactions v => Some (v) | _ => None end).
Definition last_b_created_of : list b_op -> option Z :=
  last_call b_is_create (fun o => match o with BCreatedOn v => Some (Some v) | _ => None end).
Definition last_b_previous_of : list b_op -> option bytes :=
  last_call b_is_create (fun o => match o with BWithPrevious v => Some (Some v) | _ => None end).
(* c_op *)
Definition c_is_create (o : c_op) : bool := match o with CCreate => true | _ => false end.
Definition last_c_id_of : list c_op -> option bytes :=
  last_call c_is_create (fun o => match o with CWithID v => Some (Some v) | _ => None end).
Definition last_c_root_of : list c_op -> option bytes :=
  last_call c_is_create (fun o => match o with CWithRoot v => Some (Some v) | _ => None end).
Definition last_c_created_of : list c_op -> option Z :=
  last_call c_is_create (fun o => match o with CCreatedOn v => Some (Some v) | _ => None end).
Definition last_c_head_of : list c_op -> option block :=
  last_call c_is_create (fun o => match o with CWithHead v => Some (v) | _ => None end).
(* it_op *)
Definition it_is_create (o : it_op) : bool := match o with ITCreate => true | _ => false end.
Definition last_it_outgoing_of : list it_op -> option tprivates :=
  last_call it_is_create (fun o => match o with ITWithOutgoing v => Some (v) | _ => None end).
Definition last_it_incoming_of : list it_op -> option secrets :=
  last_call it_is_create (fun o => match o with ITWithIncoming v => Some (v) | _ => None end).
(* id_op *)
Definition id_is_create (o : id_op) : bool := match o with IDCreate => true | _ => false end.
Definition last_id_name_of : list id_op -> option bytes :=
  last_call id_is_create (fun o => match o with IDWithName v => Some (Some v) | _ => None end).
Definition last_id_trx_of : list id_op -> option id_trx :=
  last_call id_is_create (fun o => match o with IDWithTransactions v => Some (v) | _ => None end).
Definition last_id_genesis_of : list id_op -> option tprivates :=
  last_call id_is_create (fun o => match o with IDWithGenesis v => Some (v) | _ => None end).

(* the list builders and the ring builder *)
Definition list_is_create {A} (o : list_op A) : bool := match o with LCreate => true | _ => false end.
Definition last_list {A} : list (list_op A) -> option (list A) :=
  last_call list_is_create (fun o => match o with LWithList l => Some l | _ => None end).
Definition ring_is_create (o : ring_op) : bool := match o with RCreate => true | _ => false end.
Definition last_ring_list : list ring_op -> option (list bytes) :=
  last_call ring_is_create (fun o => match o with RWithList l => Some l | _ => None end).
(* the peer builder *)
Definition p_is_create (o : p_op) : bool := match o with PCreate => true | _ => false end.
Definition last_p_host : list p_op -> option bytes :=
  last_call p_is_create (fun o => match o with PWithHost v => Some (Some v) | _ => None end).
Definition last_p_port : list p_op -> option N :=
  last_call p_is_create (fun o => match o with PWithPort v => Some (Some v) | _ => None end).
Definition last_p_string : list p_op -> option bytes :=
  last_call p_is_create (fun o => match o with PWithString v => Some (Some v) | _ => None end).

(* ---- digests ---- *)
(* a digest has 64 bytes *)
Definition digest (h : bytes) : Prop := length h = 64.
Definition opt_digest (h : option bytes) : Prop := match h with Some x => digest x | None => True end.

(* [sep] occurs in [s] at offset [i] *)
Definition occurs_at (sep s : bytes) (i : nat) : Prop := exists a b, s = a ++ sep ++ b /\ length a = i.

(* the machine range of a uint *)
Definition uint64 (n : N) : Prop := (n < 2 ^ 64)%N.
(* an instant whose second count fits in an int64: about 292 billion years around 1970 *)
Definition in_unix_range (t : Z) : Prop := (- 2 ^ 63 <= unix t < 2 ^ 63)%Z.
(* an instant representable by UnixNano: years 1678 to 2262 *)
Definition in_nano_range (t : Z) : Prop := (- 2 ^ 63 <= t < 2 ^ 63)%Z.

(* ---- values obtained from the builders, by any history of calls ---- *)
Section Built.
Variable sha512 : bytes -> bytes.

Definition built_ring (r : ring) : Prop :=
  exists min max ops, (forall l, In (RWithList (Some l)) ops -> Forall digest l)
    /\ ring_now sha512 min max (run ring_step None ops) = Ok r.
Definition built_unit_content (u : unit_content) : Prop :=
  exists ops, uc_now sha512 (run uc_step uc_init ops) = Ok u.
Definition built_unit (u : gunit) : Prop :=
  exists ops, (forall c, In (GUWithContent (Some c)) ops -> built_unit_content c)
    /\ (forall r, In (GUWithOwner (Some r)) ops -> built_ring r)
    /\ gu_now sha512 (run gu_step gu_init ops) = Ok u.

(* an authorization text: longer than a digest (the text of a ring signature has
   at least one point and two scalars) *)
Inductive built_transaction : transaction -> Prop :=
| built_t t ops :
    (forall c, In (TWithContent (Some c)) ops -> built_content c) ->
    (forall a, In (TWithAuthorization (Some a)) ops -> 64 < length a) ->
    t_now sha512 (run t_step t_init ops) = Ok t -> built_transaction t
with built_content : tcontent -> Prop :=
| built_c c ops :
    (forall r, In (TCWithOwner (Some r)) ops -> built_ring r) ->
    (forall h, In (TCWithAmount h) ops -> digest h) ->
    (forall o, In (TCWithOrigin (Some o)) ops -> built_origin o) ->
    (forall h, In (TCWithExternal h) ops -> digest h) ->
    tc_now sha512 (run tc_step tc_init ops) = Ok c -> built_content c
with built_origin : torigin -> Prop :=
| built_o o ops :
    (forall u, In (OWithGenesis (Some u)) ops -> built_unit u) ->
    (forall t, In (OWithTransaction (Some t)) ops -> built_transaction t) ->
    o_now (run o_step o_init ops) = Ok o -> built_origin o.
End Built.

(* ---- the same transaction, as far as digests tell: the same authorization text;
   owner, amount and external digests; creation second; and an origin that is the
   same genesis unit digest, or again the same transaction ---- *)
Inductive same_transaction : transaction -> transaction -> Prop :=
| same_t h c c' a : same_content c c' -> same_transaction (Transaction h c a) (Transaction h c' a)
with same_content : tcontent -> tcontent -> Prop :=
| same_c h w w' a o o' e t t' :
    ring_hash w = ring_hash w' -> unix t = unix t' -> same_origin o o' ->
    same_content (TContent h w a o e t) (TContent h w' a o' e t')
with same_origin : torigin -> torigin -> Prop :=
| same_genesis u u' : gu_hash u = gu_hash u' -> same_origin (OGenesis u) (OGenesis u')
| same_trx x x' : same_transaction x x' -> same_origin (OTransaction x) (OTransaction x').
