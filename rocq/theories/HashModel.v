(* HashModel.v - domain/hash and domain/hashtree.  Definitions only.
   [sha512] is crypto/sha512 (an external library function): a parameter. *)
From Verif Require Export Go.

(* Go map with string keys: association list, most recent binding first.
   Only get/set are used on it, so iteration order plays no role. *)
Definition gomap (V : Type) := list (bytes * V).
Definition mset {V} (k : bytes) (v : V) (m : gomap V) : gomap V := (k, v) :: m.
Fixpoint mget {V} (k : bytes) (m : gomap V) : option V :=
  match m with
  | [] => None
  | (k', v) :: r => if bytes_eqb k k' then Some v else mget k r
  end.

Section Hash.
Variable sha512 : bytes -> bytes.

(* domain/hash/adapter.go:17-34 FromBytes.  h.Write of sha512 never returns an
   error, so the (value, nil) result is modelled by the value. *)
Definition from_bytes (input : bytes) : bytes :=
  if length input =? 64 then input else sha512 input.

(* domain/hash/adapter.go:37-44 FromMultiBytes *)
Definition from_multi_bytes (input : list bytes) : bytes :=
  from_bytes (fold_left (fun merged row => merged ++ row) input []).

(* domain/hash/adapter.go:47-59 FromString *)
Definition from_string (input : bytes) : res bytes :=
  match hex_decode input with
  | None => Err
  | Some b => Ok (from_bytes b)
  end.

(* domain/hash/hash.go:34-37 String: fmt.Sprintf("%x", bytes) *)
Definition hash_string (h : bytes) : bytes := hex_encode h.

(* domain/hash/hash.go:9-21 Compare *)
Definition hash_compare (a b : bytes) : bool := bytes_eqb a b.

(* ---------------- domain/hashtree ---------------- *)

(* domain/hashtree/leaf.go:9-30 leaf{head, parentLeaf}: parentLeaf nil is
   [BlockLeaf]; a parentLeaf{left,right} (parentleaf.go:9-21) is [ChildLeaf]. *)
Inductive leaf : Type :=
| BlockLeaf (head : bytes)
| ChildLeaf (head : bytes) (left right : leaf).

(* leaf.go:48-50 Head *)
Definition leaf_head (l : leaf) : bytes :=
  match l with BlockLeaf h => h | ChildLeaf h _ _ => h end.

(* leaf.go:63-74 Leaves, parentleaf.go:40-46 BlockLeaves, leaves.go:26-32 Merge.
   Merge appends to the receiver's own slice; the receiver is always a slice
   freshly allocated by leaf.Leaves, so the result is the concatenation. *)
Fixpoint leaf_leaves (l : leaf) : list leaf :=
  match l with
  | BlockLeaf _ => [l]
  | ChildLeaf _ a b => leaf_leaves a ++ leaf_leaves b
  end.

(* leaf.go:77-93 Height: follows Parent().Left() until a leaf without parent *)
Fixpoint leaf_height (l : leaf) : nat :=
  match l with BlockLeaf _ => 0 | ChildLeaf _ a _ => S (leaf_height a) end.

(* hashtree.go:11-23 hashtree{head, parentLeaf{left,right}} *)
Record hashtree := { ht_head : bytes; ht_left : leaf; ht_right : leaf }.

(* block.go:47-50 isLengthPowerForTwo: length != 0 && length&(length-1) == 0 *)
Definition is_length_power_of_two (n : nat) : bool :=
  negb (n =? 0) && (Nat.land n (n - 1) =? 0).

(* block.go:52-66 resizeToNextPowerOfTwo.  SIMPLIFICATION: the Go code computes
   2^ceil(log n / log 2) in float64; the model uses the exact value. *)
Definition resize_to_next_power_of_two (l : list bytes) : list bytes :=
  let next := 2 ^ Nat.log2_up (length l) in
  l ++ repeat (from_bytes []) (next - length l).

(* block.go:37-45 resize *)
Definition resize (l : list bytes) : list bytes :=
  if is_length_power_of_two (length l) then l else resize_to_next_power_of_two l.

(* block.go:14-35 createBlockFromData *)
Definition create_block_from_data (data : list bytes) : list bytes :=
  let data := if length data <=? 1 then data ++ [[]] else data in
  resize (map from_bytes data).

(* leaf.go:32-46 createChildLeaf + leaves.go:60-68: hash of left||right heads *)
Definition pair_hash (l r : leaf) : bytes :=
  from_bytes (concat [leaf_head l; leaf_head r]).

(* leaves.go:52-73 createChildrenLeaves: obj.list[index+1] panics when the length is odd *)
Fixpoint create_children_leaves (l : list leaf) : res (list leaf) :=
  match l with
  | [] => Ok []
  | [_] => Panic
  | a :: b :: r =>
    let* rest := create_children_leaves r in
    Ok (ChildLeaf (pair_hash a b) a b :: rest)
  end.

(* leaves.go:35-50 HashTree + parentleaf.go:24-37 HashTree.
   The recursion does not terminate on an empty list: NoFuel. *)
Fixpoint leaves_hashtree (fuel : nat) (l : list leaf) : res hashtree :=
  match fuel with
  | O => NoFuel
  | S fuel =>
    match l with
    | [a; b] => Ok {| ht_head := pair_hash a b; ht_left := a; ht_right := b |}
    | _ => let* children := create_children_leaves l in leaves_hashtree fuel children
    end
  end.

(* builder.go:33-39 Now, hashtree.go:25-32 createHashTreeFromBlocks,
   block.go:69-83 Leaves/HashTree.  blocks = nil is [None]. *)
Definition build_tree (blocks : option (list bytes)) : res hashtree :=
  match blocks with
  | None => Err
  | Some data =>
    let hashes := create_block_from_data data in
    leaves_hashtree (S (length hashes)) (map BlockLeaf hashes)
  end.

(* parentleaf.go:40-46 BlockLeaves of the tree's parent leaf *)
Definition tree_leaves (t : hashtree) : list leaf :=
  leaf_leaves (ht_left t) ++ leaf_leaves (ht_right t).

(* hashtree.go:35-38 Height, 41-44 Length *)
Definition tree_height (t : hashtree) : nat := leaf_height (ht_left t) + 2.
Definition tree_length (t : hashtree) : nat := length (tree_leaves t).

(* hashtree.go:57-60 Compact, compact.go *)
Definition tree_compact (t : hashtree) : bytes * list leaf := (ht_head t, tree_leaves t).

(* hashtree.go:63-95 Order *)
Definition tree_order (t : hashtree) (data : list bytes) : res (list bytes) :=
  let hashed := fold_left (fun m d => mset (hash_string (from_bytes d)) d m) data [] in
  let out := flat_map (fun l => match mget (hash_string (leaf_head l)) hashed with
                                | Some d => [d]
                                | None => []
                                end) (tree_leaves t) in
  if length out =? length data then Ok out else Err.

(* block.go:86-115 MarshalJSON / UnmarshalJSON, up to the JSON syntax of a list
   of strings (encoding/json, external): the list of hex strings. *)
Definition block_to_strings (l : list bytes) : list bytes := map hash_string l.
Definition block_from_strings (l : list bytes) : res (list bytes) := mapM from_string l.

End Hash.
