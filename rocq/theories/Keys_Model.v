(** Paths and content keys:
    /repo/crates/ethportal-api/src/types/state_trie/nibbles.rs and
    /repo/crates/ethportal-api/src/types/content_key/*.rs. *)
From Verif Require Import Base Ssz_Model.

(** ** Paths (nibbles.rs) *)

(** nibbles.rs:17-27 [try_from_unpacked_nibbles] *)
Definition try_from_unpacked (nibbles : bytes) : outcome bytes :=
  if 64 <? blen nibbles then Err
  else if forallb (fun n => n <=? 15) nibbles then Ok nibbles else Err.

(** nibbles.rs:33-35 [unpack_nibble_pair] *)
Definition unpack_pair (b : N) : bytes := [N.shiftr b 4; N.land b 15].
(** nibbles.rs:37-42 [unpack_nibbles] *)
Definition unpack_nibbles (packed : bytes) : bytes := flat_map unpack_pair packed.

(** nibbles.rs:54-56, 60-62: [chunks_exact(2)] (an incomplete chunk is dropped), each packed as
    [(x[0] << 4) | x[1]] in a [u8]. *)
Definition pack (a b : N) : N := N.lor (N.shiftl a 4 mod 256) b.
Fixpoint pack_pairs (l : bytes) : bytes :=
  match l with
  | a :: b :: r => pack a b :: pack_pairs r
  | _ => []
  end.
(** nibbles.rs:50-64 [ssz_append] *)
Definition nibbles_encode (l : bytes) : bytes :=
  if blen l mod 2 =? 0 then 0 :: pack_pairs l
  else match l with
       | [] => [] (* not reached: the length is odd *)
       | n :: r => N.lor 16 n :: pack_pairs r
       end.
(** nibbles.rs:76-112 [from_ssz_bytes] *)
Definition nibbles_decode (b : bytes) : outcome bytes :=
  match b with
  | [] => Err
  | first :: packed =>
      let flag := N.shiftr first 4 in
      let low := N.land first 15 in
      if flag =? 0 then
        if negb (low =? 0) then Err else try_from_unpacked (unpack_nibbles packed)
      else if flag =? 1 then try_from_unpacked (low :: unpack_nibbles packed)
      else Err
  end.

(** ** Content keys *)

(** legacy_history.rs:25-46, with the fields of the key structs at 133-174 *)
Inductive legacy_key :=
| BlockHeaderByHash (block_hash : bytes)
| BlockHeaderByNumber (block_number : N)
| BlockBody (block_hash : bytes)
| BlockReceipts (block_hash : bytes)
| EphemeralHeadersFindContent (block_hash : bytes) (ancestor_count : N)
| EphemeralHeaderOffer (block_hash : bytes).

(** A [u64] and a [u8] in SSZ. *)
Definition u64 (x : N) : bytes := le_bytes 8 x.
Definition u8 (x : N) : bytes := le_bytes 1 x.

(** legacy_history.rs:230-267 [to_bytes]; the prefixes are at 17-22. *)
Definition legacy_to_bytes (k : legacy_key) : bytes :=
  match k with
  | BlockHeaderByHash h => 0 :: encode_container [PFix h]
  | BlockBody h => 1 :: encode_container [PFix h]
  | BlockReceipts h => 2 :: encode_container [PFix h]
  | BlockHeaderByNumber n => 3 :: encode_container [PFix (u64 n)]
  | EphemeralHeadersFindContent h c => 4 :: encode_container [PFix h; PFix (u8 c)]
  | EphemeralHeaderOffer h => 5 :: encode_container [PFix h]
  end.

(** A derived [from_ssz_bytes] of a container: the slices of its fields, for a given number of
    fields.  (Containers of fixed size compare their length first, which [decode_container]
    does last: the outcome is the same.) *)
Definition container1 (f : option N) (b : bytes) : outcome bytes :=
  obind (decode_container [f] b) (fun l => match l with [x] => Ok x | _ => Err end).
Definition container2 (f g : option N) (b : bytes) : outcome (bytes * bytes) :=
  obind (decode_container [f; g] b) (fun l => match l with [x; y] => Ok (x, y) | _ => Err end).
Definition container3 (f g h : option N) (b : bytes) : outcome (bytes * bytes * bytes) :=
  obind (decode_container [f; g; h] b) (fun l => match l with [x; y; z] => Ok (x, y, z) | _ => Err end).

(** legacy_history.rs:269-312 [try_from_bytes] *)
Definition legacy_from_bytes (b : bytes) : outcome legacy_key :=
  match b with
  | [] => Err
  | selector :: key =>
      if selector =? 0 then omap BlockHeaderByHash (container1 (Some 32) key)
      else if selector =? 1 then omap BlockBody (container1 (Some 32) key)
      else if selector =? 2 then omap BlockReceipts (container1 (Some 32) key)
      else if selector =? 3 then obind (container1 (Some 8) key) (fun n => omap BlockHeaderByNumber (decode_uint 8 n))
      else if selector =? 4 then
        obind (container2 (Some 32) (Some 1) key) (fun x =>
        obind (decode_uint 1 (snd x)) (fun c => Ok (EphemeralHeadersFindContent (fst x) c)))
      else if selector =? 5 then omap EphemeralHeaderOffer (container1 (Some 32) key)
      else Err
  end.

(** legacy_history.rs:219-228 [affected_by_radius] *)
Definition legacy_affected_by_radius (k : legacy_key) : bool :=
  match k with EphemeralHeadersFindContent _ _ | EphemeralHeaderOffer _ => false | _ => true end.

(** beacon.rs:23-30 and the key structs at 38-85 *)
Inductive beacon_key :=
| LightClientBootstrap (block_hash : bytes)
| LightClientUpdatesByRange (start_period count : N)
| LightClientFinalityUpdate (finalized_slot : N)
| LightClientOptimisticUpdate (signature_slot : N)
| HistoricalSummariesWithProof (epoch : N).

(** beacon.rs:120-152 [to_bytes]; the prefixes are at 16-20. *)
Definition beacon_to_bytes (k : beacon_key) : bytes :=
  match k with
  | LightClientBootstrap h => 16 :: encode_container [PFix h]
  | LightClientUpdatesByRange s c => 17 :: encode_container [PFix (u64 s); PFix (u64 c)]
  | LightClientFinalityUpdate s => 18 :: encode_container [PFix (u64 s)]
  | LightClientOptimisticUpdate s => 19 :: encode_container [PFix (u64 s)]
  | HistoricalSummariesWithProof e => 20 :: encode_container [PFix (u64 e)]
  end.
(** beacon.rs:154-191 [try_from_bytes] *)
Definition beacon_from_bytes (b : bytes) : outcome beacon_key :=
  match b with
  | [] => Err
  | selector :: key =>
      if selector =? 16 then omap LightClientBootstrap (container1 (Some 32) key)
      else if selector =? 17 then
        obind (container2 (Some 8) (Some 8) key) (fun x =>
        obind (decode_uint 8 (fst x)) (fun s =>
        obind (decode_uint 8 (snd x)) (fun c => Ok (LightClientUpdatesByRange s c))))
      else if selector =? 18 then obind (container1 (Some 8) key) (fun n => omap LightClientFinalityUpdate (decode_uint 8 n))
      else if selector =? 19 then obind (container1 (Some 8) key) (fun n => omap LightClientOptimisticUpdate (decode_uint 8 n))
      else if selector =? 20 then obind (container1 (Some 8) key) (fun n => omap HistoricalSummariesWithProof (decode_uint 8 n))
      else Err
  end.

(** state.rs:22-27 and the key structs at 38-65 *)
Inductive state_key :=
| AccountTrieNode (path : bytes) (node_hash : bytes)
| ContractStorageTrieNode (address_hash : bytes) (path : bytes) (node_hash : bytes)
| ContractBytecode (address_hash : bytes) (code_hash : bytes).

(** state.rs:72-94 [to_bytes]; the prefixes are at 17-19. *)
Definition state_to_bytes (k : state_key) : bytes :=
  match k with
  | AccountTrieNode p h => 32 :: encode_container [PVar (nibbles_encode p); PFix h]
  | ContractStorageTrieNode a p h => 33 :: encode_container [PFix a; PVar (nibbles_encode p); PFix h]
  | ContractBytecode a c => 34 :: encode_container [PFix a; PFix c]
  end.
(** state.rs:96-123 [try_from_bytes] *)
Definition state_from_bytes (b : bytes) : outcome state_key :=
  match b with
  | [] => Err
  | selector :: key =>
      if selector =? 32 then
        obind (container2 None (Some 32) key) (fun x =>
        obind (nibbles_decode (fst x)) (fun p => Ok (AccountTrieNode p (snd x))))
      else if selector =? 33 then
        obind (container3 (Some 32) None (Some 32) key) (fun x =>
        obind (nibbles_decode (snd (fst x))) (fun p => Ok (ContractStorageTrieNode (fst (fst x)) p (snd x))))
      else if selector =? 34 then
        obind (container2 (Some 32) (Some 32) key) (fun x => Ok (ContractBytecode (fst x) (snd x)))
      else Err
  end.

(** history.rs:18-38 *)
Inductive history_key :=
| HBlockBody (block_number : N)
| HBlockReceipts (block_number : N).
(** history.rs:66-83 [to_bytes]; the prefixes are at 14-15. *)
Definition history_to_bytes (k : history_key) : bytes :=
  match k with
  | HBlockBody n => 0 :: encode_container [PFix (u64 n)]
  | HBlockReceipts n => 1 :: encode_container [PFix (u64 n)]
  end.
(** history.rs:85-110 [try_from_bytes] *)
Definition history_from_bytes (b : bytes) : outcome history_key :=
  match b with
  | [] => Err
  | selector :: key =>
      if selector =? 0 then obind (container1 (Some 8) key) (fun n => omap HBlockBody (decode_uint 8 n))
      else if selector =? 1 then obind (container1 (Some 8) key) (fun n => omap HBlockReceipts (decode_uint 8 n))
      else Err
  end.

(** overlay.rs:20-22: the default [content_id] is the SHA-256 of [to_bytes]; the history
    network overrides it (history.rs:51-60) with [range_content_id]. *)

(** content_id.rs:3-21 [range_content_id].  [u64::rotate_right(16)] and [reverse_bits]. *)
Definition rotate_right (x : N) (k : N) : N :=
  N.lor (N.shiftr x k) (N.shiftl x (64 - k) mod 2 ^ 64).
Fixpoint reverse_bits (n : nat) (x : N) : N :=
  match n with
  | O => 0
  | S m => (x mod 2) * 2 ^ N.of_nat m + reverse_bits m (x / 2)
  end.
Definition range_content_prefix (block_number : N) : N :=
  let cycle_bits := N.land block_number (2 ^ 16 - 1) in
  let offset_bits := N.land block_number (2 ^ 64 - 2 ^ 16) in
  N.lor (rotate_right cycle_bits 16) (reverse_bits 64 offset_bits).
(** [U256::from_limbs] takes the least significant limb first. *)
Definition range_content_id (block_number content_type : N) : bytes :=
  be_bytes 32 (content_type + 2 ^ 192 * range_content_prefix block_number).
(** history.rs:51-60 *)
Definition history_content_id (k : history_key) : bytes :=
  match k with
  | HBlockBody n => range_content_id n 0
  | HBlockReceipts n => range_content_id n 1
  end.
