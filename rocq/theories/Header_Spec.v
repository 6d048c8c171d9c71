(** What the accumulators of the chain commit to, and what it means for a header to be part of it. *)
From Verif Require Import Base Merkle_Spec Header_Model.

Section Sha.
Context (sha : bytes -> bytes).

(** An epoch before the merge: the block hashes with total difficulties; its SSZ root. *)
Definition record_root (r : record) : bytes := merkle_root sha 1 [block_hash r; le_bytes 32 (total_difficulty r)].
Definition epoch_root (e : list record) : bytes := merkle_root sha 1 [merkle_root sha 13 (map record_root e); le_bytes 32 (blen e)].
(** A period of 8192 slots between the merge and Capella: roots of the beacon blocks and states. *)
Record batch := { block_roots : list bytes; state_roots : list bytes }.
Definition batch_root (b : batch) : bytes := merkle_root sha 1 [merkle_root sha 13 (block_roots b); merkle_root sha 13 (state_roots b)].
(** The same after Capella. *)
Definition batch_summary (b : batch) : summary :=
  {| block_summary_root := merkle_root sha 13 (block_roots b); state_summary_root := merkle_root sha 13 (state_roots b) |}.
(** The root of a beacon block whose payload tree has the given depth: 4 up to Capella, 5 from Deneb on. *)
Definition payload_tree (depth : nat) (b : beacon_block) : bytes := merkle_root sha depth (payload b).
Definition body_tree (depth : nat) (b : beacon_block) : bytes := merkle_root sha 4 (body_before b ++ [payload_tree depth b] ++ body_after b).
Definition block_tree (depth : nat) (b : beacon_block) : bytes := merkle_root sha 3 (bb_fields b ++ [body_tree depth b]).
(** The number of fields there are: four before the body, nine before the payload. *)
Definition shaped (depth : nat) (b : beacon_block) : Prop :=
  length (bb_fields b) = 4%nat /\ length (body_before b) = 9%nat /\ (length (body_after b) <= 6)%nat /\
  (2 ^ (depth - 1) < length (payload b) <= 2 ^ depth)%nat /\ (12 < length (payload b))%nat /\
  Forall len32 (bb_fields b) /\ Forall len32 (body_before b) /\ Forall len32 (body_after b) /\ Forall len32 (payload b).
(** The hash of the execution block in it. *)
Definition execution_hash (b : beacon_block) : bytes := nth 12 (payload b) [].

Record chain := { epochs : list (list record); batches : list batch; later_batches : list batch }.
Definition epoch_ok (e : list record) : Prop := blen e <= 8192 /\ Forall (fun r => len32 (block_hash r)) e.
Definition batch_ok (b : batch) : Prop := blen (block_roots b) = 8192 /\ Forall len32 (block_roots b) /\ blen (state_roots b) = 8192 /\ Forall len32 (state_roots b).
Definition chain_ok (c : chain) : Prop := Forall epoch_ok (epochs c) /\ Forall batch_ok (batches c) /\ Forall batch_ok (later_batches c).

(** What is hashed in computing these roots. *)
Definition hashed_by_epoch (e : list record) : list bytes :=
  map (fun r => block_hash r ++ le_bytes 32 (total_difficulty r)) e ++ hashed_by_tree sha 13 (map record_root e) ++
  [merkle_root sha 13 (map record_root e) ++ le_bytes 32 (blen e)].
Definition hashed_by_batch (b : batch) : list bytes :=
  hashed_by_tree sha 13 (block_roots b) ++ [merkle_root sha 13 (block_roots b) ++ merkle_root sha 13 (state_roots b)].
Definition hashed_by_block (depth : nat) (b : beacon_block) : list bytes :=
  hashed_by_tree sha depth (payload b) ++ hashed_by_tree sha 4 (body_before b ++ [payload_tree depth b] ++ body_after b) ++
  hashed_by_tree sha 3 (bb_fields b ++ [body_tree depth b]).
(** Two inputs with the same hash, one hashed in checking the proof and one in making the tree. *)
Definition clash (xs ys : list bytes) : Prop := exists x y, In x xs /\ In y ys /\ collision sha x y.

(** The beacon block at a slot of a batch. *)
Definition block_at (bs : list batch) (period slot : N) (root : bytes) : Prop :=
  exists b, nth_error bs (N.to_nat period) = Some b /\ nth_error (block_roots b) (N.to_nat (slot mod 8192)) = Some root.
(** Every beacon block of the given shape with that root contains the execution block. *)
Definition contains (depth : nat) (root hash : bytes) (proof : list bytes) (gindex : N) : Prop :=
  forall b, shaped depth b -> block_tree depth b = root -> execution_hash b = hash \/ clash (hashed_by_proof sha hash proof gindex) (hashed_by_block depth b).
End Sha.
