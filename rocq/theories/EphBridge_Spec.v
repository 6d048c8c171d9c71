(** Vocabulary for the bridge at the head of the chain. *)
From Verif Require Import Base Merkle_Spec Header_Model Header_Spec LegacyHistory_Model LegacyHistory_Spec Builders_Model Builders_Spec EphBridge_Model.

Section Spec.
Context {tx rct wdl wd : Type}.
Context (HC : codec full_header) (HL : codec (list full_header)) (TC : codec tx) (RC : codec rct) (WC : codec wdl).
Context (keccak : bytes -> bytes) (trie_root : list bytes -> bytes) (sha : bytes -> bytes).
Context (rest : el_header -> bytes) (to_wd : wd -> wdl) (decode_tx : bytes -> outcome tx) (requests_root : list bytes -> bytes).
Context (bloom_root extra_root : bytes -> bytes) (txs_root : list bytes -> bytes) (wds_root : list wd -> bytes) (requests_tree : el_requests -> bytes).
Notation block := (el_block wd).

(** The root of a beacon block *)
Definition the_root (b : block) : bytes := block_tree sha 5 (tree_of bloom_root extra_root txs_root wds_root requests_tree Electra b).
(** Blocks, each the parent of the one before, the first with the given root *)
Fixpoint linked (root : bytes) (l : list block) : Prop :=
  match l with [] => True | b :: l => the_root b = root /\ linked (parent_root b) l end.
(** The header and the body of the execution block in a beacon block *)
Definition is_block (b : block) (h : el_header) (body : @block_body tx wdl) : Prop :=
  exists txs, decoded decode_tx b txs /\ describes TC WC to_wd trie_root (keccak (enc HL [])) requests_root Electra b txs h /\
    p_block_hash (b_payload b) = keccak (enc HC (lower rest h)) /\ carries to_wd Electra b txs body.
Definition sound (b : block) : Prop := exists h body, is_block b h body.

(** What the clients have served in some events: a block, and receipts for it *)
Definition served (l : list (event rct wd)) (b : block) (r : list rct) : Prop :=
  exists c root q, In (Head c root) l /\ cl_by_root c q = Ok b /\ el_receipts c q (p_block_number (b_payload b)) = Ok r.
(** The blocks that are served have the type of blocks: hashes of 32 bytes. *)
Definition typed_blocks (l : list (event rct wd)) : Prop :=
  forall c root q b, In (Head c root) l -> cl_by_root c q = Ok b -> hashes_ok b.
Definition receipts_of (b : block) (r : list rct) : Prop := trie_root (map (enc RC) r) = p_receipts_root (b_payload b).

(** The blocks that are stored *)
Definition has (s : bridge rct wd) (root : bytes) (b : block) : Prop := In (root, b) (beacon_blocks s).
(** ... from a root backwards, with their roots *)
Fixpoint stored_back (s : bridge rct wd) (root : bytes) (l : list (bytes * block)) : Prop :=
  match l with [] => True | (r, b) :: l => r = root /\ has s root b /\ stored_back s (parent_root b) l end.
Fixpoint end_of (root : bytes) (l : list (bytes * block)) : bytes := match l with [] => root | (_, b) :: l => end_of (parent_root b) l end.
(** The slot is one of the 8192 before the first slot of the epoch. *)
Definition in_period_before (epoch slot : N) : Prop := (epoch - 256) * 32 <= slot < epoch * 32.

(** ** A chain without re-orgs, up to the block [last], and clients that serve it *)
Context (blk : nat -> block) (rc : nat -> list rct).
Context (last : nat).
Record growing : Prop := {
  g_typed : forall k, (k <= last)%nat -> hashes_ok (blk k);
  g_parent : forall k, (k < last)%nat -> parent_root (blk (S k)) = the_root (blk k);
  g_number : forall k, (k < last)%nat -> p_block_number (b_payload (blk (S k))) = p_block_number (b_payload (blk k)) + 1;
  g_slot : forall k, (k < last)%nat -> b_slot (blk k) < b_slot (blk (S k));
  g_sound : forall k, (k <= last)%nat -> sound (blk k);
  g_start : forall k, (k <= last)%nat -> parent_root (blk 0%nat) <> the_root (blk k);
  g_root : forall j k, (j <= last)%nat -> (k <= last)%nat -> the_root (blk j) = the_root (blk k) -> j = k }.
Definition serves (c : clients rct wd) (k : nat) : Prop :=
  forall j, (j <= k)%nat -> cl_by_root c (the_root (blk j)) = Ok (blk j) /\ el_receipts c (the_root (blk j)) (p_block_number (b_payload (blk j))) = Ok (rc j).
(** Histories along the chain: heads come in order; an attested header is at most 19 blocks behind the head; a finalized block
    is at least 32 behind it, and the last that is not after the first slot of its epoch.  [k]: the head; from [lo] on all blocks were seen. *)
Inductive along : list (event rct wd) -> nat -> nat -> Prop :=
| al_first c k : (12 <= k <= last)%nat -> serves c k -> along [Head c (the_root (blk k))] (k - 12) k
| al_head l lo k c k' : along l lo k -> (k <= k' <= last)%nat -> serves c k' ->
    along (l ++ [Head c (the_root (blk k'))]) (if (k' - 12 <=? k + 1)%nat then lo else k' - 12) k'
| al_update l lo k j : along l lo k -> (j <= k <= j + 19)%nat -> (lo + 12 <= j)%nat -> along (l ++ [Update (the_root (blk j))]) lo k
| al_finalized l lo k f epoch st : along l lo k -> (f + 32 <= k)%nat -> epoch * 32 < b_slot (blk (S f)) -> 0 < epoch -> epoch * 32 < 2 ^ 64 ->
    along (l ++ [Finalized epoch (the_root (blk f)) st]) (Nat.max lo (S f)) k.
(** The positions [k], ..., [k - n + 1] *)
Definition back (k n : nat) : list nat := map (fun i => (k - i)%nat) (seq 0 n).
End Spec.
