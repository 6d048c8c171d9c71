(** Vocabulary for the history files at the head of the chain. *)
From Verif Require Import Base Merkle_Spec Header_Model Header_Spec Header_Props LegacyHistory_Model LegacyHistory_Spec E2Store_Model EraFiles_Model EraFiles_Spec Builders_Model Builders_Spec Builders_Props E2hsWriter_Model E2hsWriter_Spec HeadGen_Model.

(** A list with [x] at the position [i] *)
Definition put {A} (i : nat) (x : A) (l : list A) : list A := firstn i l ++ x :: skipn (S i) l.

Section Spec.
Context {tx rct wdl wd : Type}.
Context (HC : codec full_header) (HL : codec (list full_header)) (TC : codec tx) (RC : codec rct) (WC : codec wdl).
Context (keccak : bytes -> bytes) (trie_root : list bytes -> bytes) (sha : bytes -> bytes) (fk : forks).
Context (rest : el_header -> bytes) (to_wd : wd -> wdl) (decode_tx : bytes -> outcome tx) (requests_root : list bytes -> bytes).
Context (bloom_root extra_root : bytes -> bytes) (txs_root : list bytes -> bytes) (wds_root : list wd -> bytes) (requests_tree : el_requests -> bytes).
Context (fits : @tuple3 (full_header * header_proof) (@block_body tx wdl) (list rct) -> Prop).

(** The first slot after the period of a slot *)
Definition next_period (s : N) : N := (s / 8192 + 1) * 8192.
(** No block is served for the slots from [a] to [b]; [b] is not among them. *)
Definition none_between (sv : servers rct wd) (a b : N) : Prop := forall s x, a <= s < b -> cl_block sv s <> Ok x.

(** The servers have the 8192 blocks of the file [index] of the chain [c]: block [n] is in the slot [slot_of n].  At most five
    slots in a row are without a block, and after each period there is a state in its first slot. *)
Record head_serves (c : chain) (sv : servers rct wd) (index start : N) (slot_of : N -> N) (blk : N -> el_block wd) (receipts : N -> list rct) : Prop := {
  v_block : forall n, index * 8192 <= n < index * 8192 + 8192 -> cl_block sv (slot_of n) = Ok (blk n) /\ b_slot (blk n) = slot_of n /\ p_block_number (b_payload (blk n)) = n;
  v_start : start <= slot_of (index * 8192) <= start + 5 /\ none_between sv start (slot_of (index * 8192));
  v_gaps : forall n, index * 8192 <= n < index * 8192 + 8191 -> slot_of n < slot_of (n + 1) <= slot_of n + 6 /\ none_between sv (slot_of n + 1) (slot_of (n + 1));
  v_late : forall n, index * 8192 <= n < index * 8192 + 8192 -> 194048 * 32 + 8192 <= slot_of n;
  v_state : forall n, index * 8192 <= n < index * 8192 + 8192 -> exists st, cl_state sv (next_period (slot_of n)) = Ok st /\ st_slot st = next_period (slot_of n) /\
    exists ba, period c Electra (slot_of n) ba /\ st_block_roots st = block_roots ba /\ st_state_roots st = state_roots ba /\ knows sha c Electra (slot_of n) (Some (st_summaries st));
  v_receipts : forall n, index * 8192 <= n < index * 8192 + 8192 -> el_receipts sv n = Ok (receipts n);
  v_content : forall n, index * 8192 <= n < index * 8192 + 8192 ->
    hashes_ok (blk n) /\ in_fork fk Electra n (p_timestamp (b_payload (blk n))) /\ p_receipts_root (b_payload (blk n)) = trie_root (map (enc RC) (receipts n)) /\
    (forall ba, period c Electra (slot_of n) ba ->
       nth_error (block_roots ba) (N.to_nat (slot_of n mod 8192)) = Some (block_tree sha (depth_of Electra) (tree_of bloom_root extra_root txs_root wds_root requests_tree Electra (blk n)))) /\
    exists txs h, decoded decode_tx (blk n) txs /\ describes TC WC to_wd trie_root (keccak (enc HL [])) requests_root Electra (blk n) txs h /\ p_block_hash (b_payload (blk n)) = keccak (enc HC (lower rest h)) /\
      forall ba p body, period c Electra (slot_of n) ba -> p = proof_for sha bloom_root extra_root txs_root wds_root requests_tree Electra (blk n) (block_roots ba) (state_roots ba) ->
        carries to_wd Electra (blk n) txs body -> fits (mk_tuple3 (lower rest h, p) body (receipts n)) }.

(** What was kept of an earlier period is of the chain. *)
Definition anchored (c : chain) (an : anchors) : Prop :=
  reach sha fk c (an_validator an) /\ honest sha c (Some (an_summaries an)) /\
  (an_index an = 0 \/ exists ba k, nth_error (later_batches c) (N.to_nat (an_index an)) = Some ba /\ an_block_roots an = block_roots ba /\ an_state_roots an = state_roots ba /\
     (N.to_nat (an_index an) < k)%nat /\ an_summaries an = firstn k (map (batch_summary sha) (later_batches c))).
End Spec.
