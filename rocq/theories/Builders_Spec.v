(** Vocabulary for execution blocks that are built from beacon blocks. *)
From Verif Require Import Base Keys_Spec Merkle_Spec Header_Model Header_Spec LegacyHistory_Model Builders_Model.

Definition has_withdrawals (f : fork_name) : bool := match f with Bellatrix => false | _ => true end.
Definition has_blobs (f : fork_name) : bool := match f with Bellatrix | Capella => false | _ => true end.
Definition has_requests (f : fork_name) : bool := match f with Electra => true | _ => false end.
Definition if_has {A} (b : bool) (x : A) : option A := if b then Some x else None.

Section Spec.
Context {tx wdl wd : Type}.
Context (TC : codec tx) (WC : codec wdl) (to_wd : wd -> wdl) (decode_tx : bytes -> outcome tx).
Context (trie_root : list bytes -> bytes) (empty_ommers : bytes) (requests_root : list bytes -> bytes).

(** The header of the execution block in a beacon block: EIP-3675, 4895, 4788, 4844 and 7685. *)
Record describes (f : fork_name) (b : el_block wd) (txs : list tx) (h : el_header) : Prop := {
  d_parent : e_parent_hash h = parent_hash (b_payload b);
  d_ommers : e_ommers_hash h = empty_ommers;
  d_beneficiary : e_beneficiary h = fee_recipient (b_payload b);
  d_state : e_state_root h = state_root (b_payload b);
  d_transactions : e_transactions_root h = trie_root (map (enc TC) txs);
  d_receipts : e_receipts_root h = p_receipts_root (b_payload b);
  d_bloom : e_logs_bloom h = logs_bloom (b_payload b);
  d_difficulty : e_difficulty h = 0;
  d_number : e_number h = p_block_number (b_payload b);
  d_gas_limit : e_gas_limit h = gas_limit (b_payload b);
  d_gas_used : e_gas_used h = gas_used (b_payload b);
  d_timestamp : e_timestamp h = p_timestamp (b_payload b);
  d_extra : e_extra_data h = extra_data (b_payload b);
  d_mix : e_mix_hash h = prev_randao (b_payload b);
  d_nonce : e_nonce h = repeat 0 8;
  d_fee : e_base_fee_per_gas h = Some (base_fee_per_gas (b_payload b)) /\ base_fee_per_gas (b_payload b) < 2 ^ 64;
  d_withdrawals : e_withdrawals_root h = if_has (has_withdrawals f) (trie_root (map (fun w => enc WC (to_wd w)) (p_withdrawals (b_payload b))));
  d_blob_gas : e_blob_gas_used h = if_has (has_blobs f) (blob_gas_used (b_payload b));
  d_excess : e_excess_blob_gas h = if_has (has_blobs f) (excess_blob_gas (b_payload b));
  d_beacon_root : e_parent_beacon_block_root h = if_has (has_blobs f) (parent_root b);
  d_requests : e_requests_hash h = if_has (has_requests f) (requests_root [0 :: deposits (requests b); 1 :: withdrawal_requests (requests b); 2 :: consolidations (requests b)]) }.
(** Its body *)
Definition carries (f : fork_name) (b : el_block wd) (txs : list tx) (body : @block_body tx wdl) : Prop :=
  transactions body = txs /\ ommers body = [] /\ withdrawals body = if_has (has_withdrawals f) (map to_wd (p_withdrawals (b_payload b))).
Definition decoded (b : el_block wd) (txs : list tx) : Prop := Forall2 (fun raw t => decode_tx raw = Ok t) (p_transactions (b_payload b)) txs.

(** Hashes are hashes. *)
Definition hashes_ok (b : el_block wd) : Prop :=
  let p := b_payload b in
  Forall len32 [parent_hash p; state_root p; p_receipts_root p; prev_randao p; p_block_hash p; parent_root b; b_state_root b; changes b; commitments b] /\
  blen (fee_recipient p) = 20 /\ length (before b) = 9%nat /\ Forall len32 (before b).
End Spec.

(** ** The containers of consensus-specs (bellatrix, capella, deneb, electra: ExecutionPayload, BeaconBlockBody, BeaconBlock)
    The root of the field with the number [i]; numbers are little endian, zeros fill a leaf. *)
Section Containers.
Context {wd : Type} (bloom_root extra_root : bytes -> bytes) (txs_root : list bytes -> bytes) (wds_root : list wd -> bytes) (requests_tree : el_requests -> bytes).
Definition number_leaf (n : N) : bytes := le_bytes 32 n.
Definition payload_field (f : fork_name) (p : el_payload wd) (i : nat) : option bytes :=
  match i with
  | 0 => Some (parent_hash p)
  | 1 => Some (fee_recipient p ++ repeat 0%N 12)
  | 2 => Some (state_root p)
  | 3 => Some (p_receipts_root p)
  | 4 => Some (bloom_root (logs_bloom p))
  | 5 => Some (prev_randao p)
  | 6 => Some (number_leaf (p_block_number p))
  | 7 => Some (number_leaf (gas_limit p))
  | 8 => Some (number_leaf (gas_used p))
  | 9 => Some (number_leaf (p_timestamp p))
  | 10 => Some (extra_root (extra_data p))
  | 11 => Some (number_leaf (base_fee_per_gas p))
  | 12 => Some (p_block_hash p)
  | 13 => Some (txs_root (p_transactions p))
  | 14 => if_has (has_withdrawals f) (wds_root (p_withdrawals p))
  | 15 => if_has (has_blobs f) (number_leaf (blob_gas_used p))
  | 16 => if_has (has_blobs f) (number_leaf (excess_blob_gas p))
  | _ => None
  end%nat.
(** [payload_root]: the root of the payload, the field with the number 9 *)
Definition body_field (f : fork_name) (b : el_block wd) (payload_root : bytes) (i : nat) : option bytes :=
  match i with
  | 9 => Some payload_root
  | 10 => if_has (has_withdrawals f) (changes b)
  | 11 => if_has (has_blobs f) (commitments b)
  | 12 => if_has (has_requests f) (requests_tree (requests b))
  | _ => nth_error (before b) i
  end%nat.
Definition block_field (b : el_block wd) (body_root : bytes) (i : nat) : option bytes :=
  match i with
  | 0 => Some (number_leaf (b_slot b))
  | 1 => Some (number_leaf (proposer_index b))
  | 2 => Some (parent_root b)
  | 3 => Some (b_state_root b)
  | 4 => Some body_root
  | _ => None
  end%nat.
End Containers.

(** The depth of the tree of the payload *)
Definition depth_of (f : fork_name) : nat := match f with Bellatrix | Capella => 4 | _ => 5 end.
(** The time of a fork *)
Definition in_fork (fk : forks) (f : fork_name) (number time : N) : Prop :=
  match f with
  | Bellatrix => paris_block fk <= number /\ time < shanghai_time fk
  | Capella => shanghai_time fk <= time < cancun_time fk
  | _ => cancun_time fk <= time
  end.
(** The period that a slot is in *)
Definition period (c : chain) (f : fork_name) (s : N) (b : batch) : Prop :=
  match f with
  | Bellatrix => nth_error (batches c) (N.to_nat (s / 8192)) = Some b
  | _ => 194048 * 32 <= s /\ nth_error (later_batches c) (N.to_nat ((s - 194048 * 32) / 8192)) = Some b
  end.
(** The validator can get the summary of the period. *)
Definition knows sha (c : chain) (f : fork_name) (s : N) (source : option (list summary)) : Prop :=
  match f with
  | Bellatrix => True
  | _ => exists k, (N.to_nat ((s - 194048 * 32) / 8192) < k)%nat /\ source = Some (firstn k (map (batch_summary sha) (later_batches c)))
  end.
(** What LegacyHistory_Model looks at in a header; [rest]: the other fields. *)
Definition lower (rest : el_header -> bytes) (h : el_header) : full_header := {|
  number := e_number h; timestamp := e_timestamp h; ommers_hash := e_ommers_hash h; transactions_root := e_transactions_root h;
  receipts_root := e_receipts_root h; withdrawals_root := e_withdrawals_root h; other_fields := rest h |}.
