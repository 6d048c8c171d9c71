(** Execution blocks from beacon blocks: /repo/crates/ethportal-api/src/types/execution/builders/{header,block}.rs, with
    types/consensus/{beacon_block,body,execution_payload,execution_requests}.rs.

    The types of the four forks are one record here: the fields that a fork does not have are not read.  The trees of
    the parts of a beacon block other than its payload are given by their roots.  The codecs of alloy, its roots of
    tries, the hash of requests and the other SSZ roots are arguments. *)
From Verif Require Import Base Ssz_Model Trie_Model Header_Model LegacyHistory_Model.

Inductive fork_name := Bellatrix | Capella | Deneb | Electra.
(** execution_payload.rs:46-79 *)
Record el_payload {wd : Type} := {
  parent_hash : bytes; fee_recipient : bytes; state_root : bytes; p_receipts_root : bytes; logs_bloom : bytes; prev_randao : bytes;
  p_block_number : N; gas_limit : N; gas_used : N; p_timestamp : N; extra_data : bytes; base_fee_per_gas : N; p_block_hash : bytes;
  p_transactions : list bytes; p_withdrawals : list wd; blob_gas_used : N; excess_blob_gas : N }.
Arguments el_payload : clear implicits.
(** execution_requests.rs:25-30; the SSZ bytes of the three lists. *)
Record el_requests := { deposits : bytes; withdrawal_requests : bytes; consolidations : bytes }.
(** beacon_block.rs:44-66 and body.rs:52-87; [before]: the roots of the nine fields before the payload; [changes] and
    [commitments]: those of the fields after it. *)
Record el_block {wd : Type} := {
  b_slot : N; proposer_index : N; parent_root : bytes; b_state_root : bytes;
  before : list bytes; b_payload : el_payload wd; changes : bytes; commitments : bytes; requests : el_requests }.
Arguments el_block : clear implicits.

(** alloy's [Header] *)
Record el_header := {
  e_parent_hash : bytes; e_ommers_hash : bytes; e_beneficiary : bytes; e_state_root : bytes; e_transactions_root : bytes;
  e_receipts_root : bytes; e_logs_bloom : bytes; e_difficulty : N; e_number : N; e_gas_limit : N; e_gas_used : N; e_timestamp : N;
  e_extra_data : bytes; e_mix_hash : bytes; e_nonce : bytes; e_base_fee_per_gas : option N; e_withdrawals_root : option bytes;
  e_blob_gas_used : option N; e_excess_blob_gas : option N; e_parent_beacon_block_root : option bytes; e_requests_hash : option bytes }.

Section Build.
Context {tx wdl wd : Type}.
Context (TC : codec tx) (WC : codec wdl) (to_wd : wd -> wdl) (decode_tx : bytes -> outcome tx).
Context (trie_root : list bytes -> bytes) (hash_of : el_header -> bytes) (empty_ommers : bytes) (requests_root : list bytes -> bytes).

(** execution_requests.rs:33-47 [requests_hash] *)
Definition requests_hash (r : el_requests) : bytes :=
  requests_root [0 :: deposits r; 1 :: withdrawal_requests r; 2 :: consolidations r].
(** alloy's [calculate_transaction_root] and [calculate_withdrawals_root] *)
Definition calculate_transaction_root (txs : list tx) : bytes := trie_root (map (enc TC) txs).
Definition calculate_withdrawals_root (ws : list wdl) : bytes := trie_root (map (enc WC) ws).
(** header.rs:43, 81, 120, 160: [U256::to::<u64>] panics if the number is too large. *)
Definition to_u64 (n : N) : outcome N := if n <? 2 ^ 64 then Ok n else Panic.
(** header.rs: the check at the end of all four *)
Definition ensure_hash (p : el_payload wd) (h : el_header) : outcome el_header :=
  if beqb (p_block_hash p) (hash_of h) then Ok h else Err.

(** header.rs:22-56 [bellatrix] *)
Definition header_bellatrix (p : el_payload wd) (txs : list tx) : outcome el_header :=
  obind (to_u64 (base_fee_per_gas p)) (fun fee =>
  ensure_hash p {|
    e_parent_hash := parent_hash p; e_ommers_hash := empty_ommers; e_beneficiary := fee_recipient p; e_state_root := state_root p;
    e_transactions_root := calculate_transaction_root txs; e_receipts_root := p_receipts_root p; e_logs_bloom := logs_bloom p;
    e_difficulty := 0; e_number := p_block_number p; e_gas_limit := gas_limit p; e_gas_used := gas_used p; e_timestamp := p_timestamp p;
    e_extra_data := extra_data p; e_mix_hash := prev_randao p; e_nonce := repeat 0 8; e_base_fee_per_gas := Some fee;
    e_withdrawals_root := None; e_blob_gas_used := None; e_excess_blob_gas := None; e_parent_beacon_block_root := None; e_requests_hash := None |}).
(** header.rs:58-94 [capella] *)
Definition header_capella (p : el_payload wd) (txs : list tx) (ws : list wdl) : outcome el_header :=
  obind (to_u64 (base_fee_per_gas p)) (fun fee =>
  ensure_hash p {|
    e_parent_hash := parent_hash p; e_ommers_hash := empty_ommers; e_beneficiary := fee_recipient p; e_state_root := state_root p;
    e_transactions_root := calculate_transaction_root txs; e_receipts_root := p_receipts_root p; e_logs_bloom := logs_bloom p;
    e_difficulty := 0; e_number := p_block_number p; e_gas_limit := gas_limit p; e_gas_used := gas_used p; e_timestamp := p_timestamp p;
    e_extra_data := extra_data p; e_mix_hash := prev_randao p; e_nonce := repeat 0 8; e_base_fee_per_gas := Some fee;
    e_withdrawals_root := Some (calculate_withdrawals_root ws); e_blob_gas_used := None; e_excess_blob_gas := None; e_parent_beacon_block_root := None; e_requests_hash := None |}).
(** header.rs:96-133 [deneb] *)
Definition header_deneb (p : el_payload wd) (root : bytes) (txs : list tx) (ws : list wdl) : outcome el_header :=
  obind (to_u64 (base_fee_per_gas p)) (fun fee =>
  ensure_hash p {|
    e_parent_hash := parent_hash p; e_ommers_hash := empty_ommers; e_beneficiary := fee_recipient p; e_state_root := state_root p;
    e_transactions_root := calculate_transaction_root txs; e_receipts_root := p_receipts_root p; e_logs_bloom := logs_bloom p;
    e_difficulty := 0; e_number := p_block_number p; e_gas_limit := gas_limit p; e_gas_used := gas_used p; e_timestamp := p_timestamp p;
    e_extra_data := extra_data p; e_mix_hash := prev_randao p; e_nonce := repeat 0 8; e_base_fee_per_gas := Some fee;
    e_withdrawals_root := Some (calculate_withdrawals_root ws); e_blob_gas_used := Some (blob_gas_used p);
    e_excess_blob_gas := Some (excess_blob_gas p); e_parent_beacon_block_root := Some root; e_requests_hash := None |}).
(** header.rs:135-173 [electra] *)
Definition header_electra (p : el_payload wd) (root : bytes) (txs : list tx) (ws : list wdl) (r : el_requests) : outcome el_header :=
  obind (to_u64 (base_fee_per_gas p)) (fun fee =>
  ensure_hash p {|
    e_parent_hash := parent_hash p; e_ommers_hash := empty_ommers; e_beneficiary := fee_recipient p; e_state_root := state_root p;
    e_transactions_root := calculate_transaction_root txs; e_receipts_root := p_receipts_root p; e_logs_bloom := logs_bloom p;
    e_difficulty := 0; e_number := p_block_number p; e_gas_limit := gas_limit p; e_gas_used := gas_used p; e_timestamp := p_timestamp p;
    e_extra_data := extra_data p; e_mix_hash := prev_randao p; e_nonce := repeat 0 8; e_base_fee_per_gas := Some fee;
    e_withdrawals_root := Some (calculate_withdrawals_root ws); e_blob_gas_used := Some (blob_gas_used p);
    e_excess_blob_gas := Some (excess_blob_gas p); e_parent_beacon_block_root := Some root; e_requests_hash := Some (requests_hash r) |}).

(** block.rs:165-175 [decode_transactions]; in parallel: any of the errors may be the one that is returned. *)
Definition decode_transactions (l : list bytes) : outcome (list tx) := all_ok (map decode_tx l).

(** ** The trees *)
Context (sha : bytes -> bytes) (bloom_root extra_root : bytes -> bytes) (txs_root : list bytes -> bytes) (wds_root : list wd -> bytes) (requests_tree : el_requests -> bytes).
(** execution_payload.rs:96-189: the leaves *)
Definition payload_leaves (f : fork_name) (p : el_payload wd) : list bytes :=
  let base := [parent_hash p; fee_recipient p ++ repeat 0 12; state_root p; p_receipts_root p; bloom_root (logs_bloom p); prev_randao p;
    le_bytes 32 (p_block_number p); le_bytes 32 (gas_limit p); le_bytes 32 (gas_used p); le_bytes 32 (p_timestamp p); extra_root (extra_data p);
    le_bytes 32 (base_fee_per_gas p); p_block_hash p; txs_root (p_transactions p)] in
  match f with
  | Bellatrix => base
  | Capella => base ++ [wds_root (p_withdrawals p)]
  | Deneb | Electra => base ++ [wds_root (p_withdrawals p); le_bytes 32 (blob_gas_used p); le_bytes 32 (excess_blob_gas p)]
  end.
(** beacon_block.rs:81-88 etc. and body.rs:113-126 etc. *)
Definition tree_of (f : fork_name) (b : el_block wd) : beacon_block := {|
  bb_fields := [le_bytes 32 (b_slot b); le_bytes 32 (proposer_index b); parent_root b; b_state_root b];
  body_before := before b;
  body_after := match f with Bellatrix => [] | Capella => [changes b] | Deneb => [changes b; commitments b] | Electra => [changes b; commitments b; requests_tree (requests b)] end;
  payload := payload_leaves f (b_payload b) |}.

(** block.rs:44-163 [bellatrix], [capella], [deneb] and [electra]; 30-42 [build].  The proofs have the lengths of their
    types whenever the roots of the batch are 8192 (C64). *)
Definition build (f : fork_name) (b : el_block wd) (block_roots state_roots : list bytes) : outcome (el_header * header_proof * @block_body tx wdl) :=
  let p := b_payload b in
  obind (decode_transactions (p_transactions p)) (fun txs =>
  let ws := map to_wd (p_withdrawals p) in
  let summaries := build_historical_summaries_proof sha (b_slot b) block_roots (tree_of f b) in
  match f with
  | Bellatrix =>
      obind (header_bellatrix p txs) (fun h =>
      Ok (h, HistoricalRoots (build_historical_roots_proof sha (b_slot b) block_roots state_roots (tree_of f b)), {| transactions := txs; ommers := []; withdrawals := None |}))
  | Capella => obind (header_capella p txs ws) (fun h => Ok (h, SummariesCapella summaries, {| transactions := txs; ommers := []; withdrawals := Some ws |}))
  | Deneb => obind (header_deneb p (parent_root b) txs ws) (fun h => Ok (h, SummariesDeneb summaries, {| transactions := txs; ommers := []; withdrawals := Some ws |}))
  | Electra => obind (header_electra p (parent_root b) txs ws (requests b)) (fun h => Ok (h, SummariesDeneb summaries, {| transactions := txs; ommers := []; withdrawals := Some ws |}))
  end).
End Build.
