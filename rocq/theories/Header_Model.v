(** Checking that a block header is part of the chain: /repo/crates/validation/src/header_validator.rs,
    accumulator.rs, historical_summaries_provider.rs; building such proofs:
    /repo/crates/ethportal-api/src/types/execution/header_with_proof.rs and types/consensus. *)
From Verif Require Import Base Merkle_Model.

(** consensus/constants.rs:15,20,30 *)
Definition slots_per_epoch : N := 32.
Definition slots_per_historical_root : N := 8192.
Definition capella_fork_epoch : N := 194048.

(** The fields of a header that are looked at; [h_hash] is [hash_slow]. *)
Record header := { h_number : N; h_timestamp : N; h_hash : bytes }.
(** network_spec.rs (the crate [alloy_hardforks]): when Paris, Shanghai and Cancun are active. *)
Record forks := { paris_block : N; shanghai_time : N; cancun_time : N }.
Definition paris_active (f : forks) (number : N) : bool := paris_block f <=? number.
Definition shanghai_active (f : forks) (time : N) : bool := shanghai_time f <=? time.
Definition cancun_active (f : forks) (time : N) : bool := cancun_time f <=? time.

(** header_with_proof.rs:130-178: the three proofs for headers after the merge have the same fields. *)
Record block_proof := { beacon_block_proof : list bytes; beacon_block_root : bytes; execution_block_proof : list bytes; slot : N }.
(** header_with_proof.rs:55-65 *)
Inductive header_proof :=
  | HistoricalHashes (p : list bytes)
  | HistoricalRoots (p : block_proof)
  | SummariesCapella (p : block_proof)
  | SummariesDeneb (p : block_proof).
(** header_with_proof.rs:28-43: the lengths are part of the types. *)
Definition typed (p : header_proof) : Prop :=
  match p with
  | HistoricalHashes p => length p = 15%nat
  | HistoricalRoots p => length (beacon_block_proof p) = 14%nat /\ length (execution_block_proof p) = 11%nat
  | SummariesCapella p => length (beacon_block_proof p) = 13%nat /\ length (execution_block_proof p) = 11%nat
  | SummariesDeneb p => length (beacon_block_proof p) = 13%nat /\ length (execution_block_proof p) = 12%nat
  end.

(** historical_summaries.rs:18-21 *)
Record summary := { block_summary_root : bytes; state_summary_root : bytes }.
(** historical_summaries.rs:45-52 [historical_summary_index] *)
Definition historical_summary_index (slot : N) : option N :=
  let capella_slot := capella_fork_epoch * slots_per_epoch in
  if slot <? capella_slot then None else Some ((slot - capella_slot) / slots_per_historical_root).
(** historical_summaries_provider.rs:34-68 [get_historical_summary]: [source] is what the oracle answers
    ([None]: an error).  Returns the new cache. *)
Definition get_historical_summary (cache : list summary) (source : option (list summary)) (slot : N) : list summary * option summary :=
  match historical_summary_index slot with
  | None => (cache, None)
  | Some i =>
      match nth_error cache (N.to_nat i) with
      | Some s => (cache, Some s)
      | None =>
          match source with
          | None => (cache, None)
          | Some l =>
              match nth_error l (N.to_nat i) with
              | Some s => (l, Some s)
              | None => (cache, None)
              end
          end
      end
  end.

(** header_validator.rs:33-40; the summaries provider is [cache]. *)
Record validator := { pre_merge_acc : list bytes; historical_roots : list bytes; cache : list summary }.

Section Sha.
Context (sha : bytes -> bytes) (fk : forks).

(** header_validator.rs:99-127 [verify_pre_merge_header]; indexing past the end panics. *)
Definition verify_pre_merge_header (v : validator) (h : header) (p : list bytes) : outcome unit :=
  if paris_active fk (h_number h) then Err
  else
    let header_index := h_number h mod slots_per_historical_root in
    let gen_index := slots_per_historical_root * 2 * 2 + header_index * 2 in
    match nth_error (pre_merge_acc v) (N.to_nat (h_number h / slots_per_historical_root)) with
    | None => Panic
    | Some epoch_hash => if verify_merkle_proof sha (h_hash h) p 15 gen_index epoch_hash then Ok tt else Err
    end.

(** header_validator.rs:238-267, 269-298 *)
Definition verify_bellatrix_execution_proof (hash : bytes) (p : list bytes) (root : bytes) : bool :=
  verify_merkle_proof sha hash p (length p) 3228 root.
Definition verify_deneb_execution_proof (hash : bytes) (p : list bytes) (root : bytes) : bool :=
  verify_merkle_proof sha hash p (length p) 6444 root.
(** header_validator.rs:300-321 [verify_historical_roots_beacon_block_proof] *)
Definition verify_historical_roots_proof (v : validator) (slot : N) (root : bytes) (p : list bytes) : outcome bool :=
  let gen_index := 2 * slots_per_historical_root + slot mod slots_per_historical_root in
  match nth_error (historical_roots v) (N.to_nat (slot / slots_per_historical_root)) with
  | None => Panic
  | Some historical_root => Ok (verify_merkle_proof sha root p 14 gen_index historical_root)
  end.
(** header_validator.rs:323-347 [verify_historical_summaries_beacon_block_proof] *)
Definition verify_historical_summaries_proof (v : validator) (source : option (list summary)) (slot : N) (root : bytes) (p : list bytes) : validator * bool :=
  let (c, s) := get_historical_summary (cache v) source slot in
  ({| pre_merge_acc := pre_merge_acc v; historical_roots := historical_roots v; cache := c |},
   match s with
   | None => false
   | Some s => verify_merkle_proof sha root p 13 (slots_per_historical_root + slot mod slots_per_historical_root) (block_summary_root s)
   end).

(** header_validator.rs:129-163 [verify_merge_to_capella_header] *)
Definition verify_merge_to_capella_header (v : validator) (h : header) (p : block_proof) : outcome unit :=
  if negb (paris_active fk (h_number h)) then Err
  else if shanghai_active fk (h_timestamp h) then Err
  else if negb (verify_bellatrix_execution_proof (h_hash h) (execution_block_proof p) (beacon_block_root p)) then Err
  else
    match verify_historical_roots_proof v (slot p) (beacon_block_root p) (beacon_block_proof p) with
    | Ok true => Ok tt
    | Panic => Panic
    | _ => Err
    end.
(** header_validator.rs:165-201 [verify_capella_to_deneb_header] *)
Definition verify_capella_to_deneb_header (v : validator) (source : option (list summary)) (h : header) (p : block_proof) : validator * outcome unit :=
  if negb (shanghai_active fk (h_timestamp h)) then (v, Err)
  else if cancun_active fk (h_timestamp h) then (v, Err)
  else if negb (verify_bellatrix_execution_proof (h_hash h) (execution_block_proof p) (beacon_block_root p)) then (v, Err)
  else
    let (v, ok) := verify_historical_summaries_proof v source (slot p) (beacon_block_root p) (beacon_block_proof p) in
    (v, if ok then Ok tt else Err).
(** header_validator.rs:203-236 [verify_post_deneb_header] *)
Definition verify_post_deneb_header (v : validator) (source : option (list summary)) (h : header) (p : block_proof) : validator * outcome unit :=
  if negb (cancun_active fk (h_timestamp h)) then (v, Err)
  else if negb (verify_deneb_execution_proof (h_hash h) (execution_block_proof p) (beacon_block_root p)) then (v, Err)
  else
    let (v, ok) := verify_historical_summaries_proof v source (slot p) (beacon_block_root p) (beacon_block_proof p) in
    (v, if ok then Ok tt else Err).

(** header_validator.rs:73-97 [validate_header_with_proof] *)
Definition validate_header_with_proof (v : validator) (source : option (list summary)) (h : header) (p : header_proof) : validator * outcome unit :=
  match p with
  | HistoricalHashes p => (v, verify_pre_merge_header v h p)
  | HistoricalRoots p => (v, verify_merge_to_capella_header v h p)
  | SummariesCapella p => verify_capella_to_deneb_header v source h p
  | SummariesDeneb p => verify_post_deneb_header v source h p
  end.

(** execution/accumulator.rs:15-19 *)
Record record := { block_hash : bytes; total_difficulty : N }.
Definition le32 (n : N) : bytes := le_bytes 32 n.
(** accumulator.rs:58-124 [construct_proof] *)
Definition construct_proof (debug : bool) (h : header) (epoch : list record) : outcome (list bytes) :=
  let hr_index := h_number h mod slots_per_historical_root in
  match nth_error epoch (N.to_nat hr_index) with
  | None => Panic
  | Some r =>
      if negb (beqb (block_hash r) (h_hash h)) then Err
      else
        let difficulty := le32 (total_difficulty r) in
        let record_hash := sha (block_hash r ++ difficulty) in
        let leaves := map (fun r => sha (block_hash r ++ le32 (total_difficulty r))) epoch in
        match generate_proof sha debug (create sha leaves 13) hr_index 13 with
        | RErr _ => Err
        | RPanic => Panic
        | ROk (leaf, proof) =>
            if negb (beqb leaf record_hash) then Panic
            else
              let final := difficulty :: proof ++ [le32 (blen epoch)] in
              if (length final =? 15)%nat then Ok final else Err
        end
  end.

(** The crate [rs_merkle]: the root of a tree with a power of two of leaves, and the siblings on
    the way up from a leaf. *)
Fixpoint rs_root (d : nat) (leaves : list bytes) : bytes :=
  match d with
  | O => nth 0 leaves []
  | S d => sha (rs_root d (firstn (2 ^ d) leaves) ++ rs_root d (skipn (2 ^ d) leaves))
  end.
Fixpoint rs_proof (d : nat) (leaves : list bytes) (index : N) : list bytes :=
  match d with
  | O => []
  | S d =>
      let l := firstn (2 ^ d) leaves in
      let r := skipn (2 ^ d) leaves in
      if N.testbit index (N.of_nat d) then rs_proof d r index ++ [rs_root d l] else rs_proof d l index ++ [rs_root d r]
  end.
(** consensus/proof.rs:4-27 [build_merkle_proof_for_index]; [depth] is the logarithm of [next_power_of_two]. *)
Definition build_merkle_proof (leaves : list bytes) (index : N) : list bytes :=
  let depth := N.log2_up (blen leaves) in
  rs_proof (N.to_nat depth) (firstn (N.to_nat (2 ^ depth)) (leaves ++ repeat (repeat 0 32) (N.to_nat (2 ^ depth)))) index.

(** A beacon block as the roots of its fields: of the block before the body, of the body before and after the
    execution payload, and of the payload. *)
Record beacon_block := { bb_fields : list bytes; body_before : list bytes; body_after : list bytes; payload : list bytes }.
(** Tree hash of a container: the fields, filled up with zeros (the crate [tree_hash]). *)
Definition container_root (fields : list bytes) : bytes :=
  hash sha (create sha fields (N.to_nat (N.log2_up (blen fields)))).
Definition payload_root (b : beacon_block) : bytes := container_root (payload b).
Definition body_root (b : beacon_block) : bytes := container_root (body_before b ++ [payload_root b] ++ body_after b).
Definition beacon_root (b : beacon_block) : bytes := container_root (bb_fields b ++ [body_root b]).
(** beacon_block.rs:77-168, body.rs:111-191, execution_payload.rs:96-189 [build_execution_block_hash_proof] *)
Definition build_execution_block_hash_proof (b : beacon_block) : list bytes :=
  build_merkle_proof (payload b) 12 ++ build_merkle_proof (body_before b ++ [payload_root b] ++ body_after b) 9 ++
  build_merkle_proof (bb_fields b ++ [body_root b]) 4.
(** header_with_proof.rs:180-202 [build_historical_roots_proof], with beacon_state.rs:390-405 *)
Definition build_historical_roots_proof (slot : N) (block_roots state_roots : list bytes) (b : beacon_block) : block_proof :=
  {| beacon_block_proof := build_merkle_proof block_roots (slot mod slots_per_historical_root) ++ [container_root state_roots];
     beacon_block_root := beacon_root b;
     execution_block_proof := build_execution_block_hash_proof b; slot := slot |}.
(** header_with_proof.rs:204-283: the same for Capella, Deneb and Electra *)
Definition build_historical_summaries_proof (slot : N) (block_roots : list bytes) (b : beacon_block) : block_proof :=
  {| beacon_block_proof := build_merkle_proof block_roots (slot mod slots_per_historical_root);
     beacon_block_root := beacon_root b;
     execution_block_proof := build_execution_block_hash_proof b; slot := slot |}.
End Sha.
