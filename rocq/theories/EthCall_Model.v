(** eth_call: /repo/crates/rpc/src/eth_rpc.rs 120-156 and /repo/crates/evm/src/async_db.rs.

    The EVM (revm) is an argument: for the rules, the block and the transaction that it is given it
    is a program that asks its database for accounts, codes, slots and hashes of blocks, one after
    another, and ends with a result.  It is finite, because gas is.  An error of the database ends
    the execution with an error ([EVMError::Database]); a panic within [spawn_blocking] becomes an
    error as well (async_db.rs:95-99). *)
From Verif Require Import Base Rewards_Model TxEnv_Model Keys_Model Trie_Model StateContent_Model Header_Model LegacyHistory_Model EvmState_Model EthApi_Model.

(** revm's [ExecutionResult], and the errors that are not of the database *)
Inductive exec := Success (output : bytes) | Revert | Halt | Refused.
Inductive program :=
| Done (r : exec)
| Ask (q : query) (k : reply -> program)
| AskHash (number : N) (k : bytes -> program).

(** eth_rpc.rs:123-133: the defaults of a request *)
Definition fill (h : env_header) (r : request) : request :=
  mk_request (r_from r) (r_to r)
    (match r_gas_price r with Some p => Some p | None => v_base_fee h end)
    (r_max_fee r) (r_max_priority_fee r) (r_max_fee_per_blob_gas r)
    (match r_gas r with Some g => Some g | None => Some (v_gas_limit h) end)
    (r_value r) (r_input r) (r_data r) (r_nonce r) (r_chain_id r) (r_access_list r) (r_type r) (r_blob_hashes r) (r_authorizations r).

Section Call.
Context {tx rct wdl : Type}.
Context (HC : codec full_header) (HL : codec (list full_header)) (TC : codec tx) (RC : codec rct) (WC : codec wdl).
Context (keccak : bytes -> bytes) (fk : forks) (state_root_of : full_header -> bytes) (fields : full_header -> env_header).
Context (lookup : N -> legacy_key -> outcome bytes).
Context (decode_node : bytes -> outcome Trie_Model.node) (decode_account : bytes -> outcome account)
        (raw_ok : bytes -> bool) (state_net : N -> state_key -> outcome bytes).
Context (blob_price : N -> bool -> N) (default_gas : N) (evm : spec_id -> block_env -> tx_env -> program).

(** async_db.rs:61-79 [WrapAsyncDatabase]: the EVM reads the state of the session. *)
Fixpoint run (fuel : nat) (p : program) : R exec :=
  match p with
  | Done r => rret (Ok r)
  | Ask q k => rbind (ask keccak decode_node decode_account raw_ok state_net fuel q) (fun a => run fuel (k a))
  | AskHash n k => rbind (EvmState_Model.block_hash n) (fun h => run fuel (k h))
  end.
(** async_db.rs:81-100 [execute_transaction] *)
Definition execute_transaction (fuel : nat) (block : block_env) (r : request) : R exec := fun s =>
  let (spec, e) := create_evm_request default_gas block r in
  match run fuel (evm spec block e) s with
  | Some (s, Panic) => Some (s, Err)
  | x => x
  end.
(** eth_rpc.rs:120-156 [call] *)
Definition eth_call (enabled : bool) (fuel : nat) (r : request) (block : block_id) : option (outcome bytes) :=
  match evm_block_state HC HL TC RC WC fk lookup enabled block with
  | Ok h =>
      match execute_transaction fuel (create_block_env blob_price (fields h)) (fill (fields h) r) (open_session (state_root_of h)) with
      | None => None
      | Some (_, Ok (Success output)) => Some (Ok output)
      | Some (_, Panic) => Some Panic
      | Some _ => Some Err
      end
  | Err => Some Err
  | Panic => Some Panic
  end.
End Call.
