(** The eth_ methods that read headers, blocks and states: /repo/crates/rpc/src/eth_rpc.rs.

    The sizes of blocks and the state roots of headers are arguments (alloy); [lookup] is what the
    [GetContent] endpoint of the history network answers to a request of the call, which may be different for
    every request.  [BlockTransactions] is a list of hashes, since full transactions are not
    supported.  Errors carry no details. *)
From Verif Require Import Base Keys_Model Trie_Model StateContent_Model Header_Model LegacyHistory_Model EvmState_Model.

(** alloy's [BlockNumberOrTag] and [BlockId] *)
Inductive number_or_tag := Number (n : N) | Latest | Finalized | Safe | Earliest | Pending.
Definition as_number (t : number_or_tag) : option N := match t with Number n => Some n | _ => None end.
Inductive block_id := ByHash (hash : bytes) | ByNumber (t : number_or_tag).

Section Api.
Context {tx rct wdl : Type}.
Context (HC : codec full_header) (HL : codec (list full_header)) (TC : codec tx) (RC : codec rct) (WC : codec wdl).
Context (keccak : bytes -> bytes) (trie_root : list bytes -> bytes).
Context (sha : bytes -> bytes) (fk : forks).
Context (block_length : full_header -> @block_body tx wdl -> N) (state_root_of : full_header -> bytes).

(** portalnet overlay/service/find_content.rs:697-717 and 505-590: what a node answers to [GetContent]: the
    stored value, or a value from the network ([net]) that passes validation, in the course of
    which a header may be looked up ([net_header]). *)
Definition answer (n : node) (source : option (list summary)) (net net_header : option bytes) (k : legacy_key) : outcome bytes :=
  match stored (n_store n) k with
  | Some b => Ok b
  | None =>
      match net with
      | None => Err
      | Some b =>
          match snd (validate_legacy HC HL TC RC WC keccak trie_root sha fk (n_validator n) source
                       (get_content HC HL TC RC WC keccak trie_root sha fk n source net_header) k b) with
          | Ok CanonicallyValid | Ok Valid => Ok b
          | _ => Err
          end
      end
  end.

Context (lookup : N -> legacy_key -> outcome bytes).

(** eth_rpc.rs:162-171 [fetch_history_content] *)
Definition fetch_history_content (i : N) (k : legacy_key) : outcome (@legacy_value tx rct wdl) :=
  obind (lookup i k) (legacy_decode HC HL TC RC WC fk k).
Definition header_of (v : @legacy_value tx rct wdl) : outcome full_header := match v with VHeader x => Ok (fst x) | _ => Err end.
(** eth_rpc.rs:173-192 [fetch_header_by_number] *)
Definition fetch_header_by_number (i : N) (t : number_or_tag) : outcome full_header :=
  match as_number t with
  | None => Err
  | Some n => obind (fetch_history_content i (BlockHeaderByNumber n)) header_of
  end.
(** eth_rpc.rs:194-207 [fetch_header_by_hash] *)
Definition fetch_header_by_hash (i : N) (hash : bytes) : outcome full_header :=
  obind (fetch_history_content i (BlockHeaderByHash hash)) header_of.
(** eth_rpc.rs:241-251 [fetch_block_body] *)
Definition fetch_block_body (i : N) (hash : bytes) : outcome (@block_body tx wdl) :=
  obind (fetch_history_content i (BlockBody hash)) (fun v => match v with VBody b => Ok b | _ => Err end).

(** alloy's [Block] of the JSON-RPC: the header, its hash (which [RpcHeader::new] computes), the size, and
    what comes from the body. *)
Record rpc_block := mk_block {
  b_header : full_header;
  b_hash : bytes;
  b_size : N;
  b_transactions : list bytes;
  b_uncles : list bytes;
  b_withdrawals : option (list wdl) }.
(** eth_rpc.rs:209-239 [fetch_block]; the hash of a transaction is that of its EIP-2718 encoding. *)
Definition fetch_block (i : N) (h : full_header) (hydrated : bool) : outcome rpc_block :=
  if hydrated then Err
  else obind (fetch_block_body i (hash_slow HC keccak h)) (fun body =>
    Ok (mk_block h (hash_slow HC keccak h) (block_length h body)
          (map (fun t => keccak (enc TC t)) (transactions body))
          (map (hash_slow HC keccak) (ommers body))
          (withdrawals body))).
(** eth_rpc.rs:59-66 [get_block_by_number] *)
Definition get_block_by_number (t : number_or_tag) (hydrated : bool) : outcome rpc_block :=
  obind (fetch_header_by_number 0 t) (fun h => fetch_block 1 h hydrated).
(** eth_rpc.rs:68-75 [get_block_by_hash] *)
Definition get_block_by_hash (hash : bytes) (hydrated : bool) : outcome rpc_block :=
  obind (fetch_header_by_hash 0 hash) (fun h => fetch_block 1 h hydrated).

(** eth_rpc.rs:255-268 [evm_block_state]: the header whose state is read; [enabled]: the node runs
    the state network. *)
Definition evm_block_state (enabled : bool) (block : block_id) : outcome full_header :=
  if enabled then
    match block with
    | ByHash hash => fetch_header_by_hash 0 hash
    | ByNumber t => fetch_header_by_number 0 t
    end
  else Err.
(** eth_rpc.rs:77-118: a read of the state, in a new session; [None]: still in a loop. *)
Definition on_state {A} (enabled : bool) (block : block_id) (read : R A) : option (outcome A) :=
  match evm_block_state enabled block with
  | Ok h => option_map snd (read (open_session (state_root_of h)))
  | Err => Some Err
  | Panic => Some Panic
  end.
Context (decode_node : bytes -> outcome Trie_Model.node) (decode_account : bytes -> outcome account)
        (raw_ok : bytes -> bool) (state_net : N -> state_key -> outcome bytes).
(** eth_rpc.rs:77-84 *)
Definition eth_get_balance (enabled : bool) (fuel : nat) (address : bytes) (block : block_id) : option (outcome N) :=
  on_state enabled block (get_balance keccak decode_node decode_account state_net fuel address).
(** eth_rpc.rs:86-96 *)
Definition eth_get_storage_at (enabled : bool) (fuel : nat) (address : bytes) (slot : N) (block : block_id) : option (outcome N) :=
  on_state enabled block (get_storage_at keccak decode_node decode_account state_net fuel address slot).
(** eth_rpc.rs:98-118 *)
Definition eth_get_code (enabled : bool) (fuel : nat) (address : bytes) (block : block_id) : option (outcome bytes) :=
  on_state enabled block (get_code keccak decode_node decode_account raw_ok state_net fuel address).
End Api.
