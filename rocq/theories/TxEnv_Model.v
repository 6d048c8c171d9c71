(** What the EVM is told about a transaction and a block: /repo/crates/evm/src/tx_env_modifier.rs,
    /repo/crates/evm/src/lib.rs and /repo/bin/trin-execution/src/e2hs/types.rs.

    revm's [TxEnv] and [BlockEnv] are records of plain values; addresses, hashes and keys of access
    lists are byte strings.  [default_tx_env] is revm's [TxEnv::default()], whose gas limit is an
    argument.  Signatures and blob sidecars, which the EVM does not see, are left out, and so is
    the content of authorizations, which [Tx7702] and requests only carry.  The price of blob gas
    is an argument (revm). *)
From Verif Require Import Base Rewards_Model.

(** alloy's [TxKind] and [AccessList] *)
Inductive kind := Call (address : bytes) | Create.
Definition accesses := list (bytes * list bytes).
(** revm's [TxEnv] *)
Record tx_env := mk_tx {
  e_type : N;
  e_caller : bytes;
  e_gas_limit : N;
  e_gas_price : N;
  e_kind : kind;
  e_value : N;
  e_data : bytes;
  e_nonce : N;
  e_chain_id : option N;
  e_access_list : accesses;
  e_gas_priority_fee : option N;
  e_blob_hashes : list bytes;
  e_max_fee_per_blob_gas : N;
  e_authorizations : list bytes }.
Definition zero_address : bytes := repeat 0 20.
(** revm's [TxEnv::default()] *)
Definition default_tx_env (gas : N) : tx_env :=
  mk_tx 0 zero_address gas 0 (Call zero_address) 0 [] 0 (Some 1) [] None [] 0 [].

(** alloy's transactions *)
Record tx_legacy := { l_nonce : N; l_gas_price : N; l_gas_limit : N; l_to : kind; l_value : N; l_input : bytes; l_chain_id : option N }.
Record tx_2930 := { a_chain_id : N; a_nonce : N; a_gas_price : N; a_gas_limit : N; a_to : kind; a_value : N; a_access_list : accesses; a_input : bytes }.
Record tx_1559 := { f_chain_id : N; f_nonce : N; f_gas_limit : N; f_max_fee : N; f_max_priority_fee : N; f_to : kind; f_value : N; f_access_list : accesses; f_input : bytes }.
Record tx_4844 := { b_chain_id : N; b_nonce : N; b_gas_limit : N; b_max_fee : N; b_max_priority_fee : N; b_to : bytes; b_value : N; b_access_list : accesses; b_blob_hashes : list bytes; b_max_fee_per_blob_gas : N; b_input : bytes }.
(** alloy's [TxEnvelope]; the two forms of a blob transaction have the same fields. *)
Inductive envelope :=
| Legacy (t : tx_legacy)
| Eip2930 (t : tx_2930)
| Eip1559 (t : tx_1559)
| Eip4844 (t : tx_4844) (sidecar : bool)
| Eip7702 (t : tx_1559) (authorizations : list bytes).

(** tx_env_modifier.rs:14-37 *)
Definition modify_legacy (t : tx_legacy) (block_number : N) (e : tx_env) : tx_env :=
  mk_tx 0 (e_caller e) (l_gas_limit t) (l_gas_price t) (l_to t) (l_value t) (l_input t) (l_nonce t)
    (if is_enabled_in (get_spec_id block_number) SPURIOUS_DRAGON then Some 1 else None) [] None [] 0 [].
(** tx_env_modifier.rs:39-58 *)
Definition modify_2930 (t : tx_2930) (e : tx_env) : tx_env :=
  mk_tx 1 (e_caller e) (a_gas_limit t) (a_gas_price t) (a_to t) (a_value t) (a_input t) (a_nonce t)
    (Some (a_chain_id t)) (a_access_list t) None [] 0 [].
(** tx_env_modifier.rs:60-79 *)
Definition modify_1559 (t : tx_1559) (e : tx_env) : tx_env :=
  mk_tx 2 (e_caller e) (f_gas_limit t) (f_max_fee t) (f_to t) (f_value t) (f_input t) (f_nonce t)
    (Some (f_chain_id t)) (f_access_list t) (Some (f_max_priority_fee t)) [] 0 [].
(** tx_env_modifier.rs:81-100 *)
Definition modify_4844 (t : tx_4844) (e : tx_env) : tx_env :=
  mk_tx 3 (e_caller e) (b_gas_limit t) (b_max_fee t) (Call (b_to t)) (b_value t) (b_input t) (b_nonce t)
    (Some (b_chain_id t)) (b_access_list t) (Some (b_max_priority_fee t)) (b_blob_hashes t) (b_max_fee_per_blob_gas t) [].

Definition with_caller (c : bytes) (e : tx_env) : tx_env :=
  mk_tx (e_type e) c (e_gas_limit e) (e_gas_price e) (e_kind e) (e_value e) (e_data e) (e_nonce e) (e_chain_id e) (e_access_list e) (e_gas_priority_fee e) (e_blob_hashes e) (e_max_fee_per_blob_gas e) (e_authorizations e).
(** e2hs/types.rs:10-33 [TransactionsWithSender] and its [modify] *)
Record sent := { s_transaction : envelope; s_sender : bytes }.
Definition modify_sent (x : sent) (block_number : N) (e : tx_env) : outcome tx_env :=
  let e := with_caller (s_sender x) e in
  match s_transaction x with
  | Legacy t => Ok (modify_legacy t block_number e)
  | Eip2930 t => Ok (modify_2930 t e)
  | Eip1559 t => Ok (modify_1559 t e)
  | Eip4844 t _ => Ok (modify_4844 t e)
  | Eip7702 _ _ => Panic
  end.

(** alloy's [TransactionRequest], which eth_call takes; [r_data] is the older name of [r_input]. *)
Record request := mk_request {
  r_from : option bytes;
  r_to : option kind;
  r_gas_price : option N;
  r_max_fee : option N;
  r_max_priority_fee : option N;
  r_max_fee_per_blob_gas : option N;
  r_gas : option N;
  r_value : option N;
  r_input : option bytes;
  r_data : option bytes;
  r_nonce : option N;
  r_chain_id : option N;
  r_access_list : option accesses;
  r_type : option N;
  r_blob_hashes : option (list bytes);
  r_authorizations : option (list bytes) }.
Definition or_else {A} (o : option A) (d : A) : A := match o with Some x => x | None => d end.
(** tx_env_modifier.rs:102-141; [input.input()] is the input or else the data. *)
Definition modify_request (r : request) (e : tx_env) : tx_env :=
  mk_tx (e_type e)
    (or_else (r_from r) (e_caller e))
    (or_else (r_gas r) (e_gas_limit e))
    (or_else (r_max_fee r) (or_else (r_gas_price r) (e_gas_price e)))
    (or_else (r_to r) (e_kind e))
    (or_else (r_value r) (e_value e))
    (or_else (r_input r) (or_else (r_data r) (e_data e)))
    (or_else (r_nonce r) (e_nonce e))
    (r_chain_id r)
    (or_else (r_access_list r) (e_access_list e))
    (r_max_priority_fee r)
    (or_else (r_blob_hashes r) (e_blob_hashes e))
    (or_else (r_max_fee_per_blob_gas r) (e_max_fee_per_blob_gas e))
    (e_authorizations e).

(** The fields of alloy's [Header] that the EVM sees. *)
Record env_header := {
  v_number : N;
  v_timestamp : N;
  v_gas_limit : N;
  v_base_fee : option N;
  v_difficulty : N;
  v_mix_hash : bytes;
  v_excess_blob_gas : option N;
  v_beneficiary : bytes }.
(** revm's [BlockEnv] *)
Record block_env := mk_block_env {
  be_number : N;
  be_timestamp : N;
  be_gas_limit : N;
  be_basefee : N;
  be_difficulty : N;
  be_prevrandao : option bytes;
  be_blob : option (N * N);
  be_beneficiary : bytes }.
Section Blob.
(** revm's price of blob gas, from the excess and whether the rules are those of Prague. *)
Context (blob_price : N -> bool -> N).
(** lib.rs:18-45 [create_block_env] *)
Definition create_block_env (h : env_header) : block_env :=
  mk_block_env (v_number h) (v_timestamp h) (v_gas_limit h) (or_else (v_base_fee h) 0) (v_difficulty h)
    (prevrandao (v_number h) (v_mix_hash h))
    (match v_excess_blob_gas h with
     | Some x => Some (x, blob_price x (is_enabled_in (get_spec_id (v_number h)) PRAGUE))
     | None => None
     end)
    (v_beneficiary h).
End Blob.
(** lib.rs:48-61 [create_evm]: the rules and the transaction that an EVM made for a block and a
    transaction has. *)
Definition create_evm_request (gas : N) (block : block_env) (r : request) : spec_id * tx_env :=
  (get_spec_id (be_number block), modify_request r (default_tx_env gas)).
Definition create_evm_sent (gas : N) (block : block_env) (x : sent) : outcome (spec_id * tx_env) :=
  omap (fun e => (get_spec_id (be_number block), e)) (modify_sent x (be_number block) (default_tx_env gas)).
