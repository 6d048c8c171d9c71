(** The execution of a block: /repo/bin/trin-execution/src/evm/block_executor.rs 53-95 and 150-237, and
    /repo/bin/trin-execution/src/evm/pre_block_contracts.rs.

    The EVM (revm), its database with the cache ([State<EvmDB>]), the genesis and the window of block
    hashes (ExecDb_Model.v) and the beneficiaries (Rewards_Model.v) are arguments: [transact] gives the gas
    that a transaction uses and the changes of accounts, [commit] applies changes to the database, with or
    without clearing empty accounts, [beneficiaries] drains the DAO accounts and says who is paid, [increment]
    pays, or fails and changes nothing.  Gas is added without overflow. *)
From Verif Require Import Base Rewards_Model TxEnv_Model.

(** alloy's [Header] and e2hs/types.rs:35-41 [ProcessedBlock], as far as they are read here. *)
Record exec_header := mk_exec_header { x_fields : env_header; x_gas_used : N; x_parent_beacon_root : option bytes }.
Record exec_block := mk_exec_block { k_header : exec_header; k_transactions : list sent }.
(** eip4788 [SYSTEM_ADDRESS] and [BEACON_ROOTS_ADDRESS] *)
Definition system_address : bytes := repeat 255 19 ++ [254].
Definition beacon_roots_address : bytes := [0; 15; 61; 246; 215; 50; 128; 126; 241; 49; 159; 183; 184; 187; 133; 34; 208; 190; 172; 2].

Section Exec.
Context {St change : Type}.
Context (default_gas : N) (blob_price : N -> bool -> N).
Context (transact : spec_id -> block_env -> tx_env -> St -> outcome (N * list (bytes * change)))
        (commit : bool -> list (bytes * change) -> St -> St)
        (genesis : St -> outcome St)
        (beneficiaries : exec_block -> St -> outcome (St * list (bytes * N)))
        (increment : list (bytes * N) -> St -> outcome St)
        (serve_hash : exec_header -> St -> outcome St).

(** block_executor.rs:53-62 [BlockExecutor], with the parts of its EVM. *)
Record machine := mk_machine {
  m_spec : spec_id;
  m_clear : bool;
  m_block : block_env;
  m_tx : tx_env;
  m_db : St;
  m_executed : N;
  m_gas : N }.
Definition with_db (m : machine) (s : St) : machine := mk_machine (m_spec m) (m_clear m) (m_block m) (m_tx m) s (m_executed m) (m_gas m).
Definition with_tx (m : machine) (e : tx_env) : machine := mk_machine (m_spec m) (m_clear m) (m_block m) e (m_db m) (m_executed m) (m_gas m).
Definition with_env (m : machine) (b : block_env) (e : tx_env) : machine := mk_machine (m_spec m) (m_clear m) b e (m_db m) (m_executed m) (m_gas m).
(** revm's [replay] *)
Definition replay (m : machine) : outcome (N * list (bytes * change)) := transact (m_spec m) (m_block m) (m_tx m) (m_db m).

(** block_executor.rs:79-96 [set_evm_environment] *)
Definition set_evm_environment (m : machine) (h : exec_header) : machine :=
  let spec := get_spec_id (v_number (x_fields h)) in
  mk_machine spec (is_enabled_in spec SPURIOUS_DRAGON) (create_block_env blob_price (x_fields h)) (default_tx_env default_gas) (m_db m) (m_executed m) (m_gas m).

Definition with_limits (gas_limit basefee : N) (b : block_env) : block_env :=
  mk_block_env (be_number b) (be_timestamp b) gas_limit basefee (be_difficulty b) (be_prevrandao b) (be_blob b) (be_beneficiary b).
(** pre_block_contracts.rs:14-56 [apply_beacon_root_contract] *)
Definition apply_beacon_root_contract (m : machine) (h : exec_header) : outcome machine :=
  if negb (is_enabled_in (get_spec_id (v_number (x_fields h))) CANCUN) then Ok m
  else match x_parent_beacon_root h with
       | None => Err
       | Some root =>
           let e := mk_tx 0 system_address default_gas 0 (Call beacon_roots_address) 0 root 0 (Some 1) [] None [] 0 [] in
           match replay (with_env m (with_limits (e_gas_limit e) 0 (m_block m)) e) with
           | Ok (_, changes) => Ok (with_db m (commit (m_clear m) (List.filter (fun x => beqb (fst x) beacon_roots_address) changes) (m_db m)))
           | Err => Err
           | Panic => Panic
           end
       end.

(** block_executor.rs:213-237 [execute_transaction]; [traced]: a tracer watches the transaction, in an EVM of
    its own on the same database (crates/evm/src/lib.rs:63-71). *)
Definition execute_transaction (traced : envelope -> bool) (m : machine) (x : sent) : outcome (machine * (N * list (bytes * change))) :=
  obind (modify_sent x (be_number (m_block m)) (m_tx m)) (fun e =>
    let m := with_tx m e in
    if traced (s_transaction x)
    then obind (create_evm_sent default_gas (m_block m) x) (fun se =>
           omap (fun r => (m, r)) (transact (fst se) (m_block m) (snd se) (m_db m)))
    else omap (fun r => (m, r)) (replay m)).
(** block_executor.rs:180-193: the loop over the transactions *)
Fixpoint execute_transactions (traced : envelope -> bool) (l : list sent) (m : machine) (gas : N) : outcome (machine * N) :=
  match l with
  | [] => Ok (m, gas)
  | x :: l =>
      obind (execute_transaction traced m x) (fun r =>
        let '(m, (used, changes)) := r in
        execute_transactions traced l (with_db m (commit (m_clear m) changes (m_db m))) (gas + used))
  end.
(** block_executor.rs:155-211 [execute_block_with_tracer] *)
Definition execute_block (traced : envelope -> bool) (m : machine) (b : exec_block) : outcome machine :=
  let h := k_header b in
  if v_number (x_fields h) =? 0 then omap (with_db m) (genesis (m_db m))
  else
    obind (apply_beacon_root_contract (set_evm_environment m h) h) (fun m =>
    obind (execute_transactions traced (k_transactions b) m 0) (fun r =>
    let (m, gas) := r in
    if negb (gas =? x_gas_used h) then Err
    else
      let m := mk_machine (m_spec m) (m_clear m) (m_block m) (m_tx m) (m_db m) (m_executed m + 1) (m_gas m + gas) in
      obind (beneficiaries b (m_db m)) (fun r =>
      let (s, paid) := r in
      obind (match increment paid s with Err => Ok s | x => x end) (fun s =>
      omap (with_db m) (serve_hash h s))))).
End Exec.
