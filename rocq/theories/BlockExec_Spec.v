(** Vocabulary for the execution of a block. *)
From Verif Require Import Base Rewards_Model Rewards_Spec TxEnv_Model EthCall_Spec BlockExec_Model.

(** ** Transactions (EIP-2718 and the EIPs of the types) *)
Definition type_of (t : envelope) : N := match t with Legacy _ => 0 | Eip2930 _ => 1 | Eip1559 _ => 2 | Eip4844 _ _ => 3 | Eip7702 _ _ => 4 end.
Definition nonce_of (t : envelope) : N := match t with Legacy t => l_nonce t | Eip2930 t => a_nonce t | Eip1559 t => f_nonce t | Eip4844 t _ => b_nonce t | Eip7702 t _ => f_nonce t end.
Definition gas_of (t : envelope) : N := match t with Legacy t => l_gas_limit t | Eip2930 t => a_gas_limit t | Eip1559 t => f_gas_limit t | Eip4844 t _ => b_gas_limit t | Eip7702 t _ => f_gas_limit t end.
Definition to_of (t : envelope) : kind := match t with Legacy t => l_to t | Eip2930 t => a_to t | Eip1559 t => f_to t | Eip4844 t _ => Call (b_to t) | Eip7702 t _ => f_to t end.
Definition value_of (t : envelope) : N := match t with Legacy t => l_value t | Eip2930 t => a_value t | Eip1559 t => f_value t | Eip4844 t _ => b_value t | Eip7702 t _ => f_value t end.
Definition input_of (t : envelope) : bytes := match t with Legacy t => l_input t | Eip2930 t => a_input t | Eip1559 t => f_input t | Eip4844 t _ => b_input t | Eip7702 t _ => f_input t end.
Definition accesses_of (t : envelope) : accesses := match t with Legacy _ => [] | Eip2930 t => a_access_list t | Eip1559 t => f_access_list t | Eip4844 t _ => b_access_list t | Eip7702 t _ => f_access_list t end.
Definition blobs_of (t : envelope) : list bytes := match t with Eip4844 t _ => b_blob_hashes t | _ => [] end.
(** The most that is paid for a unit of blob gas *)
Definition blob_cap_of (t : envelope) : N := match t with Eip4844 t _ => b_max_fee_per_blob_gas t | _ => 0 end.
(** The chain that a typed transaction is for *)
Definition chain_of (t : envelope) : option N := match t with Legacy _ => None | Eip2930 t => Some (a_chain_id t) | Eip1559 t => Some (f_chain_id t) | Eip4844 t _ => Some (b_chain_id t) | Eip7702 t _ => Some (f_chain_id t) end.
(** The most that is paid for a unit of gas, the tip, and what is paid in a block with a base fee (EIP-1559) *)
Definition cap_of (t : envelope) : N := match t with Legacy t => l_gas_price t | Eip2930 t => a_gas_price t | Eip1559 t => f_max_fee t | Eip4844 t _ => b_max_fee t | Eip7702 t _ => f_max_fee t end.
Definition tip_of (t : envelope) : option N := match t with Legacy _ | Eip2930 _ => None | Eip1559 t => Some (f_max_priority_fee t) | Eip4844 t _ => Some (b_max_priority_fee t) | Eip7702 t _ => Some (f_max_priority_fee t) end.
Definition paid_per_gas (t : envelope) (basefee : N) : N :=
  match t with
  | Legacy t => l_gas_price t
  | Eip2930 t => a_gas_price t
  | Eip1559 t => N.min (f_max_fee t) (basefee + f_max_priority_fee t)
  | Eip4844 t _ => N.min (b_max_fee t) (basefee + b_max_priority_fee t)
  | Eip7702 t _ => N.min (f_max_fee t) (basefee + f_max_priority_fee t)
  end.
(** The EVM is told exactly this transaction of this sender. *)
Record says (number : N) (x : sent) (e : tx_env) : Prop := {
  y_type : e_type e = type_of (s_transaction x);
  y_caller : e_caller e = s_sender x;
  y_gas : e_gas_limit e = gas_of (s_transaction x);
  y_cap : e_gas_price e = cap_of (s_transaction x);
  y_tip : e_gas_priority_fee e = tip_of (s_transaction x);
  y_price : forall basefee, charged e basefee = paid_per_gas (s_transaction x) basefee;
  y_kind : e_kind e = to_of (s_transaction x);
  y_value : e_value e = value_of (s_transaction x);
  y_data : e_data e = input_of (s_transaction x);
  y_nonce : e_nonce e = nonce_of (s_transaction x);
  y_chain : forall id, chain_of (s_transaction x) = Some id -> e_chain_id e = Some id;
  y_legacy_chain : chain_of (s_transaction x) = None -> e_chain_id e = if number <? 2675000 then None else Some 1;
  y_accesses : e_access_list e = accesses_of (s_transaction x);
  y_blobs : e_blob_hashes e = blobs_of (s_transaction x);
  y_blob_cap : e_max_fee_per_blob_gas e = blob_cap_of (s_transaction x);
  y_auth : e_authorizations e = match s_transaction x with Eip7702 _ l => l | _ => [] end }.

(** ** A block *)
Section Spec.
Context {St change : Type}.
Context (default_gas : N) (blob_price : N -> bool -> N).
Context (transact : spec_id -> block_env -> tx_env -> St -> outcome (N * list (bytes * change)))
        (commit : bool -> list (bytes * change) -> St -> St)
        (beneficiaries : exec_block -> St -> outcome (St * list (bytes * N)))
        (pays : list (bytes * N) -> St -> St -> Prop)
        (serve_hash : exec_header -> St -> outcome St).
(** Empty accounts are cleared from block 2675000 on. *)
Definition clears (number : N) : bool := negb (number <? 2675000).
(** The system call of EIP-4788 before the first transaction: the account of the contract is all that
    changes. *)
Inductive beacon_root (spec : spec_id) (b : block_env) (h : exec_header) : St -> St -> Prop :=
| B_before s : v_number (x_fields h) < 19426587 -> beacon_root spec b h s s
| B_call s root b' e gas changes : 19426587 <= v_number (x_fields h) -> x_parent_beacon_root h = Some root ->
    e_caller e = system_address -> e_kind e = Call beacon_roots_address -> e_data e = root -> e_value e = 0 -> e_gas_price e = 0 -> e = mk_tx 0 (e_caller e) default_gas 0 (e_kind e) 0 (e_data e) 0 (Some 1) [] None [] 0 [] ->
    be_basefee b' = 0 -> be_gas_limit b' = default_gas -> (be_number b', be_timestamp b', be_difficulty b', be_prevrandao b', be_blob b', be_beneficiary b') = (be_number b, be_timestamp b, be_difficulty b, be_prevrandao b, be_blob b, be_beneficiary b) ->
    transact spec b' e s = Ok (gas, changes) ->
    beacon_root spec b h s (commit (clears (v_number (x_fields h))) (List.filter (fun x => beqb (fst x) beacon_roots_address) changes) s).
(** The transactions, one after another, each on the state that the ones before have left. *)
Inductive in_order (spec : spec_id) (b : block_env) (number : N) : St -> list sent -> St -> N -> Prop :=
| O_none s : in_order spec b number s [] s 0
| O_next s x l e used changes s' gas : says number x e -> transact spec b e s = Ok (used, changes) ->
    in_order spec b number (commit (clears number) changes s) l s' gas ->
    in_order spec b number s (x :: l) s' (used + gas).
(** From a state to the state after a block. *)
Definition block_runs (b : exec_block) (s s' : St) : Prop :=
  exists spec env s1 s2 s3 paid,
    rules_at (v_number (x_fields (k_header b))) spec /\ sees_block blob_price (x_fields (k_header b)) env /\
    beacon_root spec env (k_header b) s s1 /\
    in_order spec env (v_number (x_fields (k_header b))) s1 (k_transactions b) s2 (x_gas_used (k_header b)) /\
    beneficiaries b s2 = Ok (s3, paid) /\
    exists s4, pays paid s3 s4 /\ serve_hash (k_header b) s4 = Ok s'.
End Spec.
