(** Vocabulary for eth_call. *)
From Verif Require Import Base Rewards_Model Rewards_Spec TxEnv_Model Keys_Model Trie_Model StateContent_Model ExecDb_Model EvmState_Model EvmState_Spec EthCall_Model.

(** ** What is executed *)

(** The EVM sees the block of the header: from the merge on also its randomness, and with the blob
    gas its price under the rules of the block. *)
Definition sees_block (blob_price : N -> bool -> N) (h : env_header) (b : block_env) : Prop :=
  be_number b = v_number h /\ be_timestamp b = v_timestamp h /\ be_gas_limit b = v_gas_limit h /\ be_difficulty b = v_difficulty h /\
  be_beneficiary b = v_beneficiary h /\
  (forall f, v_base_fee h = Some f -> be_basefee b = f) /\ (v_base_fee h = None -> be_basefee b = 0) /\
  (15537394 <= v_number h -> be_prevrandao b = Some (v_mix_hash h)) /\ (v_number h < 15537394 -> be_prevrandao b = None) /\
  (v_excess_blob_gas h = None -> be_blob b = None) /\
  (forall x, v_excess_blob_gas h = Some x -> v_number h < 22431084 -> be_blob b = Some (x, blob_price x false)).
(** A field of a request, or else a default. *)
Definition given {A} (o : option A) (default x : A) : Prop := (forall y, o = Some y -> x = y) /\ (o = None -> x = default).
(** The EVM gets a transaction as the request says; without gas the limit of the block, and without
    a price the base fee. *)
Definition as_asked (h : env_header) (r : request) (e : tx_env) : Prop :=
  given (r_from r) (repeat 0 20) (e_caller e) /\
  (forall k, r_to r = Some k -> e_kind e = k) /\
  given (r_gas r) (v_gas_limit h) (e_gas_limit e) /\
  (forall p, r_max_fee r = Some p -> e_gas_price e = p) /\
  (r_max_fee r = None -> given (r_gas_price r) (match v_base_fee h with Some f => f | None => 0 end) (e_gas_price e)) /\
  given (r_value r) 0 (e_value e) /\
  (forall d, r_input r = Some d -> e_data e = d) /\ (r_input r = None -> given (r_data r) [] (e_data e)) /\
  given (r_nonce r) 0 (e_nonce e) /\ e_chain_id e = r_chain_id r /\
  given (r_access_list r) [] (e_access_list e) /\ e_gas_priority_fee e = r_max_priority_fee r /\
  given (r_blob_hashes r) [] (e_blob_hashes e) /\ given (r_max_fee_per_blob_gas r) 0 (e_max_fee_per_blob_gas e).

(** ** What the result is *)

Section Spec.
Context (keccak : bytes -> bytes) (decode_account : bytes -> outcome account).
Context (t : Trie_Model.node) (storage_of : bytes -> Trie_Model.node).
Notation account_is := (account_is decode_account).
Notation right := (right keccak decode_account t storage_of).
(** The program ends with a result, and all it reads on the way is right for the state. *)
Inductive executes : program -> exec -> Prop :=
| E_done r : executes (Done r) r
| E_ask q a k r : right q a -> executes (k a) r -> executes (Ask q k) r.
(** What can be read after some other reads: any account, a slot of an account with storage, and
    the code of an account that was read. *)
Definition readable (before : list query) (q : query) : Prop :=
  match q with
  | QBasic _ => True
  | QStorage address _ => forall a, account_is t (keccak address) (Some a) -> storage_root a <> keccak [128]
  | QCode h => exists address a, account_is t (keccak address) (Some a) /\ h = code_hash a /\ In (QBasic address) before
  end.
(** A program that reads only such things. *)
Fixpoint modest (before : list query) (p : program) : Prop :=
  match p with
  | Done _ => True
  | Ask q k => readable before q /\ forall a, right q a -> modest (before ++ [q]) (k a)
  | AskHash _ _ => False
  end.
End Spec.

(** ** Prices (EIP-1559) *)

(** What revm charges for gas: a transaction of a type before 2 its price. *)
Definition charged (e : tx_env) (basefee : N) : N :=
  if e_type e <=? 1 then e_gas_price e
  else N.min (e_gas_price e) (basefee + match e_gas_priority_fee e with Some p => p | None => 0 end).

(** An EVM that, as revm does, refuses a transaction whose nonce is not that of its sender, or whose
    sender cannot pay for the gas and the value. *)
Definition checks_sender (keccak : bytes -> bytes) (decode_account : bytes -> outcome account) (evm : spec_id -> block_env -> tx_env -> program) : Prop :=
  forall t storage_of spec b e a x, world keccak decode_account t storage_of -> account_is decode_account t (keccak (e_caller e)) (Some a) ->
    nonce a <> e_nonce e \/ balance a < e_gas_limit e * e_gas_price e + e_value e ->
    executes keccak decode_account t storage_of (evm spec b e) x -> x = Refused.
