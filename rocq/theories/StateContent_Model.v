(** Content of the state network:
    /repo/crates/ethportal-api/src/types/content_value/state.rs,
    /repo/crates/subnetworks/state/src/validation/validator.rs and
    /repo/crates/subnetworks/state/src/storage.rs.

    [keccak256], [decode_node] ([eth_trie]), the RLP decoder of [AccountState] and the answers of
    the header oracle are arguments. *)
From Verif Require Import Base Ssz_Model Keys_Model Trie_Model.

(** state.rs:16-27 [StateContentValue] and the structs at 76-116; a trie node and a bytecode are
    byte strings, a proof is a list of trie nodes. *)
Inductive state_value :=
| TrieNode (node : bytes)
| AccountTrieNodeWithProof (proof : list bytes) (block_hash : bytes)
| ContractStorageTrieNodeWithProof (storage_proof account_proof : list bytes) (block_hash : bytes)
| Bytecode (code : bytes)
| BytecodeWithProof (code : bytes) (account_proof : list bytes) (block_hash : bytes).

(** state.rs:32-40 [encode] (derived SSZ encoders) *)
Definition state_encode (v : state_value) : bytes :=
  match v with
  | TrieNode n => encode_container [PVar n]
  | AccountTrieNodeWithProof p h => encode_container [PVar (encode_var_list p); PFix h]
  | ContractStorageTrieNodeWithProof s a h => encode_container [PVar (encode_var_list s); PVar (encode_var_list a); PFix h]
  | Bytecode c => encode_container [PVar c]
  | BytecodeWithProof c a h => encode_container [PVar c; PVar (encode_var_list a); PFix h]
  end.

(** [ByteList1024] (a node: state_trie/mod.rs:18-20) and [ByteList32K] (a bytecode: mod.rs:64) from
    their bytes; [TrieProof] is a list of at most 65 nodes (mod.rs:61). *)
Definition decode_bytelist (limit : N) (b : bytes) : outcome bytes := if limit <? blen b then Err else Ok b.
Definition decode_proof (b : bytes) : outcome (list bytes) :=
  obind (decode_var_list (Some 65) b) (fun l => all_ok (map (decode_bytelist 1024) l)).

(** The derived decoders of the five structs, state.rs:76-116. *)
Definition decode_trie_node (b : bytes) : outcome state_value :=
  obind (container1 None b) (fun x => omap TrieNode (decode_bytelist 1024 x)).
Definition decode_account_proof (b : bytes) : outcome state_value :=
  obind (container2 None (Some 32) b) (fun x =>
  obind (decode_proof (fst x)) (fun p => Ok (AccountTrieNodeWithProof p (snd x)))).
Definition decode_storage_proof (b : bytes) : outcome state_value :=
  obind (container3 None None (Some 32) b) (fun x =>
  obind (decode_proof (fst (fst x))) (fun s =>
  obind (decode_proof (snd (fst x))) (fun a => Ok (ContractStorageTrieNodeWithProof s a (snd x))))).
Definition decode_bytecode (b : bytes) : outcome state_value :=
  obind (container1 None b) (fun x => omap Bytecode (decode_bytelist 32768 x)).
Definition decode_bytecode_proof (b : bytes) : outcome state_value :=
  obind (container3 None None (Some 32) b) (fun x =>
  obind (decode_bytelist 32768 (fst (fst x))) (fun c =>
  obind (decode_proof (snd (fst x))) (fun a => Ok (BytecodeWithProof c a (snd x))))).
(** [if let Ok(value) = first ... if let Ok(value) = second ... Err] *)
Definition or_else (a b : outcome state_value) : outcome state_value :=
  match a with Ok v => Ok v | Err => b | Panic => Panic end.
(** state.rs:42-74 [decode] *)
Definition state_decode (k : state_key) (b : bytes) : outcome state_value :=
  match k with
  | AccountTrieNode _ _ => or_else (decode_account_proof b) (decode_trie_node b)
  | ContractStorageTrieNode _ _ _ => or_else (decode_storage_proof b) (decode_trie_node b)
  | ContractBytecode _ _ => or_else (decode_bytecode_proof b) (decode_bytecode b)
  end.

(** crates/validation/src/validator.rs [ValidationResult] *)
Inductive verdict := Invalid | Valid | CanonicallyValid.

(** ethportal-api account_state.rs:10-16 *)
Record account := mk_account { nonce : N; balance : N; storage_root : bytes; code_hash : bytes }.

Section State.
Context (keccak : bytes -> bytes) (decode_node : bytes -> outcome node)
        (decode_account : bytes -> outcome account).
(** validator.rs:172-178 [get_state_root]: the state root of the header that the history network
    returns for a block hash, or an error. *)
Context (get_state_root : bytes -> outcome bytes).

Section Check.
(** validator.rs:26 [DISABLE_LEGACY_HISTORY_HEADER_CHECK] *)
Context (disable_header_check : bool).

(** validator.rs:79-82, 104-107, 151-154 *)
Definition state_root (block_hash : bytes) : outcome (option bytes) :=
  if disable_header_check then Ok None else omap Some (get_state_root block_hash).

(** validator.rs:68-91 [validate_account_trie_node] *)
Definition validate_account_trie_node (path node_hash : bytes) (v : state_value) : outcome verdict :=
  match v with
  | TrieNode n => omap (fun _ => Valid) (check_node_hash keccak n node_hash)
  | AccountTrieNodeWithProof proof block =>
      obind (state_root block) (fun root =>
      omap (fun _ => CanonicallyValid) (validate_node_trie_proof keccak decode_node root node_hash path proof))
  | _ => Err
  end.
(** validator.rs:93-123 [validate_contract_storage_trie_node] *)
Definition validate_contract_storage_trie_node (address path node_hash : bytes) (v : state_value) : outcome verdict :=
  match v with
  | TrieNode n => omap (fun _ => Valid) (check_node_hash keccak n node_hash)
  | ContractStorageTrieNodeWithProof storage_proof account_proof block =>
      obind (state_root block) (fun root =>
      obind (validate_account_state keccak decode_node decode_account root address account_proof) (fun a =>
      omap (fun _ => CanonicallyValid)
        (validate_node_trie_proof keccak decode_node (Some (storage_root a)) node_hash path storage_proof)))
  | _ => Err
  end.
(** validator.rs:125-170 [validate_contract_bytecode] *)
Definition validate_contract_bytecode (address hash : bytes) (v : state_value) : outcome verdict :=
  match v with
  | Bytecode code => if beqb (keccak code) hash then Ok Valid else Err
  | BytecodeWithProof code account_proof block =>
      if negb (beqb (keccak code) hash) then Err
      else
        obind (state_root block) (fun root =>
        obind (validate_account_state keccak decode_node decode_account root address account_proof) (fun a =>
        if beqb (code_hash a) hash then Ok CanonicallyValid else Err))
  | _ => Err
  end.
(** validator.rs:33-64 [validate_content] *)
Definition validate_with (k : state_key) (b : bytes) : outcome verdict :=
  match state_decode k b with
  | Err => Ok Invalid
  | Panic => Panic
  | Ok v =>
      match (match k with
             | AccountTrieNode path h => validate_account_trie_node path h v
             | ContractStorageTrieNode a path h => validate_contract_storage_trie_node a path h v
             | ContractBytecode a h => validate_contract_bytecode a h v
             end) with
      | Err => Ok Invalid
      | r => r
      end
  end.
End Check.
(** validator.rs:26: the constant is [true]. *)
Definition validate : state_key -> bytes -> outcome verdict := validate_with true.

(** storage.rs:31-50 [put] up to the insertion, with 101-203: the value handed to the store. *)
Definition put_node (proof : list bytes) (node_hash : bytes) : outcome bytes :=
  match proof with
  | [] => Err
  | _ => let node := last proof [] in
         if negb (beqb (keccak node) node_hash) then Err else Ok (state_encode (TrieNode node))
  end.
Definition stored_form (k : state_key) (b : bytes) : outcome bytes :=
  obind (state_decode k b) (fun v =>
    match k, v with
    | AccountTrieNode _ h, AccountTrieNodeWithProof proof _ => put_node proof h
    | ContractStorageTrieNode _ _ h, ContractStorageTrieNodeWithProof storage_proof _ _ => put_node storage_proof h
    | ContractBytecode _ h, BytecodeWithProof code _ _ =>
        if negb (beqb (keccak code) h) then Err else Ok (state_encode (Bytecode code))
    | _, _ => Err
    end).
End State.
