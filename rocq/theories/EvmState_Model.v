(** Reading the state of a block over the Portal network: /repo/crates/rpc/src/evm_state.rs.

    [keccak256], [decode_node] of [eth_trie], the RLP decoder of accounts and the answers of the state
    network are arguments; the answer may be different for every request.  [Bytecode::new_raw] of
    [revm], which panics on some bytes, is an argument too.  Errors carry no details. *)
From Verif Require Import Base Keys_Model Trie_Model StateContent_Model ExecDb_Model.

(** The derived [PartialEq] of [StateContentKey]. *)
Definition state_key_eqb (a b : state_key) : bool :=
  match a, b with
  | AccountTrieNode p h, AccountTrieNode p' h' => beqb p p' && beqb h h'
  | ContractStorageTrieNode a p h, ContractStorageTrieNode a' p' h' => beqb a a' && beqb p p' && beqb h h'
  | ContractBytecode a c, ContractBytecode a' c' => beqb a a' && beqb c c'
  | _, _ => false
  end.
(** [slice::strip_suffix] *)
Definition strip_suffix (path suffix : bytes) : option bytes :=
  let n := (length path - length suffix)%nat in
  if beqb (skipn n path) suffix then Some (firstn n path) else None.
(** [<Bytes as Decodable>::decode]: a string in its shortest form; what follows is ignored. *)
Definition decode_string (b : bytes) : outcome bytes :=
  match rlp_split b with
  | Some (false, p, rest) => if beqb (firstn (length b - length rest) b) (rlp_bytes p) then Ok p else Err
  | _ => Err
  end.

Section State.
Context (keccak : bytes -> bytes) (decode_node : bytes -> outcome Trie_Model.node)
        (decode_account : bytes -> outcome account).
(** Whether [Bytecode::new_raw] takes the bytes (its [original_bytes] are these bytes). *)
Context (raw_ok : bytes -> bool).
(** What the state network answers to the request with a number. *)
Context (net : N -> state_key -> outcome bytes).

(** evm_state.rs:67-72 [EvmBlockState]: the state root of the header, the requests so far, the
    [HashMap]s. *)
Record session := mk_session {
  s_root : bytes;
  s_requests : N;
  s_cache : state_key -> option state_value;
  s_codes : bytes -> option bytes }.
(** evm_state.rs:75-85 [new] *)
Definition open_session (root : bytes) : session := mk_session root 0 (fun _ => None) (fun _ => None).

(** [None]: still in the loop of [traverse_trie]. *)
Definition R (A : Type) : Type := session -> option (session * outcome A).
Definition rret {A} (x : outcome A) : R A := fun s => Some (s, x).
Definition rbind {A B} (m : R A) (f : A -> R B) : R B := fun s =>
  match m s with
  | None => None
  | Some (s, Ok a) => f a s
  | Some (s, Err) => Some (s, Err)
  | Some (s, Panic) => Some (s, Panic)
  end.

(** evm_state.rs:164-184 [fetch_content] *)
Definition fetch_content (k : state_key) : R state_value := fun s =>
  match s_cache s k with
  | Some v => Some (s, Ok v)
  | None =>
      let s' := mk_session (s_root s) (s_requests s + 1) (s_cache s) (s_codes s) in
      match obind (net (s_requests s) k) (state_decode k) with
      | Ok v => Some (mk_session (s_root s) (s_requests s + 1)
                        (fun k' => if state_key_eqb k' k then Some v else s_cache s k') (s_codes s), Ok v)
      | Err => Some (s', Err)
      | Panic => Some (s', Panic)
      end
  end.
(** evm_state.rs:186-198 [fetch_trie_node] *)
Definition fetch_trie_node (k : state_key) : R Trie_Model.node :=
  rbind (fetch_content k) (fun v => rret (match v with TrieNode n => decode_node n | _ => Err end)).
(** evm_state.rs:214-235: the loop of [traverse_trie], for at most [fuel] rounds. *)
Fixpoint traverse_loop (fuel : nat) (key_fn : bytes -> bytes -> state_key) (path node_hash remaining : bytes) : R (option bytes) :=
  match fuel with
  | O => fun _ => None
  | S fuel =>
      match strip_suffix path remaining with
      | None => rret Panic
      | Some path_from_root =>
          match try_from_unpacked path_from_root with
          | Ok nibbles =>
              rbind (fetch_trie_node (key_fn nibbles node_hash)) (fun n =>
                match traverse n remaining with
                | TrEmpty => rret (Ok None)
                | TrValue v => rret (Ok (Some v))
                | TrNode h r => traverse_loop fuel key_fn path h r
                | TrError => rret Err
                | TrPanic => rret Panic
                end)
          | _ => rret Panic
          end
      end
  end.
(** evm_state.rs:203-240 [traverse_trie] *)
Definition traverse_trie {T} (decode : bytes -> outcome T) (fuel : nat) (root path : bytes) (key_fn : bytes -> bytes -> state_key) : R (option T) :=
  rbind (traverse_loop fuel key_fn (unpack_nibbles path) root (unpack_nibbles path)) (fun v =>
    rret (match v with Some v => omap Some (decode v) | None => Ok None end)).

(** evm_state.rs:93-116 [account_state] *)
Definition note_code (h address_hash : bytes) : R unit := fun s =>
  Some (mk_session (s_root s) (s_requests s) (s_cache s)
          (fun x => if beqb x h then match s_codes s x with Some a => Some a | None => Some address_hash end else s_codes s x), Ok tt).
Definition account_state (fuel : nat) (address_hash : bytes) : R (option account) := fun s =>
  rbind (traverse_trie decode_account fuel (s_root s) address_hash AccountTrieNode) (fun a =>
    match a with
    | Some acc =>
        if negb (beqb (code_hash acc) (keccak [])) then rbind (note_code (code_hash acc) address_hash) (fun _ => rret (Ok a)) else rret (Ok a)
    | None => rret (Ok None)
    end) s.
(** evm_state.rs:118-140 [contract_storage_at_slot]; the 32 bytes are a number. *)
Definition contract_storage_at_slot (fuel : nat) (root address_hash : bytes) (slot : N) : R N :=
  rbind (traverse_trie decode_string fuel root (keccak (b256 slot)) (ContractStorageTrieNode address_hash)) (fun v =>
    let value := match v with Some b => b | None => [] end in
    rret (if 32 <? blen value then Err else Ok (be_num value))).
(** evm_state.rs:142-160 [contract_bytecode] *)
Definition contract_bytecode (address_hash hash : bytes) : R bytes :=
  rbind (fetch_content (ContractBytecode address_hash hash)) (fun v => rret (match v with Bytecode c => Ok c | _ => Err end)).

(** evm_state.rs:246-256 [basic_async] *)
Definition basic (fuel : nat) (address : bytes) : R (option info) :=
  rbind (account_state fuel (keccak address)) (fun a =>
    rret (Ok (match a with Some a => Some (mk_info (balance a) (nonce a) (code_hash a)) | None => None end))).
(** evm_state.rs:258-271 [code_by_hash_async] *)
Definition code_by_hash (hash : bytes) : R bytes := fun s =>
  if beqb hash (keccak []) then Some (s, Ok [])
  else match s_codes s hash with
       | None => Some (s, Err)
       | Some address_hash =>
           rbind (contract_bytecode address_hash hash) (fun c => rret (if raw_ok c then Ok c else Panic)) s
       end.
(** evm_state.rs:273-282 [storage_async] *)
Definition storage (fuel : nat) (address : bytes) (index : N) : R N :=
  rbind (account_state fuel (keccak address)) (fun a =>
    match a with
    | None => rret (Ok 0)
    | Some a => contract_storage_at_slot fuel (storage_root a) (keccak address) index
    end).
(** evm_state.rs:284-288 [block_hash_async] *)
Definition block_hash (number : N) : R bytes := rret Err.

(** ** eth_rpc.rs:77-118, once the header of the block is there *)

(** eth_rpc.rs:80-83 [get_balance] *)
Definition get_balance (fuel : nat) (address : bytes) : R N :=
  rbind (basic fuel address) (fun i => rret (Ok (match i with Some i => i_balance i | None => 0 end))).
(** eth_rpc.rs:94-95 [get_storage_at] *)
Definition get_storage_at (fuel : nat) (address : bytes) (slot : N) : R N := storage fuel address slot.
(** eth_rpc.rs:101-117 [get_code]; [basic_async] never gives a code. *)
Definition get_code (fuel : nat) (address : bytes) : R bytes :=
  rbind (basic fuel address) (fun i =>
    match i with
    | None => rret (Ok [])
    | Some i => if beqb (i_code_hash i) (keccak []) then rret (Ok []) else code_by_hash (i_code_hash i)
    end).

(** What an EVM asks of its database. *)
Inductive query :=
| QBasic (address : bytes)
| QCode (hash : bytes)
| QStorage (address : bytes) (index : N).
Inductive reply :=
| ABasic (r : option info)
| ACode (code : bytes)
| AStorage (value : N).
Definition ask (fuel : nat) (q : query) : R reply :=
  match q with
  | QBasic a => rbind (basic fuel a) (fun r => rret (Ok (ABasic r)))
  | QCode h => rbind (code_by_hash h) (fun c => rret (Ok (ACode c)))
  | QStorage a i => rbind (storage fuel a i) (fun v => rret (Ok (AStorage v)))
  end.
(** One query after the other, whatever the answers. *)
Fixpoint ask_all (fuel : nat) (qs : list query) (s : session) : option (session * list (outcome reply)) :=
  match qs with
  | [] => Some (s, [])
  | q :: qs =>
      match ask fuel q s with
      | None => None
      | Some (s, r) => option_map (fun x => (fst x, r :: snd x)) (ask_all fuel qs s)
      end
  end.
End State.
