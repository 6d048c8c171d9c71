(** The database of trin-execution: /repo/bin/trin-execution/src/storage/{evm_db,account_db,trie_db,
    execution_position}.rs, the writes of evm/block_executor.rs and [commit] of execution.rs.

    RocksDB does not fail.  Accounts, codes and block hashes share one key space of 32-byte keys, as
    in the code.  Of [eth_trie] only the contents of tries are modelled: a trie that was saved can be
    opened at its root until its nodes are deleted.  The nodes of storage tries (64-byte keys) and of
    state tries (keyed by the hash of their own bytes) are therefore kept apart from the rest.  What a
    transaction does is not modelled: it ends up in the bundle.  Metrics and the caches for gossip
    are left out. *)
From Verif Require Import Base Trie_Model StateContent_Model.

(** ** RLP of accounts and of storage values *)

(** [<u64 as Encodable>::encode], [<U256 as Encodable>::encode] *)
Definition rlp_uint (x : N) : bytes := rlp_bytes (trim (be_bytes 32 x)).
(** account_state.rs:9 [RlpEncodable] *)
Definition encode_account (a : account) : bytes :=
  rlp_list (rlp_uint (nonce a) ++ rlp_uint (balance a) ++ rlp_bytes (storage_root a) ++ rlp_bytes (code_hash a)).
(** An integer of at most [n] bytes without leading zeros, in its shortest form. *)
Definition as_uint (n : nat) (it : bool * bytes * bytes) : option N :=
  match it with
  | (false, p, raw) =>
      if Nat.leb (length p) n && negb (match p with 0 :: _ => true | _ => false end) && beqb raw (rlp_bytes p)
      then Some (be_num p) else None
  | _ => None
  end.
(** [<B256 as Decodable>::decode] *)
Definition as_b256 (it : bool * bytes * bytes) : option bytes :=
  match it with (false, p, _) => if Nat.eqb (length p) 32 then Some p else None | _ => None end.
(** account_state.rs:9 [RlpDecodable]; bytes after the list are ignored. *)
Definition decode_account (b : bytes) : outcome account :=
  match rlp_split b with
  | Some (true, payload, _) =>
      match rlp_items (length payload) payload with
      | Some [n; v; r; c] =>
          match as_uint 8 n, as_uint 32 v, as_b256 r, as_b256 c with
          | Some n, Some v, Some r, Some c => Ok (mk_account n v r c)
          | _, _, _, _ => Err
          end
      | _ => Err
      end
  | _ => Err
  end.
(** [<U256 as Decodable>::decode] *)
Definition decode_uint (b : bytes) : outcome N :=
  match rlp_split b with
  | Some (false, p, rest) => of_option (as_uint 32 (false, p, firstn (length b - length rest) b))
  | _ => Err
  end.

(** ** State *)

Definition kv := bytes -> option bytes.
Definition no_kv : kv := fun _ => None.
Definition put (d : kv) (k v : bytes) : kv := fun x => if beqb x k then Some v else d x.
Definition delete (d : kv) (k : bytes) : kv := fun x => if beqb x k then None else d x.

(** execution_position.rs:15-24 [ExecutionPosition]; the version is always 0. *)
Record pos := mk_pos { next_block : N; pos_root : bytes }.
(** revm's [AccountInfo] *)
Record info := mk_info { i_balance : N; i_nonce : N; i_code_hash : bytes }.
(** revm's [PlainStorageChangeset] and [StateChangeset] *)
Record storage_change := mk_change { c_address : bytes; c_wipe : bool; c_storage : list (N * N) }.
Record bundle := mk_bundle {
  b_accounts : list (bytes * option info);
  b_contracts : list (bytes * bytes);
  b_storage : list storage_change }.
(** What is read of a header. *)
Record header := mk_header { h_number : N; h_state_root : bytes; h_hash : bytes }.

Record state := mk_state {
  flat : kv;                              (* on disk: accounts, codes, block hashes *)
  saved : bytes -> bytes -> option kv;    (* on disk: storage tries, by address hash and root *)
  versions : bytes -> option kv;          (* on disk: state tries, by root *)
  disk_pos : option pos;                  (* on disk: EXECUTION_POSITION *)
  trie : kv;                              (* in memory: the contents of [EvmDB::trie] *)
  mem_pos : pos }.                        (* in memory: [TrinExecution::execution_position] *)
Definition set_flat (f : kv -> kv) (s : state) : state :=
  mk_state (f (flat s)) (saved s) (versions s) (disk_pos s) (trie s) (mem_pos s).
Definition set_saved f (s : state) : state :=
  mk_state (flat s) (f (saved s)) (versions s) (disk_pos s) (trie s) (mem_pos s).
Definition set_trie (f : kv -> kv) (s : state) : state :=
  mk_state (flat s) (saved s) (versions s) (disk_pos s) (f (trie s)) (mem_pos s).

(** Functions that change the database and may return early: what was written stays. *)
Definition M (A : Type) := state -> state * outcome A.
Definition ret {A} (a : A) : M A := fun s => (s, Ok a).
Definition lift {A} (o : outcome A) : M A := fun s => (s, o).
Definition bind {A B} (m : M A) (f : A -> M B) : M B := fun s =>
  match m s with
  | (s', Ok a) => f a s'
  | (s', Err) => (s', Err)
  | (s', Panic) => (s', Panic)
  end.
Definition modify (f : state -> state) : M unit := fun s => (f s, Ok tt).
Fixpoint each {A} (f : A -> M unit) (l : list A) : M unit :=
  match l with [] => ret tt | x :: r => bind (f x) (fun _ => each f r) end.

Section Db.
Context (keccak : bytes -> bytes).
(** The root that [eth_trie] computes for the contents of a trie. *)
Context (root_of : kv -> bytes).

(** alloy's [KECCAK_EMPTY] and [EMPTY_ROOT_HASH] *)
Definition keccak_empty : bytes := keccak [].
Definition empty_root : bytes := keccak [128].
(** [B256::from(U256::from(n))] *)
Definition b256 (n : N) : bytes := be_bytes 32 n.

(** evm_db.rs:330-335 [fetch_account] *)
Definition fetch_account (address_hash : bytes) : M (option account) := fun s =>
  (s, match flat s address_hash with
      | Some raw => omap Some (decode_account raw)
      | None => Ok None
      end).
(** evm_db.rs:116-157 [commit_account] *)
Definition commit_account (address_hash : bytes) (i : info) : M unit :=
  bind (fetch_account address_hash) (fun existing =>
  let a := mk_account (i_nonce i) (i_balance i)
             (match existing with Some e => storage_root e | None => empty_root end) (i_code_hash i) in
  bind (modify (set_trie (fun t => put t address_hash (encode_account a)))) (fun _ =>
  modify (set_flat (fun d => put d address_hash (encode_account a))))).
(** [EthTrie::from]: the contents of the storage trie with this root. *)
Definition open_storage (address_hash root : bytes) : M kv := fun s =>
  (s, of_option (saved s address_hash root)).
(** [clear_trie_from_db] *)
Definition forget (address_hash root : bytes) (sv : bytes -> bytes -> option kv) : bytes -> bytes -> option kv :=
  fun a r => if beqb a address_hash && beqb r root then None else sv a r.
Definition save (address_hash root : bytes) (m : kv) (sv : bytes -> bytes -> option kv) : bytes -> bytes -> option kv :=
  fun a r => if beqb a address_hash && beqb r root then Some m else sv a r.
(** evm_db.rs:159-197 [wipe_account_storage] *)
Definition wipe_account_storage (address_hash : bytes) (delete_account : bool) : M unit :=
  bind (fetch_account address_hash) (fun existing =>
  match existing with
  | None => ret tt
  | Some a =>
      bind (if beqb (storage_root a) empty_root then ret tt
            else bind (open_storage address_hash (storage_root a)) (fun _ =>
                 modify (set_saved (forget address_hash (storage_root a))))) (fun _ =>
      let a := mk_account (nonce a) (balance a) empty_root (code_hash a) in
      if delete_account then
        bind (modify (set_flat (fun d => delete d address_hash))) (fun _ =>
        modify (set_trie (fun t => delete t address_hash)))
      else
        bind (modify (set_flat (fun d => put d address_hash (encode_account a)))) (fun _ =>
        modify (set_trie (fun t => put t address_hash (encode_account a)))))
  end).
(** evm_db.rs:199-212 [commit_accounts] *)
Definition commit_accounts (l : list (bytes * option info)) : M unit :=
  each (fun x => match snd x with
                 | Some i => commit_account (keccak (fst x)) i
                 | None => wipe_account_storage (keccak (fst x)) true
                 end) l.
(** evm_db.rs:230-237: the loop over the changed slots. *)
Definition change_slot (m : kv) (x : N * N) : kv :=
  if snd x =? 0 then delete m (keccak (b256 (fst x))) else put m (keccak (b256 (fst x))) (rlp_uint (snd x)).
(** evm_db.rs:214-243, and the trie is saved: the nodes that are no longer in it are deleted
    ([root_hash_with_changed_nodes]). *)
Definition save_storage (address_hash : bytes) (changes : list (N * N)) : M account :=
  bind (fetch_account address_hash) (fun existing =>
  let a := match existing with Some a => a | None => mk_account 0 0 empty_root keccak_empty end in
  bind (if beqb (storage_root a) empty_root then ret no_kv else open_storage address_hash (storage_root a)) (fun m =>
  let m' := fold_left change_slot changes m in
  bind (modify (set_saved (fun sv => save address_hash (root_of m') m' (forget address_hash (storage_root a) sv)))) (fun _ =>
  ret (mk_account (nonce a) (balance a) (root_of m') (code_hash a))))).
(** evm_db.rs:214-264 [commit_storage_changes] *)
Definition commit_storage_changes (address_hash : bytes) (changes : list (N * N)) : M unit :=
  bind (save_storage address_hash changes) (fun a =>
  bind (modify (set_trie (fun t => put t address_hash (encode_account a)))) (fun _ =>
  modify (set_flat (fun d => put d address_hash (encode_account a))))).
(** evm_db.rs:266-287 [commit_storage] *)
Definition commit_storage (l : list storage_change) : M unit :=
  each (fun c =>
    bind (if c_wipe c then wipe_account_storage (keccak (c_address c)) false else ret tt) (fun _ =>
    match c_storage c with [] => ret tt | changes => commit_storage_changes (keccak (c_address c)) changes end)) l.
(** evm_db.rs:289-328 [commit_bundle] *)
Definition commit_bundle (b : bundle) : M unit :=
  bind (commit_accounts (b_accounts b)) (fun _ =>
  bind (each (fun c => modify (set_flat (fun d => put d (fst c) (snd c)))) (b_contracts b)) (fun _ =>
  commit_storage (b_storage b))).

(** ** Reads *)

(** evm_db.rs:362-376 [basic_ref] *)
Definition basic (s : state) (address : bytes) : outcome (option info) :=
  omap (option_map (fun a => mk_info (balance a) (nonce a) (code_hash a))) (snd (fetch_account (keccak address) s)).
(** evm_db.rs:378-386 [code_by_hash_ref] *)
Definition code_by_hash (s : state) (hash : bytes) : outcome bytes := of_option (flat s hash).
(** evm_db.rs:388-409 [storage_ref] *)
Definition storage (s : state) (address : bytes) (index : N) : outcome N :=
  match snd (fetch_account (keccak address) s) with
  | Ok (Some a) =>
      if beqb (storage_root a) empty_root then Ok 0
      else obind (of_option (saved s (keccak address) (storage_root a))) (fun m =>
           match m (keccak (b256 index)) with Some raw => decode_uint raw | None => Ok 0 end)
  | Ok None => Err
  | Err => Err
  | Panic => Panic
  end.
(** evm_db.rs:411-419 [block_hash_ref]; [B256::from_slice] panics on another length. *)
Definition block_hash (s : state) (number : N) : outcome bytes :=
  match flat s (keccak (b256 number)) with
  | Some h => if Nat.eqb (length h) 32 then Ok h else Panic
  | None => Err
  end.

(** ** Blocks *)

(** block_executor.rs:34 *)
Definition BLOCKHASH_SERVE_WINDOW : N := 256.
(** block_executor.rs:246-266 [manage_block_hash_serve_window] *)
Definition manage_block_hash_serve_window (number : N) (hash : bytes) : M unit :=
  bind (modify (set_flat (fun d => put d (keccak (b256 number)) hash))) (fun _ =>
  if BLOCKHASH_SERVE_WINDOW <=? number
  then modify (set_flat (fun d => delete d (keccak (b256 (number - BLOCKHASH_SERVE_WINDOW)))))
  else ret tt).
(** block_executor.rs:126-147 [process_genesis]; [alloc]: the accounts of mainnet.json. *)
Definition process_genesis (alloc : list (bytes * N)) : M unit :=
  each (fun x =>
    let a := mk_account 0 (snd x) empty_root keccak_empty in
    bind (modify (set_trie (fun t => put t (keccak (fst x)) (encode_account a)))) (fun _ =>
    modify (set_flat (fun d => put d (keccak (fst x)) (encode_account a))))) alloc.
(** block_executor.rs:153-219 [execute_block_with_tracer]: what it writes to the database. *)
Definition execute_block (alloc : list (bytes * N)) (h : header) : M unit :=
  if h_number h =? 0 then process_genesis alloc
  else manage_block_hash_serve_window (h_number h) (h_hash h).

(** block_executor.rs:114-122 [root_hash_with_changed_nodes] of the state trie: old nodes stay
    (trie_db.rs:33-38, [light] is false). *)
Definition save_trie : M bytes := fun s =>
  (mk_state (flat s) (saved s) (fun r => if beqb r (root_of (trie s)) then Some (trie s) else versions s r)
     (disk_pos s) (trie s) (mem_pos s), Ok (root_of (trie s))).
(** execution_position.rs:47-52 [update_position] *)
Definition update_position (h : header) : M unit := fun s =>
  if h_number h + 1 <? 2 ^ 64 then
    let p := mk_pos (h_number h + 1) (h_state_root h) in
    (mk_state (flat s) (saved s) (versions s) (Some p) (trie s) p, Ok tt)
  else (s, Panic).
(** block_executor.rs:106-124 [commit_bundle], execution.rs:133-155 [commit] *)
Definition commit (h : header) (b : bundle) : M unit :=
  bind (commit_bundle b) (fun _ =>
  bind save_trie (fun root =>
  if beqb root (h_state_root h) then update_position h else lift Err)).

(** execution.rs:33-52 [TrinExecution::new] with evm_db.rs:53-79 [EvmDB::new] and
    execution_position.rs:27-34 [initialize_from_db], on the data that is on disk.  A trie that
    cannot be opened makes the [expect] panic. *)
Definition zero32 : bytes := repeat 0 32.
Definition start (s : state) : outcome state :=
  let p := match disk_pos s with Some p => p | None => mk_pos 0 empty_root end in
  let d := put (put (flat s) keccak_empty []) zero32 [] in
  if beqb (pos_root p) empty_root then Ok (mk_state d (saved s) (versions s) (disk_pos s) no_kv p)
  else match versions s (pos_root p) with
       | Some t => Ok (mk_state d (saved s) (versions s) (disk_pos s) t p)
       | None => Panic
       end.
(** An empty disk. *)
Definition blank : state := mk_state no_kv (fun _ _ => None) (fun _ => None) None no_kv (mk_pos 0 empty_root).
End Db.
