(** One database for the state trie, the storage tries of all accounts, accounts, codes, block hashes and the position: /repo/bin/trin-execution/src/storage/account_db.rs
    and trie_db.rs, with the writes of evm_db.rs, block_executor.rs, import.rs and execution_position.rs.  RocksDB is a map that does not fail; flushing changes
    nothing that can be read.  Which nodes [eth_trie] writes is an argument: any writes in any order. *)
From Coq Require Import String Ascii.
From Verif Require Import Base Header_Model Args_Model Trie_Model StateContent_Model ExecDb_Model.

(** account_db.rs:9 [NULL_RLP_STATIC] *)
Definition null_rlp : bytes := [128].
(** execution_position.rs:12 *)
Definition position_key : bytes := lit "EXECUTION_POSITION".

Section Db.
Variable keccak : bytes -> bytes.
(** account_db.rs:23-25 [get_db_key] *)
Definition get_db_key (address key : bytes) : bytes := address ++ key.
(** account_db.rs:30-36 [get]; [B256::from_slice] panics unless there are 32 bytes. *)
Definition account_get (db : kv) (address key : bytes) : outcome (option bytes) :=
  if negb (blen key =? 32) then Panic else
  if beqb key (keccak []) then Ok (Some null_rlp) else Ok (db (get_db_key address key)).
(** account_db.rs:38-45 [insert] *)
Definition account_insert (db : kv) (address key value : bytes) : outcome kv :=
  if negb (blen key =? 32) then Panic else
  if beqb key (keccak []) then Ok db else Ok (put db (get_db_key address key) value).
(** account_db.rs:47-54 [remove] *)
Definition account_remove (db : kv) (address key : bytes) : outcome kv :=
  if negb (blen key =? 32) then Panic else
  if beqb key (keccak []) then Ok db else Ok (delete db (get_db_key address key)).
(** trie_db.rs:22-37 *)
Definition trie_get (db : kv) (key : bytes) : option bytes := db key.
Definition trie_insert (db : kv) (key value : bytes) : kv := put db key value.
Definition trie_remove (light : bool) (db : kv) (key : bytes) : kv := if light then delete db key else db.

(** All that is written: by tries of storages, by the state trie, for accounts, codes and block hashes (evm_db.rs:59-60, 184, 187; block_executor.rs:243;
    import.rs:104, 145), and the position (execution_position.rs:50) *)
Inductive write :=
| StorageNode (address key value : bytes) | StorageGone (address key : bytes)
| StateNode (key value : bytes) | StateGone (light : bool) (key : bytes)
| Record (key value : bytes) | RecordGone (key : bytes)
| Position (value : bytes).
Definition do_write (db : kv) (w : write) : outcome kv :=
  match w with
  | StorageNode a k v => account_insert db a k v
  | StorageGone a k => account_remove db a k
  | StateNode k v => Ok (trie_insert db k v)
  | StateGone light k => Ok (trie_remove light db k)
  | Record k v => Ok (put db k v)
  | RecordGone k => Ok (delete db k)
  | Position v => Ok (put db position_key v)
  end.
Fixpoint do_writes (db : kv) (ws : list write) : outcome kv :=
  match ws with [] => Ok db | w :: ws => obind (do_write db w) (fun db => do_writes db ws) end.
End Db.
