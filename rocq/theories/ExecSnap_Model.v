(** Snapshots of the state: /repo/bin/trin-execution/src/subcommands/e2ss/{export,import}.rs, on the
    items of an e2ss file (EraFiles_Model has the bytes) and the database of ExecDb_Model.

    The iteration over the leaves of a trie is an argument.  The state trie that is saved after every
    1000 accounts of an import is left out: its old versions are never read.  The blocks that are
    needed come from ExecRun_Model.  RocksDB does not fail. *)
From Verif Require Import Base Trie_Model StateContent_Model EraFiles_Model ExecDb_Model ExecRun_Model.

(** e2ss.rs:222-228 [AccountEntry] *)
Record account_entry := mk_entry { ae_hash : bytes; ae_state : account; ae_code : bytes; ae_count : N }.
(** e2ss.rs:216-220, 267-281: an account, or storage items (hash of the index, value). *)
Definition snap_item := @ss_item account_entry (list (bytes * N)).
(** e2ss.rs:53 *)
Definition MAX_STORAGE_ITEMS : N := 10000000.
(** [slice::chunks] *)
Fixpoint chunks_of {A} (fuel : nat) (n : nat) (l : list A) : list (list A) :=
  match fuel, l with
  | _, [] => []
  | O, _ => []
  | Datatypes.S f, _ => firstn n l :: chunks_of f n (skipn n l)
  end.
Definition chunks {A} (n : N) (l : list A) : list (list A) := chunks_of (length l) (N.to_nat n) l.
Definition div_ceil (a b : N) : N := (a + b - 1) / b.

Section Snapshot.
Context (keccak : bytes -> bytes) (root_of : kv -> bytes).
(** [Trie::iter]: the keys and values of the leaves. *)
Context (iter : kv -> list (bytes * bytes)).

(** ** Export *)

Fixpoint traverse {A B} (f : A -> outcome B) (l : list A) : outcome (list B) :=
  match l with [] => Ok [] | x :: r => obind (f x) (fun y => omap (cons y) (traverse f r)) end.
(** export.rs:86-106: a leaf of a storage trie; both conversions panic. *)
Definition export_slot (x : bytes * bytes) : outcome (bytes * N) :=
  if negb (Nat.eqb (length (fst x)) 32) then Panic
  else match decode_uint (snd x) with Ok v => Ok (fst x, v) | _ => Panic end.
(** export.rs:71-124: a leaf of the state trie. *)
Definition export_account (s : state) (x : bytes * bytes) : outcome (list snap_item) :=
  if negb (Nat.eqb (length (fst x)) 32) then Panic else
  obind (decode_account (snd x)) (fun a =>
  obind (if beqb (code_hash a) (keccak_empty keccak) then Ok []
         else match flat s (code_hash a) with Some c => Ok c | None => Panic end) (fun code =>
  obind (if beqb (storage_root a) (empty_root keccak) then Ok []
         else obind (of_option (saved s (fst x) (storage_root a))) (fun m => traverse export_slot (iter m))) (fun storage =>
  let storage_count := div_ceil (blen storage) MAX_STORAGE_ITEMS mod 2 ^ 32 in
  Ok (Account (mk_entry (fst x) a code storage_count) :: map Storage (chunks MAX_STORAGE_ITEMS storage))))).
(** export.rs:61-137 [export]: the items after the header. *)
Definition export (s : state) : outcome (list snap_item) :=
  omap (@concat snap_item) (traverse (export_account s) (iter (trie s))).
(** export.rs:30-59 [StateExporter::new], when it was given the header of the last executed block. *)
Definition exporter (disk : state) (h : header) : outcome (list snap_item) :=
  obind (start keccak disk) (fun s =>
  if next_block (mem_pos s) =? 0 then Err
  else if negb (beqb (root_of (trie s)) (h_state_root h)) then Err
  else export s).

(** ** Import *)

(** import.rs:88-98: the items of a storage entry are inserted and the trie is saved. *)
Definition insert_items (m : kv) (l : list (bytes * N)) : kv := fold_left (fun m x => put m (fst x) (rlp_uint (snd x))) l m.
Definition import_chunk (address_hash : bytes) (m : kv) (l : list (bytes * N)) : M kv :=
  let m' := insert_items m l in
  bind (modify (set_saved (fun sv => save address_hash (root_of m') m' (forget address_hash (root_of m) sv)))) (fun _ => ret m').
(** import.rs:101-128: the end of an account. *)
Definition import_account (e : account_entry) (m : kv) : M unit :=
  if negb (beqb (root_of m) (storage_root (ae_state e))) then lift Err
  else if negb (beqb (code_hash (ae_state e)) (keccak (ae_code e))) then lift Err
  else
    bind (match ae_code e with [] => ret tt | c => modify (set_flat (fun d => put d (keccak c) c)) end) (fun _ =>
    bind (modify (set_trie (fun t => put t (ae_hash e) (encode_account (ae_state e))))) (fun _ =>
    modify (set_flat (fun d => put d (ae_hash e) (encode_account (ae_state e)))))).
(** import.rs:66-138: the loop; [cur]: an account, the storage entries still due and its trie so far. *)
Fixpoint import_items (cur : option (account_entry * N * kv)) (l : list snap_item) : M unit :=
  match l, cur with
  | [], None => ret tt
  | [], Some _ => lift Err
  | Account e :: r, None =>
      if ae_count e =? 0 then bind (import_account e no_kv) (fun _ => import_items None r)
      else import_items (Some (e, ae_count e, no_kv)) r
  | Account _ :: _, Some _ => lift Err
  | Storage _ :: _, None => lift Err
  | Storage x :: r, Some (e, n, m) =>
      bind (import_chunk (ae_hash e) m x) (fun m =>
      if n =? 1 then bind (import_account e m) (fun _ => import_items None r)
      else import_items (Some (e, n - 1, m)) r)
  end.
(** import.rs:60-152 [import_state]; [z]: how the iteration over the file ends. *)
Definition import_state (h : header) (l : list snap_item) (z : outcome unit) : M unit :=
  bind (import_items None l) (fun _ =>
  bind (lift z) (fun _ =>
  bind (save_trie root_of) (fun root => if beqb root (h_state_root h) then ret tt else lift Err))).
(** import.rs:140-153 [import_last_256_block_hashes]; [k]: blocks still to be fetched. *)
Fixpoint import_hashes {body} (files : N -> outcome (list (block body))) (k : nat) (m : manager body) : M unit :=
  match k with
  | O => ret tt
  | Datatypes.S k =>
      let (m', o) := get_next_block files m in
      bind (lift o) (fun b =>
      bind (modify (set_flat (fun d => put d (keccak (b256 (h_number (fst b)))) (h_hash (fst b))))) (fun _ =>
      import_hashes files k m'))
  end.
Definition first_hash (number : N) : N := number - BLOCKHASH_SERVE_WINDOW.
(** import.rs:45-58 [import] *)
Definition import {body} (files : N -> outcome (list (block body))) (h : header) (l : list snap_item) (z : outcome unit) : M unit :=
  bind (import_state h l z) (fun _ =>
  bind (update_position h) (fun _ =>
  import_hashes files (N.to_nat (h_number h - first_hash (h_number h) + 1)) (manager_new (first_hash (h_number h))))).
(** import.rs:28-43 [StateImporter::new], then [import]: what is on disk afterwards. *)
Definition importer {body} (files : N -> outcome (list (block body))) (disk : state) (h : header) (l : list snap_item) (z : outcome unit) : state * outcome unit :=
  match start keccak disk with
  | Ok s => if next_block (mem_pos s) =? 0 then import files h l z s else (s, Err)
  | Err => (disk, Err)
  | Panic => (disk, Panic)
  end.
End Snapshot.
