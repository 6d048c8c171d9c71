(** The check of a snapshot file: /repo/crates/e2store/src/bin/e2ss-stats.rs, on the items of an e2ss file
    (EraFiles_Model has the bytes, ExecSnap_Model the export). Counters of 64 bits do not overflow. *)
From Verif Require Import Base Trie_Model StateContent_Model EraFiles_Model ExecDb_Model ExecSnap_Model.

(** e2ss-stats.rs:19-25 *)
Record stats := { account_count : N; bytecode_count : N; storage_entry_count : N; storage_item_count : N }.
Definition no_stats : stats := {| account_count := 0; bytecode_count := 0; storage_entry_count := 0; storage_item_count := 0 |}.
(** 56, 67-69 *)
Definition count_account (s : stats) (e : account_entry) : stats :=
  {| account_count := account_count s + 1;
     bytecode_count := match ae_code e with [] => bytecode_count s | _ => bytecode_count s + 1 end;
     storage_entry_count := storage_entry_count s; storage_item_count := storage_item_count s |}.
(** 79-80 *)
Definition count_storage (s : stats) (n : N) : stats :=
  {| account_count := account_count s; bytecode_count := bytecode_count s;
     storage_entry_count := storage_entry_count s + 1; storage_item_count := storage_item_count s + n |}.
(** 94-102: hashes are compared byte by byte, as numbers of 256 bits *)
Fixpoint scan_slots (last : N) (l : list (bytes * N)) : outcome N :=
  match l with
  | [] => Ok last
  | x :: l => if last <? be_num (fst x) then scan_slots (be_num (fst x)) l else Panic
  end.
Section Stats.
Context (keccak : bytes -> bytes).
(** 48-109: the loops; [last]: the hash of the last account; [cur]: the account whose storage is read, how many of its entries
    were read, and the last slot; [z]: how the iteration over the file ends. *)
Fixpoint scan (last : N) (cur : option (account_entry * N * N)) (s : stats) (l : list snap_item) (z : outcome unit) : outcome stats :=
  match l, cur with
  | [], None => omap (fun _ => s) z
  | [], Some _ => obind z (fun _ => Err)
  | Account e :: r, None =>
      if last <? be_num (ae_hash e) then
        if beqb (keccak (ae_code e)) (code_hash (ae_state e)) then
          scan (be_num (ae_hash e)) (if ae_count e =? 0 then None else Some (e, 0, 0)) (count_account s e) r z
        else Panic
      else Panic
  | Storage _ :: _, None => Err
  | Account _ :: _, Some _ => Err
  | Storage x :: r, Some (e, i, slot) =>
      if (i + 1 <? ae_count e) && negb (blen x =? MAX_STORAGE_ITEMS) then Panic
      else obind (scan_slots slot x) (fun slot =>
        scan last (if i + 1 =? ae_count e then None else Some (e, i + 1, slot)) (count_storage s (blen x)) r z)
  end.
(** 36-112 [main] *)
Definition check (l : list snap_item) (z : outcome unit) : outcome stats := scan 0 None no_stats l z.
End Stats.
