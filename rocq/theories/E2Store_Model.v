(** e2store files: /repo/crates/e2store/src/e2store/{types,memory,stream}.rs. *)
From Verif Require Import Base.

(** types.rs:8-11 [Entry] with types.rs:75-81 [Header] *)
Record entry := mk_entry { e_type : N; e_len : N; e_reserved : N; e_value : bytes }.

(** types.rs:14-23 [Entry::new]: [value.len() as u32] *)
Definition entry_new (type_ : N) (value : bytes) : entry := mk_entry type_ (blen value mod 2 ^ 32) 0 value.
(** types.rs:25-27 [length], with [Header::SERIALIZED_SIZE] of line 84 *)
Definition entry_length (e : entry) : N := 8 + e_len e.
(** types.rs:87-91 [Header::write] *)
Definition header_bytes (e : entry) : bytes := be_bytes 2 (e_type e) ++ le_bytes 4 (e_len e) ++ le_bytes 2 (e_reserved e).
(** types.rs:38-56 [Entry::write] into a buffer of [avail] bytes: the buffer afterwards.
    [copy_from_slice] panics when the lengths differ. *)
Definition entry_write (e : entry) (avail : N) : outcome bytes :=
  if negb (entry_length e =? avail) then Err
  else if 2 ^ 32 - 1 <? entry_length e then Err
  else if negb (blen (e_value e) =? e_len e) then Panic
  else Ok (header_bytes e ++ e_value e).
(** types.rs:30-35 [Entry::serialize] *)
Definition entry_serialize (e : entry) : outcome bytes := entry_write e (entry_length e).

(** types.rs:94-110 [Header::deserialize]; the slice has 8 bytes at both callers. *)
Definition header_deserialize (b : bytes) : outcome (N * N) :=
  if negb (blen b =? 8) then Err
  else if negb (le_num (skipn 6 b) =? 0) then Err
  else Ok (be_num (firstn 2 b), le_num (firstn 4 (skipn 2 b))).
(** types.rs:59-71 [Entry::deserialize]; [&bytes[0..8]] panics on less. *)
Definition entry_deserialize (b : bytes) : outcome entry :=
  if blen b <? 8 then Panic
  else obind (header_deserialize (firstn 8 b)) (fun h =>
    if negb (snd h + 8 =? blen b) then Err
    else Ok (mk_entry (fst h) (snd h) 0 (skipn 8 b))).

(** memory.rs:26-34 [write] into a buffer with [avail] bytes left: what is written. *)
Fixpoint mem_write (es : list entry) (avail : N) : outcome bytes :=
  match es with
  | [] => Ok []
  | e :: r =>
      if avail <? entry_length e then Panic
      else obind (entry_write e (entry_length e)) (fun b =>
           obind (mem_write r (avail - entry_length e)) (fun rest => Ok (b ++ rest)))
  end.
(** memory.rs:36-38 [length] *)
Definition mem_length (es : list entry) : N := fold_right (fun e n => entry_length e + n) 0 es.
(** memory.rs:18-23 [serialize]: the length is summed in 32 bits (wrapping; a debug build panics
    instead). *)
Definition mem_serialize (es : list entry) : outcome bytes :=
  mem_write es (fold_right (fun e n => (entry_length e mod 2 ^ 32 + n) mod 2 ^ 32) 0 es).

(** memory.rs:41-64 [deserialize].  [bytes[offset + 5]] panics near the end; the sum with 8 is in
    32 bits (wrapping; a debug build panics). *)
Fixpoint mem_read (fuel : nat) (b : bytes) : outcome (list entry) :=
  match b, fuel with
  | [], _ => Ok []
  | _, O => Err
  | _, S f =>
      if blen b <? 6 then Panic
      else
        let n := (le_num (firstn 4 (skipn 2 b)) + 8) mod 2 ^ 32 in
        if blen b <? n then Err
        else obind (entry_deserialize (firstn (N.to_nat n) b)) (fun e =>
             obind (mem_read f (skipn (N.to_nat n) b)) (fun r => Ok (e :: r)))
  end.
Definition mem_deserialize (b : bytes) : outcome (list entry) := mem_read (length b) b.

(** stream.rs:19-26 [next_entry] on the rest of the file. *)
Inductive next :=
| Got (e : entry) (rest : bytes)
| Eof (* read_exact: UnexpectedEof *)
| Bad (* the header is refused *).
Definition next_entry (b : bytes) : next :=
  if blen b <? 8 then Eof
  else match header_deserialize (firstn 8 b) with
       | Ok (t, n) =>
           if blen (skipn 8 b) <? n then Eof
           else Got (mk_entry t n 0 (firstn (N.to_nat n) (skipn 8 b))) (skipn (N.to_nat n) (skipn 8 b))
       | _ => Bad
       end.
(** [next_entry] until it fails, and how it failed. *)
Fixpoint read_all (fuel : nat) (b : bytes) : list entry * next :=
  match fuel with
  | O => ([], next_entry b)
  | S f => match next_entry b with
           | Got e rest => let (es, z) := read_all f rest in (e :: es, z)
           | z => ([], z)
           end
  end.
(** stream.rs:47-51 [append_entry]: the file afterwards. *)
Definition append_entry (file : bytes) (e : entry) : outcome bytes := omap (fun b => file ++ b) (entry_serialize e).
