(** Files made of e2store records: /repo/crates/e2store/src/{era1,e2hs,era,e2ss,types}.rs.  What is
    inside a compressed record (snappy around RLP or SSZ) is abstract: a pair of functions per kind. *)
From Verif Require Import Base E2Store_Model.

(** e2store/types.rs:113-126 [VersionEntry::default] *)
Definition version_entry : entry := entry_new 0x6532 [].
(** e2store/types.rs:128-153 [VersionEntry::try_from] *)
Definition version_from (e : entry) : outcome entry :=
  if negb (e_type e =? 0x6532) then Err
  else if negb (e_len e =? 0) then Err
  else if negb (e_reserved e =? 0) then Err
  else if negb (blen (e_value e) =? 0) then Err
  else Ok e.
(** types.rs:13-31 [HeaderEntry::try_from], and in the same form era1.rs:175-206 (body), 213-244
    (receipts), e2hs.rs:280-300 (header with proof), e2ss.rs:230-248 (account), 283-301 (storage);
    era.rs:160-175 and 199-214 do not look at the reserved field, which is zero when read. *)
Definition unpack_from {A} (t : N) (unpack : bytes -> option A) (e : entry) : outcome A :=
  if negb (e_type e =? t) then Err
  else if negb (e_reserved e =? 0) then Err
  else of_option (unpack (e_value e)).

(** era1.rs:251-274 and 288-311: the total difficulty and the accumulator *)
Definition word_from (t : N) (e : entry) : outcome bytes :=
  if negb (e_type e =? t) then Err
  else if negb (e_len e =? 32) then Err
  else if negb (e_reserved e =? 0) then Err
  else if negb (blen (e_value e) =? 32) then Err
  else Ok (e_value e).
Definition difficulty_from (e : entry) : outcome N := omap be_num (word_from 0x0600 e).
Definition accumulator_from (e : entry) : outcome bytes := word_from 0x0700 e.
(** era1.rs:276-281, 313-318 *)
Definition difficulty_entry (d : N) : entry := entry_new 0x0600 (be_bytes 32 d).
Definition accumulator_entry (a : bytes) : entry := entry_new 0x0700 a.

(** era1.rs:370-375 [BlockIndex] *)
Record index := mk_index { ix_start : N; ix_offsets : list N; ix_count : N }.
Definition u64s (l : list N) : bytes := concat (map (le_bytes 8) l).
(** era1.rs:355-367 and e2hs.rs:360-373 [From<&E2HSBlockIndexEntry> for Entry] *)
Definition index_entry (t : N) (x : index) : entry := entry_new t (u64s (ix_start x :: ix_offsets x ++ [ix_count x])).
(** [n] words of 8 bytes; a slice beyond the end panics. *)
Fixpoint read_u64s (n : nat) (b : bytes) : outcome (list N) :=
  match n with
  | O => Ok []
  | S m => if blen b <? 8 then Panic
           else obind (read_u64s m (skipn 8 b)) (fun r => Ok (le_num (firstn 8 b) :: r))
  end.
(** era1.rs:376-395 [BlockIndex::try_from] *)
Definition index_of (v : bytes) : outcome index :=
  let n := (blen v - 16) / 8 in
  obind (read_u64s (N.to_nat (n + 2)) v) (fun l =>
    Ok (mk_index (hd 0 l) (firstn (N.to_nat n) (tl l)) (last l 0))).
(** era1.rs:327-353 [Era1BlockIndexEntry::try_from]; e2hs.rs:331-358 with one length *)
Definition index_from (lens : list N) (e : entry) : outcome index :=
  if negb (e_type e =? 0x6632) then Err
  else if negb (existsb (N.eqb (e_len e)) lens) then Err
  else if negb (e_reserved e =? 0) then Err
  else if negb (existsb (N.eqb (blen (e_value e))) lens) then Err
  else index_of (e_value e).

Section Codec.
Context {H HP B R : Type}.
Context (h_pack : H -> bytes) (h_unpack : bytes -> option H).
Context (hp_pack : HP -> bytes) (hp_unpack : bytes -> option HP).
Context (b_pack : B -> bytes) (b_unpack : bytes -> option B).
Context (r_pack : R -> bytes) (r_unpack : bytes -> option R).

(** era1.rs:128-133 [BlockTuple] *)
Record tuple4 := mk_tuple4 { t_header : H; t_body : B; t_receipts : R; t_difficulty : N }.
(** era1.rs:158-168; types.rs:33-44 *)
Definition tuple4_entries (t : tuple4) : list entry :=
  [entry_new 0x0300 (h_pack (t_header t)); entry_new 0x0400 (b_pack (t_body t)); entry_new 0x0500 (r_pack (t_receipts t)); difficulty_entry (t_difficulty t)].
(** era1.rs:136-156 *)
Definition tuple4_from (a b c d : entry) : outcome tuple4 :=
  obind (unpack_from 0x0300 h_unpack a) (fun h => obind (unpack_from 0x0400 b_unpack b) (fun b =>
  obind (unpack_from 0x0500 r_unpack c) (fun r => obind (difficulty_from d) (fun d => Ok (mk_tuple4 h b r d))))).
(** era1.rs:80-83: the loop over the tuples, on the records not yet used; [entries[4i+1..4i+5]]
    panics beyond the end.  Also what is left. *)
Fixpoint read_tuples4 (n : N) (rest : list entry) : outcome (list tuple4 * list entry) :=
  if n =? 0 then Ok ([], rest)
  else match rest with
       | a :: b :: c :: d :: rest' =>
           obind (tuple4_from a b c d) (fun t => obind (read_tuples4 (n - 1) rest') (fun r => Ok (t :: fst r, snd r)))
       | _ => Panic
       end.
(** era1.rs:38-43 [Era1] *)
Record era1 := mk_era1 { e1_version : entry; e1_tuples : list tuple4; e1_accumulator : bytes; e1_index : index }.
(** era1.rs:74 and 109: the number of records allowed *)
Definition era1_count_ok (n : N) : bool := (n =? 32771) || (n =? 21451).
Definition era1_lens : list N := [65552; 42912].
Definition n_len {A} (l : list A) : N := N.of_nat (length l).
(** era1.rs:69-93 [deserialize] *)
Definition era1_read (buf : bytes) : outcome era1 :=
  obind (mem_deserialize buf) (fun es =>
    if negb (era1_count_ok (n_len es)) then Err
    else match es with
         | [] => Panic
         | e0 :: rest =>
             obind (version_from e0) (fun v =>
             obind (index_from era1_lens (last es e0)) (fun ix =>
             obind (read_tuples4 (ix_count ix) rest) (fun tr =>
             match snd tr with
             | [] => Panic
             | a :: _ => obind (accumulator_from a) (fun acc => Ok (mk_era1 v (fst tr) acc ix))
             end)))
         end).
(** era1.rs:96-107 *)
Definition era1_entries (x : era1) : list entry :=
  e1_version x :: flat_map tuple4_entries (e1_tuples x) ++ [accumulator_entry (e1_accumulator x); index_entry 0x6632 (e1_index x)].
(** era1.rs:95-117 [write] *)
Definition era1_write (x : era1) : outcome bytes :=
  if negb (era1_count_ok (n_len (era1_entries x))) then Err
  else mem_write (era1_entries x) (mem_length (era1_entries x)).
(** era1.rs:54-67 [iter_tuples], run to the end: [expect] turns errors into panics. *)
Definition expect {A} (o : outcome A) : outcome A := match o with Ok a => Ok a | _ => Panic end.
Definition era1_iter (buf : bytes) : outcome (list tuple4) :=
  obind (mem_deserialize buf) (fun es =>
    match es with
    | [] => Err
    | e0 :: rest => obind (expect (index_from era1_lens (last es e0))) (fun ix => expect (omap fst (read_tuples4 (ix_count ix) rest)))
    end).

(** e2hs.rs:235-240 [BlockTuple] *)
Record tuple3 := mk_tuple3 { u_header : HP; u_body : B; u_receipts : R }.
(** e2hs.rs:264-274, 302-316 *)
Definition tuple3_entries (t : tuple3) : list entry :=
  [entry_new 0x0301 (hp_pack (u_header t)); entry_new 0x0400 (b_pack (u_body t)); entry_new 0x0500 (r_pack (u_receipts t))].
(** e2hs.rs:242-262 *)
Definition tuple3_from (a b c : entry) : outcome tuple3 :=
  obind (unpack_from 0x0301 hp_unpack a) (fun h => obind (unpack_from 0x0400 b_unpack b) (fun b =>
  obind (unpack_from 0x0500 r_unpack c) (fun r => Ok (mk_tuple3 h b r)))).
(** e2hs.rs:190-193 *)
Fixpoint read_tuples3 (n : N) (rest : list entry) : outcome (list tuple3 * list entry) :=
  if n =? 0 then Ok ([], rest)
  else match rest with
       | a :: b :: c :: rest' =>
           obind (tuple3_from a b c) (fun t => obind (read_tuples3 (n - 1) rest') (fun r => Ok (t :: fst r, snd r)))
       | _ => Panic
       end.
(** e2hs.rs:146-150 [E2HSMemory] *)
Record e2hs := mk_e2hs { hs_version : entry; hs_tuples : list tuple3; hs_index : index }.
(** e2hs.rs:173-199 [deserialize] *)
Definition e2hs_read (buf : bytes) : outcome e2hs :=
  obind (mem_deserialize buf) (fun es =>
    if negb (n_len es =? 24578) then Err
    else match es with
         | [] => Panic
         | e0 :: rest =>
             obind (version_from e0) (fun v =>
             obind (index_from [65552] (last es e0)) (fun ix =>
             obind (read_tuples3 (ix_count ix) rest) (fun tr => Ok (mk_e2hs v (fst tr) ix))))
         end).
(** e2hs.rs:201-224 [write] *)
Definition e2hs_entries (x : e2hs) : list entry :=
  hs_version x :: flat_map tuple3_entries (hs_tuples x) ++ [index_entry 0x6632 (hs_index x)].
Definition e2hs_write (x : e2hs) : outcome bytes :=
  if negb (n_len (e2hs_entries x) =? 24578) then Err
  else mem_write (e2hs_entries x) (mem_length (e2hs_entries x)).

(** e2hs.rs:50-58 [E2HSWriter]: the file so far and the index so far; the path, the short hash in
    the name and the flushing are left out. *)
Record hs_writer := mk_hs_writer { hw_file : bytes; hw_offset : N; hw_offsets : list N }.
(** e2hs.rs:62-89 [create] *)
Definition hs_create : outcome hs_writer :=
  omap (fun f => mk_hs_writer f (entry_length version_entry) []) (append_entry [] version_entry).
(** e2hs.rs:98-101: the records of one tuple *)
Fixpoint hs_append_entries (f : bytes) (off : N) (es : list entry) : outcome (bytes * N) :=
  match es with
  | [] => Ok (f, off)
  | e :: r => obind (append_entry f e) (fun f => hs_append_entries f (off + entry_length e) r)
  end.
(** e2hs.rs:95-114 [append_block_tuple] *)
Definition hs_append (w : hs_writer) (t : tuple3) : outcome hs_writer :=
  omap (fun p => mk_hs_writer (fst p) (snd p) (hw_offsets w ++ [hw_offset w])) (hs_append_entries (hw_file w) (hw_offset w) (tuple3_entries t)).
(** e2hs.rs:116-124 [finish], up to the index *)
Definition hs_finish (epoch : N) (w : hs_writer) : outcome bytes :=
  if negb (n_len (hw_offsets w) =? 8192) then Err
  else append_entry (hw_file w) (index_entry 0x6632 (mk_index (epoch * 8192) (hw_offsets w) 8192)).
Definition hs_run (epoch : N) (ts : list tuple3) : outcome bytes :=
  obind (fold_left (fun w t => obind w (fun w => hs_append w t)) ts hs_create) (hs_finish epoch).
End Codec.

(** era.rs:396-410 [get_beacon_fork] *)
Inductive era_fork := Bellatrix | Capella | Deneb | Electra.
Definition era_fork_of (slot : N) : outcome era_fork :=
  if slot <? 4636672 then Panic
  else if slot <? 6209536 then Ok Bellatrix
  else if slot <? 8626176 then Ok Capella
  else if slot <? 11649024 then Ok Deneb
  else Ok Electra.

Section Era.
Context {Bk St : Type}.
Context (bk_pack : Bk -> bytes) (bk_unpack : era_fork -> bytes -> option Bk).
Context (st_pack : St -> bytes) (st_unpack : era_fork -> bytes -> option St).

(** era.rs:27-33 [Era].  The offsets (i64) are kept as their 64 bits. *)
Record era := mk_era { er_version : entry; er_blocks : list Bk; er_state : St; er_block_index : index; er_state_index : index }.
(** era.rs:244-268, 295-315 and 328-352, 379-394: a slot index with [n] offsets *)
Definition slot_index_from (n : N) (e : entry) : outcome index :=
  if negb (e_type e =? 0x6932) then Err
  else if negb (e_len e =? 8 * (1 + n + 1)) then Err
  else if negb (e_reserved e =? 0) then Err
  else if negb (blen (e_value e) =? 8 * (1 + n + 1)) then Err
  else index_of (e_value e).
(** era.rs:93-115 [get_block_slot_indexes]: [-(begin as i64)] as 64 bits *)
Definition block_slots (file_length : N) (ix : index) : list N :=
  let begin := file_length - (8 + 65552) - (8 + 24) in
  flat_map (fun p => if negb (snd p =? (2 ^ 64 - begin) mod 2 ^ 64) then [(ix_start ix + N.of_nat (fst p)) mod 2 ^ 64] else [])
           (combine (seq 0 (length (ix_offsets ix))) (ix_offsets ix)).
(** era.rs:64-69 *)
Fixpoint read_blocks (slots : list N) (rest : list entry) : outcome (list Bk) :=
  match slots with
  | [] => Ok []
  | s :: ss =>
      match rest with
      | [] => Panic
      | e :: r => obind (era_fork_of s) (fun f => obind (unpack_from 0x0100 (bk_unpack f) e) (fun b =>
                  obind (read_blocks ss r) (fun bs => Ok (b :: bs))))
      end
  end.
(** era.rs:46-79 [deserialize].  [entries_length - 4] wraps below four records (then the counts
    differ; a debug build panics): the comparison is written with a sum. *)
Definition era_read (buf : bytes) : outcome era :=
  obind (mem_deserialize buf) (fun es =>
    match es with
    | [] => Panic
    | e0 :: rest =>
        obind (version_from e0) (fun v =>
        match rev es with
        | si :: bi :: before =>
            obind (slot_index_from 8192 bi) (fun bx =>
            obind (slot_index_from 1 si) (fun sx =>
            let slots := block_slots (blen buf) bx in
            if negb (n_len slots + 4 =? n_len es) then Err
            else obind (read_blocks slots rest) (fun bs =>
                 obind (era_fork_of (ix_start sx)) (fun f =>
                 match before with
                 | [] => Panic
                 | st :: _ => obind (unpack_from 0x0200 (st_unpack f) st) (fun s => Ok (mk_era v bs s bx sx))
                 end))))
        | _ => Panic
        end)
    end).
(** era.rs:117-137 [write] *)
Definition era_entries (x : era) : list entry :=
  er_version x :: map (fun b => entry_new 0x0100 (bk_pack b)) (er_blocks x) ++
  [entry_new 0x0200 (st_pack (er_state x)); index_entry 0x6932 (er_block_index x); index_entry 0x6932 (er_state_index x)].
Definition era_write (x : era) : outcome bytes := mem_write (era_entries x) (mem_length (era_entries x)).
(** era.rs:139-148 [contains] *)
Definition era_contains (number : Bk -> N) (x : era) (n : N) : bool :=
  match er_blocks x with
  | [] => false
  | b :: r => (number b <=? n) && (n <=? number (last r b))
  end.
(** era.rs:150-152 [epoch_index] *)
Definition era_epoch (x : era) : N := ix_start (er_state_index x) / 8192.
End Era.

Section Snapshot.
Context {H A S : Type}.
Context (h_pack : H -> bytes) (h_unpack : bytes -> option H).
Context (a_pack : A -> bytes) (a_unpack : bytes -> option A) (storage_count : A -> N).
Context (s_pack : S -> bytes) (s_unpack : bytes -> option S) (items : S -> N).

(** e2ss.rs:216-220 [AccountOrStorageEntry] *)
Inductive ss_item := Account (a : A) | Storage (s : S).
Definition ss_entry (i : ss_item) : entry :=
  match i with Account a => entry_new 0x0800 (a_pack a) | Storage s => entry_new 0x0900 (s_pack s) end.
(** e2ss.rs:59-66 [E2SSWriter]: the file and the storage entries still due. *)
Record ss_writer := mk_ss_writer { ss_file : bytes; ss_pending : N }.
(** e2ss.rs:69-93 [create] *)
Definition ss_create (h : H) : outcome ss_writer :=
  obind (append_entry [] version_entry) (fun f =>
  obind (append_entry f (entry_new 0x0300 (h_pack h))) (fun f => Ok (mk_ss_writer f 0))).
(** e2ss.rs:99-132 [append_entry].  The count changes before the record is written. *)
Definition ss_write (w : ss_writer) (pending : N) (e : entry) : ss_writer * outcome unit :=
  match append_entry (ss_file w) e with
  | Ok f => (mk_ss_writer f pending, Ok tt)
  | Err => (mk_ss_writer (ss_file w) pending, Err)
  | Panic => (mk_ss_writer (ss_file w) pending, Panic)
  end.
Definition ss_append (w : ss_writer) (i : ss_item) : ss_writer * outcome unit :=
  match i with
  | Account a => if negb (ss_pending w =? 0) then (w, Err) else ss_write w (storage_count a) (ss_entry i)
  | Storage s =>
      if ss_pending w =? 0 then (w, Err)
      else if negb (if ss_pending w =? 1 then items s <=? 10000000 else items s =? 10000000) then (w, Err)
      else ss_write w (ss_pending w - 1) (ss_entry i)
  end.
Fixpoint ss_appends (w : ss_writer) (l : list ss_item) : ss_writer * list (outcome unit) :=
  match l with
  | [] => (w, [])
  | i :: r => let (w', o) := ss_append w i in let (w'', os) := ss_appends w' r in (w'', o :: os)
  end.

(** e2ss.rs:153-166 [open]: the header and the rest of the file *)
Definition ss_open (b : bytes) : outcome (H * bytes) :=
  match next_entry b with
  | Got v b1 => obind (version_from v) (fun _ =>
      match next_entry b1 with
      | Got e b2 => omap (fun h => (h, b2)) (unpack_from 0x0300 h_unpack e)
      | _ => Err
      end)
  | _ => Err
  end.
(** e2ss.rs:176-213 [next]: [None] is the end of the iteration. *)
Definition ss_next (pending : N) (b : bytes) : outcome (option (ss_item * N * bytes)) :=
  if 0 <? pending then
    match next_entry b with
    | Got e r => match unpack_from 0x0900 s_unpack e with Ok s => Ok (Some (Storage s, pending - 1, r)) | _ => Panic end
    | _ => Panic
    end
  else
    match next_entry b with
    | Got e r => match unpack_from 0x0800 a_unpack e with Ok a => Ok (Some (Account a, storage_count a, r)) | _ => Panic end
    | Eof => Ok None
    | Bad => Panic
    end.
(** The whole iteration: the items, and whether it ended ([Ok]) or panicked. *)
Fixpoint ss_iter (fuel : nat) (pending : N) (b : bytes) : list ss_item * outcome unit :=
  match fuel with
  | O => ([], Err)
  | Datatypes.S f =>
      match ss_next pending b with
      | Ok None => ([], Ok tt)
      | Ok (Some (i, p, r)) => let (l, z) := ss_iter f p r in (i :: l, z)
      | _ => ([], Panic)
      end
  end.
Definition ss_read (b : bytes) : outcome (H * list ss_item * outcome unit) :=
  obind (ss_open b) (fun hb => let (l, z) := ss_iter (Datatypes.S (length (snd hb))) 0 (snd hb) in Ok (fst hb, l, z)).
End Snapshot.
