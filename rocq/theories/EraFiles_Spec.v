(** What era1, e2hs, era and e2ss files hold. *)
From Verif Require Import Base E2Store_Model EraFiles_Model.

(** A value that compresses to less than 4 GiB and is decompressed to itself. *)
Definition packs {A} (pack : A -> bytes) (unpack : bytes -> option A) (v : A) : Prop :=
  bytes_ok (pack v) /\ blen (pack v) < 2 ^ 32 - 8 /\ unpack (pack v) = Some v.
Definition index_ok (ix : index) (n : N) : Prop :=
  ix_start ix < 2 ^ 64 /\ Forall (fun o => o < 2 ^ 64) (ix_offsets ix) /\ ix_count ix < 2 ^ 64 /\ N.of_nat (length (ix_offsets ix)) = n.

(** An era1 file: 8192 blocks, or 5362 in the last one before the merge; the index counts them. *)
Definition era1_blocks (n : N) : Prop := n = 8192 \/ n = 5362.
Section Spec.
Context {H HP B R : Type}.
Context (h_pack : H -> bytes) (h_unpack : bytes -> option H).
Context (hp_pack : HP -> bytes) (hp_unpack : bytes -> option HP).
Context (b_pack : B -> bytes) (b_unpack : bytes -> option B).
Context (r_pack : R -> bytes) (r_unpack : bytes -> option R).

Definition tuple4_ok (t : @tuple4 H B R) : Prop :=
  packs h_pack h_unpack (t_header t) /\ packs b_pack b_unpack (t_body t) /\ packs r_pack r_unpack (t_receipts t) /\ t_difficulty t < 2 ^ 256.
(** all but the count in the index *)
Definition era1_body (x : @era1 H B R) : Prop :=
  e1_version x = version_entry /\ Forall tuple4_ok (e1_tuples x) /\ era1_blocks (N.of_nat (length (e1_tuples x))) /\
  bytes_ok (e1_accumulator x) /\ blen (e1_accumulator x) = 32 /\
  (exists n, era1_blocks n /\ index_ok (e1_index x) n).
Definition era1_ok (x : @era1 H B R) : Prop := era1_body x /\ ix_count (e1_index x) = N.of_nat (length (e1_tuples x)).

Definition tuple3_ok (t : @tuple3 HP B R) : Prop :=
  packs hp_pack hp_unpack (u_header t) /\ packs b_pack b_unpack (u_body t) /\ packs r_pack r_unpack (u_receipts t).
Definition e2hs_body (x : @e2hs HP B R) : Prop :=
  hs_version x = version_entry /\ Forall tuple3_ok (hs_tuples x) /\ N.of_nat (length (hs_tuples x)) = 8192 /\ index_ok (hs_index x) 8192.
Definition e2hs_ok (x : @e2hs HP B R) : Prop := e2hs_body x /\ ix_count (hs_index x) = 8192.
End Spec.

(** An era file: for each of the 8192 slots from [start] a block or none. *)
Section EraSpec.
Context {Bk St : Type}.
Context (bk_pack : Bk -> bytes) (bk_unpack : era_fork -> bytes -> option Bk).
Context (st_pack : St -> bytes) (st_unpack : era_fork -> bytes -> option St).
(** the fork a mainnet slot from the merge on belongs to *)
Definition fork_at (slot : N) (f : era_fork) : Prop :=
  match f with
  | Bellatrix => 4636672 <= slot < 6209536
  | Capella => 6209536 <= slot < 8626176
  | Deneb => 8626176 <= slot < 11649024
  | Electra => 11649024 <= slot
  end.
Definition present (slots : list (option Bk)) : list Bk := flat_map (fun o => match o with Some b => [b] | None => [] end) slots.
(** The offset that marks an empty slot: back from the index to the start of the file. *)
Definition empty_mark (file_length : N) : N := 2 ^ 64 - (file_length - 65560 - 32).
(** What can be written; the offsets tell which slots are empty. *)
Definition era_frame (slots : list (option Bk)) (x : @era Bk St) : Prop :=
  er_version x = version_entry /\ er_blocks x = present slots /\
  index_ok (er_block_index x) 8192 /\ index_ok (er_state_index x) 1 /\ ix_start (er_block_index x) + 8192 <= 2 ^ 64 /\
  mem_length (era_entries bk_pack st_pack x) < 2 ^ 63 /\
  Forall2 (fun o off => o = None <-> off = empty_mark (mem_length (era_entries bk_pack st_pack x))) slots (ix_offsets (er_block_index x)) /\
  Forall (fun b => bytes_ok (bk_pack b) /\ blen (bk_pack b) < 2 ^ 32 - 8) (present slots) /\
  bytes_ok (st_pack (er_state x)) /\ blen (st_pack (er_state x)) < 2 ^ 32 - 8.
(** ... and each block and the state are of the fork of their slot. *)
Definition era_ok (slots : list (option Bk)) (x : @era Bk St) : Prop :=
  era_frame slots x /\
  (forall i b, nth_error slots i = Some (Some b) -> exists f, fork_at (ix_start (er_block_index x) + N.of_nat i) f /\ bk_unpack f (bk_pack b) = Some b) /\
  (exists f, fork_at (ix_start (er_state_index x)) f /\ st_unpack f (st_pack (er_state x)) = Some (er_state x)).
End EraSpec.

(** A snapshot: accounts, each followed by its storage in records of ten million items. *)
Section SnapshotSpec.
Context {A S : Type} (storage_count : A -> N) (items : S -> N).
Definition filled (ss : list S) : Prop :=
  forall i s, nth_error ss i = Some s -> if Nat.eqb (Datatypes.S i) (length ss) then items s <= 10000000 else items s = 10000000.
Definition account_ok (g : A * list S) : Prop := storage_count (fst g) = N.of_nat (length (snd g)) /\ filled (snd g).
Definition flatten (gs : list (A * list S)) : list (@ss_item A S) := flat_map (fun g => Account (fst g) :: map (@Storage A S) (snd g)) gs.
End SnapshotSpec.
