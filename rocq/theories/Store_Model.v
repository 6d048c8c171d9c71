(** The id-indexed content store: /repo/crates/storage/src/versioned/id_indexed_v1/
    {store,pruning_strategy,sql,config}.rs and versioned/usage_stats.rs.

    The SQL table is a list of rows with distinct ids.  Not modelled: failures of the database
    itself (every SQL statement succeeds and is atomic), metrics, logging.  Content keys are
    their byte strings: [TContentKey::try_from_bytes] of a key written by [to_bytes] succeeds
    (property C26). *)
From Coq Require Import QArith.
From Verif Require Import Base Distance_Model Sort_Model F64_Model.
Open Scope N_scope.

(** sql.rs:8-24: the table. *)
Record row := mk_row { r_id : bytes; r_key : bytes; r_value : bytes; r_short : N; r_size : N }.

(** config.rs:12-22 (the fields that matter) and store.rs:557-563
    [extra_disk_usage_per_content_bytes] of the content type. *)
Record config := mk_config { node_id : bytes; capacity : N; max_radius : N; extra : N }.

(** usage_stats.rs:4-13 *)
Record usage := mk_usage { entry_count : N; total_size : N }.

(** store.rs:44-61.  [max_pruning_count]: pruning_strategy.rs:87-92. *)
Record store := mk_store { cfg : config; rows : list row; radius : N; max_pruning_count : N; stats : usage }.

(** usage_stats.rs:38-41 [estimated_disk_usage_bytes]; sums are [u64] sums that do not
    overflow for any database that fits on a disk. *)
Definition disk_usage (c : config) (u : usage) : N := total_size u + entry_count u * extra c.
(** usage_stats.rs:58-62 [on_store] *)
Definition on_store (u : usage) (size : N) : usage := mk_usage (entry_count u + 1) (total_size u + size).
(** usage_stats.rs:65-77 [on_multi_delete]; [u64] subtraction below zero panics in debug
    builds and wraps in release builds: both are [None] here. *)
Definition on_multi_delete (u : usage) (n size : N) : option usage :=
  if (n <=? entry_count u) && (size <=? total_size u)
  then Some (mk_usage (entry_count u - n) (total_size u - size)) else None.

(** pruning_strategy.rs:27, 104-108 [target_capacity_bytes] with the default fraction 0.95. *)
Definition target_capacity (c : config) : N :=
  as_u64 (fround (fmul (f64_of (capacity c)) (flit (95 # 100)))).
(** pruning_strategy.rs:111-118 *)
Definition above_target (c : config) (u : usage) : bool := target_capacity c <? disk_usage c u.
Definition should_prune (c : config) (u : usage) : bool := capacity c <? disk_usage c u.
(** usage_stats.rs:44-51 [average_entry_disk_usage_bytes] when there are entries. *)
Definition average_usage (c : config) (u : usage) : f64 :=
  fadd (fdiv (f64_of (total_size u)) (f64_of (entry_count u))) (f64_of (extra c)).
(** pruning_strategy.rs:167-186 [estimate_to_delete_until_target] *)
Definition estimate_to_delete (c : config) (u : usage) : N :=
  if entry_count u =? 0 then 0
  else
    let at_target := as_u64 (ffloor (fdiv (f64_of (target_capacity c)) (average_usage c u))) in
    if at_target <? entry_count u then entry_count u - at_target else 0.
(** pruning_strategy.rs:121-137 [get_pruning_count] *)
Definition pruning_count (c : config) (mpc : N) (u : usage) : N :=
  if negb (should_prune c u) then 0
  else if capacity c =? 0 then entry_count u
  else N.min (estimate_to_delete c u) mpc.
(** pruning_strategy.rs:141-163 [observe_pruning_duration]: how long the deletion took
    compared with the optimal range. *)
Inductive duration := TooFast | TooSlow | Optimal.
Definition observe_duration (mpc : N) (d : duration) : N :=
  match d with
  | TooFast => N.max (as_u64 (fround (fmul (fadd 1%Q (flit (2 # 10))) (f64_of mpc)))) 1
  | TooSlow => N.max (as_u64 (fround (fmul (fsub 1%Q (flit (2 # 10))) (f64_of mpc)))) 1
  | Optimal => mpc
  end.

(** store.rs:186-188 [distance_to_content_id] *)
Definition dist (c : config) (id : bytes) : N := distance (node_id c) id.

(** sql.rs:26-43 INSERT OR IGNORE on the primary key. *)
Definition find_row (id : bytes) (l : list row) : option row := find (fun r => beqb (r_id r) id) l.
Definition sql_insert (r : row) (l : list row) : list row :=
  match find_row (r_id r) l with Some _ => l | None => l ++ [r] end.
(** sql.rs:45-52 *)
Definition sql_delete (id : bytes) (l : list row) : list row := filter (fun r => negb (beqb (r_id r) id)) l.
(** ORDER BY distance_short DESC; the order among equal distances is SQLite's choice, given
    by an arbitrary function [tie]. *)
Definition farthest_le (tie : row -> N) (a b : row) : bool :=
  (r_short b <? r_short a) || ((r_short a =? r_short b) && (tie a <=? tie b)).
Definition by_distance_desc (tie : row -> N) (l : list row) : list row := sort_by (farthest_le tie) l.
(** sql.rs:68-80 delete_farthest: the deleted rows and the others.  SQL does not define the
    order in which RETURNING lists them; theorems about it are up to permutation. *)
Definition sql_delete_farthest (tie : row -> N) (limit : N) (l : list row) : list row * list row :=
  let s := by_distance_desc tie l in
  let del := firstn (N.to_nat limit) s in
  (del, filter (fun r => negb (existsb (fun d => beqb (r_id d) (r_id r)) del)) l).
(** sql.rs:82-89 lookup_farthest with limit 1 *)
Definition sql_farthest (tie : row -> N) (l : list row) : option row := hd_error (by_distance_desc tie l).
(** sql.rs:101-106: COUNT( * ) and TOTAL(content_size).  TOTAL is a float; it is exact for
    sums below 2^53, beyond which the model differs. *)
Definition sum_sizes (l : list row) : N := fold_right (fun r a => r_size r + a) 0 l.
Definition sql_usage (l : list row) : usage := mk_usage (blen l) (sum_sizes l).

(** store.rs:434-457 [set_radius_to_farthest] *)
Definition radius_to_farthest (c : config) (tie : row -> N) (l : list row) : N :=
  match sql_farthest tie l with
  | None => if capacity c =? 0 then 0 else max_radius c
  | Some r => N.min (dist c (r_id r)) (max_radius c)
  end.

(** store.rs:480-528: the loop of [prune].  [ties] and [durs] give SQLite's choices and the
    durations of the successive iterations (numbered from 1; [ties 0] belongs to
    [lookup_farthest]); [fuel] bounds the number of iterations, [None] is
    the "Entries to prune is 0" exit (or an underflow), which leaves the radius unchanged. *)
Record loop_state := mk_loop { l_rows : list row; l_mpc : N; l_stats : usage; l_dropped : list (bytes * bytes) }.
Fixpoint prune_loop (fuel : nat) (c : config) (ties : nat -> row -> N) (durs : nat -> duration) (i : nat)
  (s : loop_state) : loop_state * bool :=
  match fuel with
  | O => (s, true)
  | S fuel' =>
      if should_prune c (l_stats s) then
        let to_delete := pruning_count c (l_mpc s) (l_stats s) in
        if to_delete =? 0 then (s, false)
        else
          let (del, kept) := sql_delete_farthest (ties i) to_delete (l_rows s) in
          let mpc := observe_duration (l_mpc s) (durs i) in
          if negb (blen del =? to_delete) then
            (mk_loop kept mpc (sql_usage kept) (l_dropped s), true)
          else
            match on_multi_delete (l_stats s) to_delete (sum_sizes del) with
            | Some u =>
                prune_loop fuel' c ties durs (S i)
                  (mk_loop kept mpc u (l_dropped s ++ map (fun r => (r_key r, r_value r)) del))
            | None => (s, false)
            end
      else (s, true)
  end.
(** store.rs:461-540 [prune].  Every iteration deletes a row or is the last, so [length rows]
    plus two iterations suffice. *)
Definition prune (ties : nat -> row -> N) (durs : nat -> duration) (s : store) : store * list (bytes * bytes) :=
  if negb (should_prune (cfg s) (stats s)) then (s, [])
  else
    let (l, set_radius) :=
      prune_loop (length (rows s) + 2) (cfg s) ties durs 1 (mk_loop (rows s) (max_pruning_count s) (stats s) []) in
    let radius' := if set_radius then radius_to_farthest (cfg s) (ties O) (l_rows l) else radius s in
    (mk_store (cfg s) (l_rows l) radius' (l_mpc l) (l_stats l), l_dropped l).

(** store.rs:544-554 [calculate_content_size] *)
Definition content_size (id key value : bytes) : N := blen id + blen key + blen value.

Section Ops.
(** The content id of a key: a hash or the identity, depending on the key. *)
Context (content_id : bytes -> bytes).

Definition new_row (c : config) (key value : bytes) : row :=
  let id := content_id key in
  mk_row id key value (big_endian_u32 (dist c id)) (content_size id key value).

(** store.rs:257-305 [insert]: [None] is the [InsufficientRadius] error. *)
Definition insert (ties : nat -> row -> N) (durs : nat -> duration) (key value : bytes) (s : store)
  : store * option (list (bytes * bytes)) :=
  let r := new_row (cfg s) key value in
  if radius s <? dist (cfg s) (r_id r) then (s, None)
  else
    let s1 := mk_store (cfg s) (sql_insert r (rows s)) (radius s) (max_pruning_count s) (on_store (stats s) (r_size r)) in
    if should_prune (cfg s1) (stats s1) then
      let (s2, dropped) := prune ties durs s1 in (s2, Some dropped)
    else (s1, Some []).

(** store.rs:308-337 [delete]; [None] is an underflow of the usage. *)
Definition delete (id : bytes) (s : store) : option store :=
  match find_row id (rows s) with
  | Some r =>
      match on_multi_delete (stats s) 1 (r_size r) with
      | Some u => Some (mk_store (cfg s) (sql_delete id (rows s)) (radius s) (max_pruning_count s) u)
      | None => None
      end
  | None => Some s
  end.

(** store.rs:191-250 [has_content], [lookup_content_key], [lookup_content_value] *)
Definition lookup (id : bytes) (s : store) : option bytes := option_map r_value (find_row id (rows s)).
Definition lookup_key (id : bytes) (s : store) : option bytes := option_map r_key (find_row id (rows s)).
Definition has_content (id : bytes) (s : store) : bool := existsb (fun r => beqb (r_id r) id) (rows s).

(** store.rs:82-102 [create] and 107-172 [init] on a database with the given rows:
    [Err] when the farthest row does not have the expected distance.  The database keeps the
    rows of the second component in any case (pruning comes before the check). *)
Definition create (c : config) (ties : nat -> row -> N) (durs : nat -> duration) (db : list row)
  : outcome store * list row :=
  let s0 := mk_store c db (max_radius c) 100 (sql_usage db) in
  let s1 :=
    if should_prune c (stats s0) then fst (prune ties durs s0)
    else if above_target c (stats s0) then mk_store c db (radius_to_farthest c (ties O) db) 100 (stats s0)
    else if capacity c =? 0 then mk_store c db 0 100 (stats s0)
    else mk_store c db (max_radius c) 100 (stats s0) in
  match sql_farthest (ties O) (rows s1) with
  | Some r => if r_short r =? big_endian_u32 (dist c (r_id r)) then (Ok s1, rows s1) else (Err, rows s1)
  | None => (Ok s1, rows s1)
  end.

(** Byte strings in the order of SQLite's BLOB comparison ([memcmp], then length). *)
Fixpoint blob_le (a b : bytes) : bool :=
  match a, b with
  | [], _ => true
  | _, [] => false
  | x :: a', y :: b' => (x <? y) || ((x =? y) && blob_le a' b')
  end.
(** store.rs:341-372 [paginate], sql.rs:91-99.  Limits that do not fit a signed 64-bit
    integer are an error of the database driver. *)
Definition paginate (offset limit : N) (s : store) : outcome (list bytes * N) :=
  if (2 ^ 63 <=? offset) || (2 ^ 63 <=? limit) then Err
  else Ok (firstn (N.to_nat limit) (skipn (N.to_nat offset) (sort_by blob_le (map r_key (rows s)))), entry_count (stats s)).

(** subnetworks/state/src/storage.rs:54-69 [should_we_store] (also legacy history): whether
    the overlay asks for a key. *)
Inductive should_store := NotWithinRadius | AlreadyStored | DoStore.
Definition should_we_store (affected_by_radius : bool) (key : bytes) (s : store) : should_store :=
  let id := content_id key in
  if affected_by_radius && (radius s <? dist (cfg s) id) then NotWithinRadius
  else if has_content id s then AlreadyStored
  else DoStore.

(** One event in the life of a database: operations of the running store; closing and
    opening it again, possibly with another configuration; and dying in the middle of an
    insert, after [n] deletions of its pruning loop, followed by opening it again. *)
Inductive op :=
| OInsert (ties : nat -> row -> N) (durs : nat -> duration) (key value : bytes)
| ODelete (id : bytes)
| OReopen (c : config) (ties : nat -> row -> N) (durs : nat -> duration)
| OCrash (ties : nat -> row -> N) (durs : nat -> duration) (key value : bytes) (n : nat)
         (c : config) (ties' : nat -> row -> N) (durs' : nat -> duration).

(** The rows on disk if the process dies after the INSERT and [n] iterations of pruning. *)
Definition crashed_rows (ties : nat -> row -> N) (durs : nat -> duration) (key value : bytes) (n : nat) (s : store) : list row :=
  let r := new_row (cfg s) key value in
  if radius s <? dist (cfg s) (r_id r) then rows s
  else
    let db := sql_insert r (rows s) in
    l_rows (fst (prune_loop n (cfg s) ties durs 1 (mk_loop db (max_pruning_count s) (on_store (stats s) (r_size r)) []))).

(** [None]: the store could not be opened or the usage underflowed. *)
Definition step (s : store) (o : op) : option store :=
  match o with
  | OInsert ties durs k v => Some (fst (insert ties durs k v s))
  | ODelete id => delete id s
  | OReopen c ties durs => match fst (create c ties durs (rows s)) with Ok s' => Some s' | _ => None end
  | OCrash ties durs k v n c ties' durs' =>
      match fst (create c ties' durs' (crashed_rows ties durs k v n s)) with Ok s' => Some s' | _ => None end
  end.
Fixpoint run (s : store) (ops : list op) : option store :=
  match ops with
  | [] => Some s
  | o :: ops' => match step s o with Some s' => run s' ops' | None => None end
  end.
End Ops.
