(** Choosing the store of a content type and the store of ephemeral content:
    /repo/crates/storage/src/versioned/{mod,utils,sql}.rs and
    /repo/crates/storage/src/versioned/ephemeral_v1/{store,sql}.rs.

    The database is the table of store versions and one table per store; every SQL statement
    succeeds and is atomic, except for a value that SQLite cannot hold.  The process may die
    between any two statements.  Not modelled: metrics, logging, the indexes of the tables. *)
From Coq Require Import String.
From Verif Require Import Base Distance_Model Store_Model.
Open Scope N_scope.

(** mod.rs:20-28 [ContentType] and mod.rs:39-49 [StoreVersion] *)
Inductive content_type := State | LegacyHistoryEternal | LegacyHistoryEphemeral.
Inductive version := MockContentStore | IdIndexedV1 | EphemeralV1.
(** strum's snake case names, mod.rs:20-21 and 38-39 *)
Definition type_name (t : content_type) : string :=
  match t with
  | State => "state"
  | LegacyHistoryEternal => "legacy_history_eternal"
  | LegacyHistoryEphemeral => "legacy_history_ephemeral"
  end%string.
Definition version_name (v : version) : string :=
  match v with
  | MockContentStore => "mock_content_store"
  | IdIndexedV1 => "id_indexed_v1"
  | EphemeralV1 => "ephemeral_v1"
  end%string.
Definition version_of (s : string) : option version :=
  find (fun v => String.eqb (version_name v) s) [MockContentStore; IdIndexedV1; EphemeralV1].
Definition same_version (a b : version) : bool := String.eqb (version_name a) (version_name b).

(** ephemeral_v1/sql.rs:4-6 and id_indexed_v1/sql.rs:4-6 [table_name] *)
Definition eph_table (t : content_type) : string := ("eph1_" ++ type_name t)%string.
Definition idx_table (t : content_type) : string := ("ii1_" ++ type_name t)%string.

(** ephemeral_v1/sql.rs:8-25: the table. *)
Record erow := mk_erow { e_id : bytes; e_key : bytes; e_value : bytes; e_type : N; e_slot : N; e_size : N }.

(** The database: the rows of [store_info] (sql.rs:3-7), and the tables by name. *)
Record db := mk_db { info : list (string * string); eph : string -> list erow; idx : string -> list row }.
Definition empty_db : db := mk_db [] (fun _ => []) (fun _ => []).
Definition set {A} (f : string -> A) (n : string) (x : A) : string -> A := fun m => if String.eqb m n then x else f m.

(** utils.rs:35-47 [get_store_version]: [Err] when the text is no version. *)
Definition get_version (t : content_type) (d : db) : outcome (option version) :=
  match find (fun p => String.eqb (fst p) (type_name t)) (info d) with
  | None => Ok None
  | Some p => match version_of (snd p) with Some v => Ok (Some v) | None => Err end
  end.
(** utils.rs:49-62 [update_store_info], sql.rs:9-11 INSERT OR REPLACE *)
Definition set_version (t : content_type) (v : version) (d : db) : db :=
  mk_db ((type_name t, version_name v) :: filter (fun p => negb (String.eqb (fst p) (type_name t))) (info d)) (eph d) (idx d).

(** ephemeral_v1/store.rs:20-30 *)
Record estore := mk_estore { e_rows : list erow; e_stats : usage }.
Definition find_erow (id : bytes) (l : list erow) : option erow := find (fun r => beqb (e_id r) id) l.
(** ephemeral_v1/sql.rs:72-77 and store.rs:231-253 [init_usage_stats]; TOTAL is exact below 2^53. *)
Definition e_usage (l : list erow) : usage := mk_usage (blen l) (fold_right (fun r a => e_size r + a) 0 l).
(** ephemeral_v1/store.rs:48-65, 70-76 [create], [init]: never prunes. *)
Definition e_create (l : list erow) : estore := mk_estore l (e_usage l).

Section Ops.
Context (content_id : bytes -> bytes).

(** ephemeral_v1/store.rs:146-180 [insert].  rusqlite refuses a [u64] that does not fit a
    signed 64-bit integer: [Err], nothing changes.  INSERT OR IGNORE: sql.rs:27-48. *)
Definition e_insert (key value : bytes) (type_ slot : N) (s : estore) : outcome estore :=
  if 2 ^ 63 <=? slot then Err
  else
    let id := content_id key in
    let size := content_size id key value in
    let rows := match find_erow id (e_rows s) with
                | Some _ => e_rows s
                | None => e_rows s ++ [mk_erow id key value type_ slot size]
                end in
    Ok (mk_estore rows (on_store (e_stats s) size)).
(** ephemeral_v1/store.rs:183-211 [delete]; an underflow of the usage is a panic. *)
Definition e_delete (id : bytes) (s : estore) : outcome estore :=
  match find_erow id (e_rows s) with
  | None => Ok s
  | Some r =>
      match on_multi_delete (e_stats s) 1 (e_size r) with
      | Some u => Ok (mk_estore (filter (fun r => negb (beqb (e_id r) id)) (e_rows s)) u)
      | None => Panic
      end
  end.
(** ephemeral_v1/store.rs:81-143 *)
Definition e_has (id : bytes) (s : estore) : bool := match find_erow id (e_rows s) with Some _ => true | None => false end.
Definition e_lookup_key (id : bytes) (s : estore) : option bytes := option_map e_key (find_erow id (e_rows s)).
Definition e_lookup (id : bytes) (s : estore) : option bytes := option_map e_value (find_erow id (e_rows s)).

(** One event in the life of an ephemeral table: an operation of the running store, or
    closing (or dying) and opening it again. *)
Inductive e_op := EInsert (key value : bytes) (type_ slot : N) | EDelete (id : bytes) | EReopen.
Definition e_step (s : estore) (o : e_op) : outcome estore :=
  match o with
  | EInsert k v t n => match e_insert k v t n s with Err => Ok s | r => r end
  | EDelete id => e_delete id s
  | EReopen => Ok (e_create (e_rows s))
  end.
Fixpoint e_run (s : estore) (ops : list e_op) : outcome estore :=
  match ops with [] => Ok s | o :: ops' => obind (e_step s o) (fun s => e_run s ops') end.

(** What a store is asked to open: its version and, for the id-indexed store, its
    configuration and the choices of the database while it prunes. *)
Inductive opening :=
| OpenMock
| OpenEphemeral
| OpenIndexed (c : config) (ties : nat -> row -> N) (durs : nat -> duration).
Definition opening_version (o : opening) : version :=
  match o with OpenMock => MockContentStore | OpenEphemeral => EphemeralV1 | OpenIndexed _ _ _ => IdIndexedV1 end.
(** An open store. *)
Inductive handle := HMock | HEphemeral (s : estore) | HIndexed (s : store).

(** utils.rs:73-83, ephemeral_v1/store.rs:39-48, id_indexed_v1/store.rs:71-80 [migrate_from]:
    no store can be made from another version. *)
Definition migrate_from (old new : version) : outcome unit := Err.

(** [S::create] on the database: utils.rs:85-90, ephemeral_v1/store.rs:50-65,
    id_indexed_v1/store.rs:82-102 *)
Definition create_version (o : opening) (t : content_type) (d : db) : outcome handle * db :=
  match o with
  | OpenMock => (Ok HMock, d)
  | OpenEphemeral => (Ok (HEphemeral (e_create (eph d (eph_table t)))), d)
  | OpenIndexed c ties durs =>
      let (r, rows) := Store_Model.create c ties durs (idx d (idx_table t)) in
      (omap HIndexed r, mk_db (info d) (eph d) (set (idx d) (idx_table t) rows))
  end.
(** utils.rs:10-33 [create_store] *)
Definition create_store (o : opening) (t : content_type) (d : db) : outcome handle * db :=
  match get_version t d with
  | Ok (Some old) =>
      if same_version (opening_version o) old then create_version o t d
      else
        match migrate_from old (opening_version o) with
        | Ok _ => create_version o t (set_version t (opening_version o) d)
        | Err => (Err, d)
        | Panic => (Panic, d)
        end
  | Ok None => create_version o t (set_version t (opening_version o) d)
  | Err => (Err, d)
  | Panic => (Panic, d)
  end.
(** The database if the process dies on the way: before or after the version is written
    (what pruning leaves behind is a database that [create] leaves behind, Store_Model). *)
Definition create_store_died (before : bool) (o : opening) (t : content_type) (d : db) : db :=
  match get_version t d with
  | Ok None => if before then d else set_version t (opening_version o) d
  | _ => d
  end.

(** The running process: the database and the open stores. *)
Record world := mk_world { disk : db; open : list (content_type * handle) }.
Definition same_type (a b : content_type) : bool := String.eqb (type_name a) (type_name b).
Definition opened (t : content_type) (w : world) : option handle :=
  option_map snd (find (fun p => same_type (fst p) t) (open w)).
(** Writes of an open store go to its table. *)
Definition write (t : content_type) (h : handle) (d : db) : db :=
  match h with
  | HMock => d
  | HEphemeral s => mk_db (info d) (set (eph d) (eph_table t) (e_rows s)) (idx d)
  | HIndexed s => mk_db (info d) (eph d) (set (idx d) (idx_table t) (Store_Model.rows s))
  end.
Definition replace (t : content_type) (h : handle) (w : world) : world :=
  mk_world (write t h (disk w)) ((t, h) :: filter (fun p => negb (same_type (fst p) t)) (open w)).

(** Operations on an open store of a content type; starting a store (only one is open for a
    content type); and dying, at rest or while a store is being opened. *)
Inductive event :=
| VOpen (t : content_type) (o : opening)
| VEphemeral (t : content_type) (o : e_op)
| VIndexed (t : content_type) (o : Store_Model.op)
| VDie
| VDieOpening (t : content_type) (o : opening) (before : bool).
Definition v_step (w : world) (e : event) : world :=
  match e with
  | VOpen t o =>
      match opened t w with
      | Some _ => w
      | None =>
          let (r, d) := create_store o t (disk w) in
          match r with Ok h => mk_world d ((t, h) :: open w) | _ => mk_world d (open w) end
      end
  | VEphemeral t o =>
      match opened t w with
      | Some (HEphemeral s) => match e_step s o with Ok s' => replace t (HEphemeral s') w | _ => w end
      | _ => w
      end
  | VIndexed t o =>
      match opened t w with
      | Some (HIndexed s) => match Store_Model.step content_id s o with Some s' => replace t (HIndexed s') w | None => w end
      | _ => w
      end
  | VDie => mk_world (disk w) []
  | VDieOpening t o before =>
      match opened t w with Some _ => w | None => mk_world (create_store_died before o t (disk w)) [] end
  end.
Definition v_run (w : world) (l : list event) : world := fold_left v_step l w.
End Ops.
