(** The store and the validator of the beacon subnetwork:
    /repo/crates/subnetworks/beacon/src/storage.rs, validation.rs, network.rs:155-177, the queries in
    /repo/crates/storage/src/sql.rs and the content values in
    /repo/crates/ethportal-api/src/types/content_value/beacon.rs.

    The bodies of the values are SSZ containers of the consensus types.  Their decoders are
    arguments: they give the parts that the store and the validator look at.  Re-encoding a
    decoded value is taken to give the bytes it was decoded from (the decoders of [Ssz_Model]
    are canonical in this sense).  Errors of the disk and the database are not modelled, except
    for integers SQLite cannot represent. *)
From Verif Require Import Base Ssz_Model Header_Model ChainHead_Model.

(** consensus/fork.rs:20-25 *)
Inductive fork := Bellatrix | Capella | Deneb | Electra.
Definition fork_eqb (a b : fork) : bool :=
  match a, b with
  | Bellatrix, Bellatrix | Capella, Capella | Deneb, Deneb | Electra, Electra => true
  | _, _ => false
  end.
(** fork.rs:42-49 [as_fork_digest] *)
Definition fork_digest (f : fork) : bytes :=
  match f with
  | Bellatrix => [0x4a; 0x26; 0xc5; 0x8b]
  | Capella => [0xbb; 0xa4; 0xda; 0x96]
  | Deneb => [0x6a; 0x95; 0xa1; 0xa9]
  | Electra => [0xad; 0x53; 0x2c; 0xeb]
  end.
(** fork.rs:30-38 [try_from] *)
Definition fork_of_digest (d : bytes) : option fork :=
  if beqb d (fork_digest Bellatrix) then Some Bellatrix
  else if beqb d (fork_digest Capella) then Some Capella
  else if beqb d (fork_digest Deneb) then Some Deneb
  else if beqb d (fork_digest Electra) then Some Electra
  else None.

(** content_value/beacon.rs:67-74, 147-153, 289-296, 369-376: the digest is sliced off without a
    check; 469-484: the summaries check the length first ([checked]). *)
Definition split_fork (checked : bool) (b : bytes) : outcome (fork * bytes) :=
  if blen b <? 4 then (if checked then Err else Panic)
  else match fork_of_digest (firstn 4 b) with
       | None => Err
       | Some f => Ok (f, skipn 4 b)
       end.
(** content_value/beacon.rs:59-65, 139-145, 281-287, 361-367, 446-449 *)
Definition join_fork (f : fork) (body : bytes) : bytes := fork_digest f ++ body.

(** content_key/beacon.rs:24-30 *)
Inductive beacon_key :=
  | KBootstrap (block_hash : bytes)
  | KUpdates (start_period count : N)
  | KFinality (finalized_slot : N)
  | KOptimistic (signature_slot : N)
  | KSummaries (epoch : N).

(** Result of asking whether content should be stored (storage/src/lib.rs [ShouldWeStoreContent]). *)
Inductive verdict := DoStore | AlreadyStored.

(** [start..(start + count)] over u64: the sum wraps around in a release build (a debug build
    panics). *)
Definition periods (start count : N) : list N :=
  let stop := (start + count) mod 2 ^ 64 in
  map (fun i => start + N.of_nat i) (seq 0 (N.to_nat (stop - start))).
(** rusqlite stores u64 as a signed integer and refuses those that do not fit. *)
Definition sql_int (x : N) : bool := x <? 2 ^ 63.

(** storage.rs:43-46, 114-120 and the tables of sql.rs:5-66.  A cached update is kept with its
    bytes and the parts that are looked at. *)
Record bstore := {
  bootstraps : list (bytes * (bytes * N));       (* block root -> value, slot *)
  updates : list (N * bytes);                    (* period -> value *)
  sums_row : option (N * bytes);                 (* epoch, value *)
  opt_cache : option (bytes * N);                (* value, signature slot *)
  fin_cache : option (bytes * (fork * N));       (* value, fork, finalised slot *)
  head : chain_head;
}.

Definition find_boot (s : bstore) (root : bytes) : option (bytes * N) :=
  option_map snd (find (fun r => beqb (fst r) root) (bootstraps s)).
Definition find_update (s : bstore) (period : N) : option bytes :=
  option_map snd (find (fun r => fst r =? period) (updates s)).

(** INSERT OR IGNORE (sql.rs:15-17, 49-51): a row with the same primary key stays. *)
Definition insert_boot (s : bstore) (root value : bytes) (slot : N) : bstore :=
  match find_boot s root with
  | Some _ => s
  | None => {| bootstraps := bootstraps s ++ [(root, (value, slot))]; updates := updates s; sums_row := sums_row s;
               opt_cache := opt_cache s; fin_cache := fin_cache s; head := head s |}
  end.
Definition insert_update (s : bstore) (period : N) (value : bytes) : bstore :=
  if negb (sql_int period) then s
  else match find_update s period with
  | Some _ => s
  | None => {| bootstraps := bootstraps s; updates := updates s ++ [(period, value)]; sums_row := sums_row s;
               opt_cache := opt_cache s; fin_cache := fin_cache s; head := head s |}
  end.
Definition set_sums (s : bstore) (epoch : N) (value : bytes) : bstore :=
  {| bootstraps := bootstraps s; updates := updates s; sums_row := Some (epoch, value);
     opt_cache := opt_cache s; fin_cache := fin_cache s; head := head s |}.
Definition set_opt (s : bstore) (value : bytes) (sig : N) : bstore :=
  {| bootstraps := bootstraps s; updates := updates s; sums_row := sums_row s;
     opt_cache := Some (value, sig); fin_cache := fin_cache s; head := head s |}.
Definition set_fin (s : bstore) (value : bytes) (f : fork) (slot : N) : bstore :=
  {| bootstraps := bootstraps s; updates := updates s; sums_row := sums_row s;
     opt_cache := opt_cache s; fin_cache := Some (value, (f, slot)); head := head s |}.
Definition set_head (s : bstore) (h : chain_head) : bstore :=
  {| bootstraps := bootstraps s; updates := updates s; sums_row := sums_row s;
     opt_cache := opt_cache s; fin_cache := fin_cache s; head := h |}.

(** storage.rs:63-74 [get_optimistic_update] *)
Definition cached_opt (s : bstore) (sig : N) : option bytes :=
  match opt_cache s with
  | Some (v, n) => if sig <=? n then Some v else None
  | None => None
  end.
(** storage.rs:77-97 [get_finality_update]: only of the Electra fork *)
Definition cached_fin (s : bstore) (slot : N) : option bytes :=
  match fin_cache s with
  | Some (v, (f, n)) => if fork_eqb f Electra then if slot <=? n then Some v else None else None
  | None => None
  end.
(** sql.rs:74-75, storage.rs:704-717 *)
Definition find_sums (s : bstore) (epoch : N) : outcome (option bytes) :=
  if negb (sql_int epoch) then Err
  else Ok (match sums_row s with
           | Some (e, v) => if epoch <=? e then Some v else None
           | None => None
           end).

Section Bodies.
  Variable boot_view : fork -> bytes -> option lc_header.                 (* the beacon header *)
  Variable update_view : fork -> bytes -> bool.                           (* whether it decodes *)
  Variable fin_view : fork -> bytes -> option (lc_header * lc_header).    (* attested, finalised *)
  Variable opt_view : fork -> bytes -> option (lc_header * N).            (* attested, signature slot *)
  Variable sums_view : bytes -> option (N * list summary).                (* epoch, summaries *)
  Variable header_root : lc_header -> bytes.                              (* [tree_hash_root] *)

  Definition view {A} (checked : bool) (f : fork -> bytes -> option A) (b : bytes) : outcome (fork * A) :=
    obind (split_fork checked b) (fun x => omap (fun a => (fst x, a)) (of_option (f (fst x) (snd x)))).
  (** content_value/beacon.rs:67-94, 369-397, 289-317, 469-492 *)
  Definition decode_boot (b : bytes) := view false boot_view b.
  Definition decode_fin (b : bytes) := view false fin_view b.
  Definition decode_opt (b : bytes) := view false opt_view b.
  Definition decode_sums (b : bytes) := view true (fun _ => sums_view) b.
  (** content_value/beacon.rs:147-174: one update *)
  Definition decode_update (b : bytes) : outcome unit :=
    obind (split_fork false b) (fun x => if update_view (fst x) (snd x) then Ok tt else Err).
  Fixpoint decode_all (l : list bytes) : outcome unit :=
    match l with
    | [] => Ok tt
    | b :: r => obind (decode_update b) (fun _ => decode_all r)
    end.
  (** content_value/beacon.rs:253-262: at most 128 updates.  The items are decoded after all of the
      offsets here, and as the offsets are read in the code: a value with a wrong offset after an
      item that makes the decoder panic is an error here. *)
  Definition decode_updates (b : bytes) : outcome (list bytes) :=
    obind (decode_var_list (Some 128) b) (fun l => omap (fun _ => l) (decode_all l)).

  (** storage.rs:125-187 [get] *)
  Fixpoint collect (s : bstore) (ps : list N) : outcome (option (list bytes)) :=
    match ps with
    | [] => Ok (Some [])
    | p :: r =>
        if negb (sql_int p) then Err
        else match find_update s p with
             | None => Ok None
             | Some v =>
                 obind (decode_update v) (fun _ =>
                 obind (collect s r) (fun x => Ok (option_map (cons v) x)))
             end
    end.
  Definition get (s : bstore) (k : beacon_key) : outcome (option bytes) :=
    match k with
    | KBootstrap root => Ok (option_map fst (find_boot s root))
    | KUpdates start count =>
        obind (collect s (periods start count)) (fun x =>
          match x with
          | None => Ok None
          | Some l => if 128 <? blen l then Err else Ok (Some (encode_var_list l))
          end)
    | KFinality slot => Ok (cached_fin s slot)
    | KOptimistic sig => Ok (cached_opt s sig)
    | KSummaries epoch => find_sums s epoch
    end.

  (** storage.rs:199-274 [should_we_store]; also counts the queries made. *)
  Fixpoint scan (s : bstore) (ps : list N) (queries : N) : outcome verdict * N :=
    match ps with
    | [] => (Ok DoStore, queries)
    | p :: r =>
        if negb (sql_int p) then (Err, queries + 1)
        else match find_update s p with
             | Some _ => (Ok AlreadyStored, queries + 1)
             | None => scan s r (queries + 1)
             end
    end.
  Definition stored_if {A} (x : option A) : verdict := match x with Some _ => AlreadyStored | None => DoStore end.
  Definition should_we_store (s : bstore) (k : beacon_key) : outcome verdict * N :=
    match k with
    | KBootstrap root => (Ok (stored_if (find_boot s root)), 1)
    | KUpdates start count => scan s (periods start count) 0
    | KFinality slot => (Ok (stored_if (cached_fin s slot)), 0)
    | KOptimistic sig => (Ok (stored_if (cached_opt s sig)), 0)
    | KSummaries epoch => (omap stored_if (find_sums s epoch), 1)
    end.

  (** storage.rs:389-547 [store]: the state afterwards, also when an error is returned.  The block
      root of a bootstrap is that of its header, whatever the key says. *)
  Definition put (s : bstore) (k : beacon_key) (v : bytes) : bstore * outcome unit :=
    match k with
    | KBootstrap _ =>
        match decode_boot v with
        | Ok (_, h) => if sql_int (hd_slot h) then (insert_boot s (header_root h) v (hd_slot h), Ok tt) else (s, Err)
        | Err => (s, Err)
        | Panic => (s, Panic)
        end
    | KUpdates start count =>
        match decode_updates v with
        | Ok l => (fold_left (fun s pv => insert_update s (fst pv) (snd pv)) (combine (periods start count) l) s, Ok tt)
        | Err => (s, Err)
        | Panic => (s, Panic)
        end
    | KFinality _ =>
        match decode_fin v with
        | Ok (f, (a, h)) => (set_fin (set_head s (head_step (head s) (ProcessFinality a h))) v f (hd_slot h), Ok tt)
        | Err => (s, Err)
        | Panic => (s, Panic)
        end
    | KOptimistic _ =>
        match decode_opt v with
        | Ok (_, (a, sig)) => (set_opt (set_head s (head_step (head s) (ProcessOptimistic a))) v sig, Ok tt)
        | Err => (s, Err)
        | Panic => (s, Panic)
        end
    | KSummaries epoch =>
        match decode_sums v with
        | Ok (_, (_, l)) =>
            let s' := set_head s (head_step (head s) (UpdateSummaries l)) in
            if sql_int epoch then (set_sums s' epoch v, Ok tt) else (s', Err)
        | Err => (s, Err)
        | Panic => (s, Panic)
        end
    end.

  (** storage.rs:284-328 [new] on an existing database: the caches are empty, the chain head is the
      embedded one with the stored summaries. *)
  Definition restart (embedded : chain_head) (s : bstore) : outcome bstore :=
    let s' := {| bootstraps := bootstraps s; updates := updates s; sums_row := sums_row s;
                 opt_cache := None; fin_cache := None; head := embedded |} in
    match sums_row s with
    | None => Ok s'
    | Some (_, v) =>
        match decode_sums v with
        | Ok (_, (_, l)) => Ok (set_head s' (head_step embedded (UpdateSummaries l)))
        | Err => Err
        | Panic => Panic
        end
    end.

  (** sql.rs:31, storage.rs:725-744 *)
  Definition four_months : N := 864000.
  Definition prune (s : bstore) (now : N) : bstore :=
    {| bootstraps := filter (fun r => negb (snd (snd r) <? now - four_months)) (bootstraps s);
       updates := updates s; sums_row := sums_row s; opt_cache := opt_cache s; fin_cache := fin_cache s; head := head s |}.

  (** What the light client answers while content is validated ([None]: it is not available), and
      the current slot.  [light_client] is its store when it is available, as the check of a
      generic update against it (consensus_client.rs [verify_generic_update], by the bytes of the
      update); [summaries_proof] is the check of the Merkle proof in the summaries against the
      finalised state root. *)
  Record env := {
    now : N;
    finalized_header : option lc_header;
    light_client : option (bytes -> bool);
    summaries_proof : option (bytes -> bool);
  }.
  Definition checked (c : option (bytes -> bool)) (v : bytes) : bool := match c with Some f => f v | None => true end.
  Definition update_fork (v : bytes) : bool :=
    match split_fork false v with Ok (Electra, _) => true | _ => false end.

  (** validation.rs:58-319 [validate_content]: [Ok true] is canonically valid, [Ok false] invalid. *)
  Definition validate (e : env) (k : beacon_key) (v : bytes) : outcome bool :=
    match k with
    | KBootstrap _ =>
        match decode_boot v with
        | Ok (_, h) =>
            if hd_slot h <? now e - four_months then Ok false
            else match finalized_header e with
                 | Some fh => Ok ((hd_slot fh =? hd_slot h) && beqb (hd_rest fh) (hd_rest h))
                 | None => Ok true
                 end
        | Err => Ok false
        | Panic => Panic
        end
    | KUpdates _ count =>
        match decode_updates v with
        | Ok l =>
            if negb (blen l =? count) then Ok false
            else match light_client e with
                 | None => Ok true
                 | Some c => Ok (forallb (fun u => update_fork u && c u) l)
                 end
        | Err => Ok false
        | Panic => Panic
        end
    | KFinality slot =>
        match decode_fin v with
        | Ok (f, (_, h)) =>
            if negb (fork_eqb f Electra) then Ok false
            else if hd_slot h <? slot then Ok false
            else Ok (checked (light_client e) v)
        | Err => Ok false
        | Panic => Panic
        end
    | KOptimistic sig =>
        match decode_opt v with
        | Ok (f, (_, n)) =>
            if negb (fork_eqb f Electra) then Ok false
            else if negb (sig =? n) then Ok false
            else Ok (checked (light_client e) v)
        | Err => Ok false
        | Panic => Panic
        end
    | KSummaries epoch =>
        match decode_sums v with
        | Ok (_, (n, _)) => if negb (n =? epoch) then Ok false else Ok (checked (summaries_proof e) v)
        | Err => Ok false
        | Panic => Panic
        end
    end.

  (** The running node.  Content that arrives is validated, then the store is asked whether to keep
      it, then it is put; the last two take the lock of the store separately
      (portalnet/src/overlay/service/offer.rs:584-587, find_content.rs:553-569).  [waiting] holds what
      passed the first two and has not been put. *)
  Record node := { st : bstore; waiting : list (beacon_key * bytes) }.
  Inductive op :=
    | Arrive (e : env) (k : beacon_key) (v : bytes)
    | Finish (i : nat)
    | UserStore (k : beacon_key) (v : bytes)      (* jsonrpc.rs:249-265, no validation *)
    | Prune (now : N)
    | Restart.

  Definition drop_nth {A} (i : nat) (l : list A) : list A := firstn i l ++ skipn (S i) l.
  Definition step (embedded : chain_head) (n : node) (o : op) : node :=
    match o with
    | Arrive e k v =>
        match validate e k v with
        | Ok true =>
            match fst (should_we_store (st n) k) with
            | Ok DoStore => {| st := st n; waiting := waiting n ++ [(k, v)] |}
            | _ => n
            end
        | _ => n
        end
    | Finish i =>
        match nth_error (waiting n) i with
        | Some (k, v) => {| st := fst (put (st n) k v); waiting := drop_nth i (waiting n) |}
        | None => n
        end
    | UserStore k v => {| st := fst (put (st n) k v); waiting := waiting n |}
    | Prune t => {| st := prune (st n) t; waiting := waiting n |}
    | Restart =>
        match restart embedded (st n) with
        | Ok s => {| st := s; waiting := [] |}
        | _ => n
        end
    end.
  Definition run (embedded : chain_head) (n : node) (ops : list op) : node := fold_left (step embedded) ops n.

  (** network.rs:155-177 [get_trusted_block_root], sql.rs:26-27: with no configured root, a block root
      of the largest slot in the table (any of them when there are several), else the embedded one. *)
  Definition may_trust (configured : option bytes) (default : bytes) (s : bstore) (r : bytes) : Prop :=
    match configured with
    | Some c => r = c
    | None =>
        match bootstraps s with
        | [] => r = default
        | rows => exists row, In row rows /\ fst row = r /\ forall row', In row' rows -> snd (snd row') <= snd (snd row)
        end
    end.
End Bodies.

Definition empty_store (h : chain_head) : bstore :=
  {| bootstraps := []; updates := []; sums_row := None; opt_cache := None; fin_cache := None; head := h |}.
