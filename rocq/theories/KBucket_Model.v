(** The routing table of an overlay network, /repo/crates/portalnet/src/types/kbucket.rs, and
    what the service does with it, /repo/crates/portalnet/src/overlay/service/manager.rs and
    service/ping/.

    Node ids are numbers below 2^256, a distance is the exclusive or of two ids.  The table of
    the [discv5] crate is not part of the repository.  It is modelled as the list of its
    entries, in the order in which it iterates over them; whether it takes an entry (a bucket may
    be full or have too many incoming peers) is a parameter of each call, its [fate].  No table
    or bucket filter is configured (portalnet/src/overlay/config.rs:38-39). *)
From Verif Require Import Base.
From Verif Require Import Distance_Model Sort_Model.

(** A signed record: who, the sequence number, and all the rest. *)
Record enr := { enr_id : N; enr_seq : N; enr_rest : bytes }.
(** types/node.rs:9-23 *)
Record node := { n_enr : enr; n_radius : N; n_capabilities : option (list N); n_headers : option N }.
Definition max_radius : N := 2 ^ 256 - 1.
(** types/node.rs:26-34 [new], with the radius every caller uses *)
Definition new_node (e : enr) : node := {| n_enr := e; n_radius := max_radius; n_capabilities := None; n_headers := None |}.
(** types/node.rs:65-67 [set_enr] *)
Definition set_enr (n : node) (e : enr) : node :=
  {| n_enr := e; n_radius := n_radius n; n_capabilities := n_capabilities n; n_headers := n_headers n |}.

(** An entry with its status.  A pending entry waits for a place in its bucket. *)
Record slot := { s_node : node; s_connected : bool; s_incoming : bool; s_pending : bool }.
Definition s_id (s : slot) : N := enr_id (n_enr (s_node s)).
Definition table := list slot.

Definition lookup (id : N) (t : table) : option slot := find (fun s => s_id s =? id) t.
Definition remove (id : N) (t : table) : table := filter (fun s => negb (s_id s =? id)) t.
Definition replace (id : N) (s' : slot) (t : table) : table := map (fun s => if s_id s =? id then s' else s) t.

(** kbucket.rs:34-47 [present], [present_or_pending] *)
Definition present (id : N) (t : table) : option node :=
  match lookup id t with Some s => if s_pending s then None else Some (s_node s) | None => None end.
Definition present_or_pending (id : N) (t : table) : option node :=
  match lookup id t with Some s => Some (s_node s) | None => None end.

(** ** Calls of the [discv5] table *)
(** [AsPending d]: the entry waits for the place of [d], a disconnected entry of its bucket. *)
Inductive fate := Accepted | AsPending (d : N) | Refused.
Inductive insert_result := IInserted | IPending (disconnected : N) | IUpdated (promoted : bool) | IUpdatedPending | IFailed.

Section Table.
(** The local node. *)
Variable local : N.

(** [KBucketsTable::insert_or_update]: an existing entry gets the new value and status, or is
    removed if that is not possible. *)
Definition insert_or_update (t : table) (n : node) (connected incoming : bool) (f : fate) : table * insert_result :=
  let id := enr_id (n_enr n) in
  if id =? local then (t, IFailed)
  else
    match lookup id t with
    | Some s =>
        match f with
        | Refused => (remove id t, IFailed)
        | _ => (replace id {| s_node := n; s_connected := connected; s_incoming := incoming; s_pending := s_pending s |} t,
                if s_pending s then IUpdatedPending else IUpdated (negb (s_connected s) && connected))
        end
    | None =>
        match f with
        | Accepted => (t ++ [{| s_node := n; s_connected := connected; s_incoming := incoming; s_pending := false |}], IInserted)
        | AsPending d =>
            (t ++ [{| s_node := n; s_connected := connected; s_incoming := incoming; s_pending := true |}], IPending d)
        | Refused => (t, IFailed)
        end
    end.
(** [KBucketsTable::update_node] without a state; the flag says whether it worked. *)
Definition update_node (t : table) (n : node) (f : fate) : table * bool :=
  let id := enr_id (n_enr n) in
  if id =? local then (t, true)
  else
    match lookup id t with
    | Some s =>
        match f with
        | Refused => (remove id t, false)
        | _ => (replace id {| s_node := n; s_connected := s_connected s; s_incoming := s_incoming s; s_pending := s_pending s |} t, true)
        end
    | None => (t, false)
    end.
(** [KBucketsTable::update_node_status] without a direction *)
Definition update_status (t : table) (id : N) (connected : bool) (f : fate) : table * bool :=
  if id =? local then (t, true)
  else
    match lookup id t with
    | Some s =>
        match f with
        | Refused => (remove id t, false)
        | _ => (replace id {| s_node := s_node s; s_connected := connected; s_incoming := s_incoming s; s_pending := s_pending s |} t, true)
        end
    | None => (t, false)
    end.

(** ** kbucket.rs *)
(** kbucket.rs:131-184 [insert_or_update_discovered_nodes], with the fate of each record.
    Results: the table, the inserted and the removed nodes. *)
Fixpoint discovered (t : table) (l : list (enr * fate)) : table * list N * list N :=
  match l with
  | [] => (t, [], [])
  | (e, f) :: r =>
      match present_or_pending (enr_id e) t with
      | Some n =>
          if enr_seq (n_enr n) <? enr_seq e then
            let (t', ok) := update_node t (set_enr n e) f in
            match discovered t' r with (t2, ins, rem) => (t2, ins, if ok then rem else enr_id e :: rem) end
          else discovered t r
      | None =>
          let (t', res) := insert_or_update t (new_node e) false false f in
          match discovered t' r with (t2, ins, rem) => (t2, match res with IInserted => enr_id e :: ins | _ => ins end, rem) end
      end
  end.

(** [KBucketsTable::nodes_by_distances] for one distance: entries at this log distance, cut as
    soon as the limit is reached.  Pending entries are not in a bucket. *)
Definition at_distance (d : N) (s : slot) : bool :=
  match log2 (N.lxor local (s_id s)) with Some k => k =? d | None => false end && negb (s_pending s).
Definition bucket (d : N) (t : table) : list slot := filter (at_distance d) t.
Definition bucket_cut (d limit : N) (t : table) : list slot := firstn (N.to_nat (N.max limit 1)) (bucket d t).

(** kbucket.rs:205-242: pushing onto the result until the limit; the flag says that the limit was
    reached. *)
Fixpoint push_connected (limit : N) (acc : list enr) (l : list slot) : list enr * bool :=
  match l with
  | [] => (acc, false)
  | s :: r =>
      if s_connected s then
        let acc := acc ++ [n_enr (s_node s)] in
        if limit <=? blen acc then (acc, true) else push_connected limit acc r
      else push_connected limit acc r
  end.
Fixpoint collect (local_enr : enr) (limit : N) (t : table) (acc : list enr) (ds : list N) : list enr :=
  match ds with
  | [] => acc
  | d :: r =>
      if d =? 0 then
        let acc := acc ++ [local_enr] in
        if limit <=? blen acc then acc else collect local_enr limit t acc r
      else
        let (acc, done) := push_connected limit acc (bucket_cut d limit t) in
        if done then acc else collect local_enr limit t acc r
  end.
(** [Itertools::dedup] *)
Fixpoint dedup (l : list N) : list N :=
  match l with
  | [] => []
  | x :: r => match dedup r with y :: r' => if x =? y then y :: r' else x :: y :: r' | [] => [x] end
  end.
(** kbucket.rs:198-243 [nodes_by_distances] *)
Definition nodes_by_distances (local_enr : enr) (distances : list N) (limit : N) (t : table) : list enr :=
  collect local_enr limit t [] (dedup (sort_by N.leb distances)).

(** Entries that are connected: what kbucket.rs:250, 266, 287, 318 keep. *)
Definition connected (t : table) : list slot := filter (fun s => s_connected s && negb (s_pending s)) t.
(** kbucket.rs:246-256 [random_peers]; [pick] is the random choice. *)
Definition random_peers (pick : nat -> list slot -> list slot) (limit : N) (t : table) : list enr :=
  map (fun s => n_enr (s_node s)) (pick (N.to_nat limit) (connected t)).
(** kbucket.rs:259-274 [closest_to_node_id] and 277-295 [closest_to_content_id]: sorting is
    stable. *)
Definition nearer (target : N) (a b : slot) : bool := N.lxor target (s_id a) <=? N.lxor target (s_id b).
Definition closest (target limit : N) (t : table) : list enr :=
  map (fun s => n_enr (s_node s)) (firstn (N.to_nat limit) (sort_by (nearer target) (connected t))).

(** kbucket.rs:306-328 [batch_interested_enrs]: for one of the ids.  An id that occurs [k] times
    in the request gets each peer [k] times. *)
Definition interested (id : N) (t : table) : list slot :=
  filter (fun s => N.lxor id (s_id s) <=? n_radius (s_node s)) (connected t).
Definition batch_interested (ids : list N) (id : N) (t : table) : list enr :=
  flat_map (fun s => repeat (n_enr (s_node s)) (length (filter (N.eqb id) ids))) (interested id t).

(** ** The service *)
(** [queue] is [peers_to_ping], the nodes that are pinged when their time comes. *)
Record service := { tbl : table; queue : list N }.
Inductive output := OPing (id : N) | ORequestRecord (id : N).
Definition enqueue (id : N) (q : list N) : list N := if existsb (N.eqb id) q then q else q ++ [id].
Definition dequeue (id : N) (q : list N) : list N := filter (fun x => negb (x =? id)) q.

(** manager.rs:725-779 [connect_node] *)
Definition connect_node (st : service) (n : node) (incoming : bool) (f : fate) : service * list output :=
  let id := enr_id (n_enr n) in
  let (t, r) := insert_or_update (tbl st) n true incoming f in
  match r with
  | IInserted => ({| tbl := t; queue := enqueue id (queue st) |}, [])
  | IPending d =>
      ({| tbl := t; queue := queue st |},
       (* [d] is a disconnected entry *)
       match lookup d t with Some s => if s_pending s || s_connected s then [] else [OPing d] | None => [] end)
  | IUpdated promoted => ({| tbl := t; queue := if promoted then enqueue id (queue st) else queue st |}, [])
  | IUpdatedPending => ({| tbl := t; queue := queue st |}, [])
  | IFailed => ({| tbl := t; queue := dequeue id (queue st) |}, [])
  end.

(** service/ping/handlers.rs: decoded extensions that carry a radius *)
Inductive extension := XCapabilities (radius : N) (capabilities : list N) | XBasicRadius (radius : N) | XHistoryRadius (radius count : N).
Definition handle_extension (x : extension) (n : node) : option node :=
  match x with
  | XCapabilities r c =>
      if negb (n_radius n =? r) || match n_capabilities n with Some c' => negb (beqb c c') | None => true end
      then Some {| n_enr := n_enr n; n_radius := r; n_capabilities := Some c; n_headers := n_headers n |} else None
  | XBasicRadius r =>
      if negb (n_radius n =? r)
      then Some {| n_enr := n_enr n; n_radius := r; n_capabilities := n_capabilities n; n_headers := n_headers n |} else None
  | XHistoryRadius r c =>
      if negb (n_radius n =? r) || match n_headers n with Some c' => negb (c' =? c) | None => true end
      then Some {| n_enr := n_enr n; n_radius := r; n_capabilities := n_capabilities n; n_headers := Some c |} else None
  end.
(** service/ping/mod.rs:123-184 [process_ping] and 188-256 [process_pong]: [seq] and the extension
    of the message, [None] if it cannot be decoded, is an error or is not supported. *)
Definition process_ping (st : service) (source seq : N) (x : option extension) (f : fate) : service * list output :=
  match present_or_pending source (tbl st) with
  | None => (st, [])
  | Some n =>
      let out := if enr_seq (n_enr n) <? seq then [ORequestRecord source] else [] in
      match x with
      | None => (st, out)
      | Some x =>
          match handle_extension x n with
          | None => (st, out)
          | Some n' => ({| tbl := fst (update_node (tbl st) n' f); queue := queue st |}, out)
          end
      end
  end.

(** manager.rs:566-596 [register_node_activity]; [cached] is the record kept for that node by
    [Discovery], which files records by their id (discovery.rs:336-340): any other is as none. *)
Definition register_activity (st : service) (source : N) (cached : option enr) (f : fate) : service * list output :=
  match present_or_pending source (tbl st) with
  | Some _ =>
      let (t, ok) := update_status (tbl st) source true f in
      ({| tbl := t; queue := if ok then queue st else dequeue source (queue st) |}, [])
  | None =>
      match cached with
      | Some e => if enr_id e =? source then connect_node st (new_node e) true f else (st, [])
      | None => (st, [])
      end
  end.
(** manager.rs:599-620 [process_request_failure] *)
Definition request_failure (st : service) (id : N) (f : fate) : service :=
  {| tbl := fst (update_status (tbl st) id false f); queue := dequeue id (queue st) |}.
(** manager.rs:623-664: the part of [process_response] common to all responses *)
Definition process_response (st : service) (source : enr) (f : fate) : service * list output :=
  match (match lookup (enr_id source) (tbl st) with
         | Some s => (s_node s, s_connected s, s_incoming s)
         | None => (new_node source, false, false)
         end) with
  | (n, false, incoming) => connect_node st n incoming f
  | (_, true, _) =>
      let (t, ok) := update_status (tbl st) (enr_id source) true f in
      ({| tbl := t; queue := if ok then queue st else dequeue (enr_id source) (queue st) |}, [])
  end.
(** manager.rs:689-708 [process_discovered_enrs] *)
Definition process_discovered (st : service) (l : list (enr * fate)) : service :=
  match discovered (tbl st) (filter (fun x => negb (enr_id (fst x) =? local)) l) with
  | (t, ins, rem) => {| tbl := t; queue := fold_left (fun q id => dequeue id q) rem (fold_left (fun q id => enqueue id q) ins (queue st)) |}
  end.
(** manager.rs:176-218: one record in [add_bootnodes] *)
Definition add_bootnode (st : service) (e : enr) (set_connected : bool) (f : fate) : service :=
  let (t, r) := insert_or_update (tbl st) (new_node e) set_connected false f in
  {| tbl := t; queue := match r with IFailed => queue st | _ => enqueue (enr_id e) (queue st) end |}.
(** manager.rs:295-300: the time to ping a node of the queue has come. *)
Definition ping_due (st : service) (id : N) : service * list output :=
  if existsb (N.eqb id) (queue st) then
    match present id (tbl st) with
    | Some _ => ({| tbl := tbl st; queue := enqueue id (dequeue id (queue st)) |}, [OPing id])
    | None => ({| tbl := tbl st; queue := dequeue id (queue st) |}, [])
    end
  else (st, []).
(** overlay/protocol.rs:274-303 [add_enr], 319-321 [delete_enr]: for users of the node *)
Definition add_enr (st : service) (e : enr) (f : fate) : service :=
  {| tbl := fst (insert_or_update (tbl st) (new_node e) true true f); queue := queue st |}.
Definition delete_enr (st : service) (id : N) : service := {| tbl := remove id (tbl st); queue := queue st |}.

Inductive op :=
  | Discovered (l : list (enr * fate))
  | PingOrPong (source seq : N) (x : option extension) (f : fate)
  | Incoming (source : N) (cached : option enr) (f : fate)
  | Response (source : enr) (f : fate)
  | Failure (id : N) (f : fate)
  | Bootnode (e : enr) (set_connected : bool) (f : fate)
  | PingDue (id : N)
  | AddEnr (e : enr) (f : fate)
  | DeleteEnr (id : N)
  | Bucket (t : table). (* the table changes by itself, see [drift] *)

(** What the [discv5] table does by itself: it may reorder entries, evict entries, drop
    pending entries, and turn pending entries into entries. *)
Definition admit (s : slot) : slot :=
  {| s_node := s_node s; s_connected := s_connected s; s_incoming := s_incoming s; s_pending := false |}.
Definition drift (t t' : table) : Prop :=
  NoDup (map s_id t') /\ forall s', In s' t' -> In s' t \/ exists s, In s t /\ s_pending s = true /\ s' = admit s.

Definition step (st : service) (o : op) : service * list output :=
  match o with
  | Discovered l => (process_discovered st l, [])
  | PingOrPong source seq x f => process_ping st source seq x f
  | Incoming source cached f => register_activity st source cached f
  | Response source f => process_response st source f
  | Failure id f => (request_failure st id f, [])
  | Bootnode e c f => (add_bootnode st e c f, [])
  | PingDue id => ping_due st id
  | AddEnr e f => (add_enr st e f, [])
  | DeleteEnr id => (delete_enr st id, [])
  | Bucket t => ({| tbl := t; queue := queue st |}, [])
  end.
End Table.
