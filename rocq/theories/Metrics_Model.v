(** What a node reports of itself: /repo/crates/metrics/src/{overlay,labels,chain_head,storage}.rs and the places that report:
    /repo/crates/portalnet/src/utp/controller.rs:150-290, overlay/service/manager.rs:273-294, 455-492, 558-563,
    /repo/crates/validation/src/chain_head/store.rs:34-48, /repo/crates/subnetworks/beacon/src/{network,storage}.rs.

    What the uTP socket says at each await is an argument, and so is the order in which the tasks go on.  Gauges are integers (the
    code's [i64]), counters are naturals (the code's [u64]).  Not modelled: the registry and the exporter of Prometheus, the buckets
    of histograms, the timers of storage and transfers, and the format of decimals. *)
From Coq Require Import ZArith QArith.
From Verif Require Import Base Distance_Model F64_Model Header_Model ChainHead_Model BeaconStore_Model BridgeTools_Model.

(** ** Transfers *)
(** labels.rs:94-115 *)
Inductive direction := Inbound | Outbound.
Inductive result := Success | FailedConnection | FailedDataTx | FailedShutdown.
Definition dir_eqb (a b : direction) : bool := match a, b with Inbound, Inbound | Outbound, Outbound => true | _, _ => false end.
Definition res_eqb (a b : result) : bool :=
  match a, b with
  | Success, Success | FailedConnection, FailedConnection | FailedDataTx, FailedDataTx | FailedShutdown, FailedShutdown => true
  | _, _ => false
  end.
(** overlay.rs:20-28: the gauge of active streams and the totals of outcomes *)
Record utp := { streams : direction -> Z; outcomes : direction -> result -> N }.
Definition no_utp : utp := {| streams := fun _ => 0%Z; outcomes := fun _ _ => 0 |}.
(** overlay.rs:158-164 [report_utp_active_inc], 166-172 [report_utp_active_dec] *)
Definition active_add (z : Z) (m : utp) (d : direction) : utp :=
  {| streams := fun x => if dir_eqb x d then (streams m x + z)%Z else streams m x; outcomes := outcomes m |}.
Definition active_inc := active_add 1.
Definition active_dec := active_add (-1).
(** overlay.rs:148-156 [report_utp_outcome] *)
Definition report_outcome (m : utp) (d : direction) (r : result) : utp :=
  active_dec {| streams := streams m; outcomes := fun x y => if dir_eqb x d && res_eqb y r then outcomes m x y + 1 else outcomes m x y |} d.

(** controller.rs:150-290: where a transfer waits.  What an outbound one sends is given. *)
Inductive phase := ConnectingIn | Reading | ConnectingOut (data : bytes) | Writing (data : bytes) | Closing.
(** What its caller gets: the data, the two errors of [inbound_stream], or the [bool] of [outbound_stream] *)
Inductive answer := Received (b : bytes) | NoStream | NoData | Sent | NotSent.
(** [Begin id None]: an inbound transfer.  The others: what the socket says to the transfer *)
Inductive event :=
| Begin (id : N) (data : option bytes)
| Connected (id : N) (ok : bool)
| Read (id : N) (r : option bytes)
| Wrote (id : N) (written : option N)
| Closed (id : N) (ok : bool).
Record transfers := { counts : utp; tasks : list (N * phase) }.
Definition task (s : transfers) (id : N) : option phase := option_map snd (find (fun x => fst x =? id) (tasks s)).
Definition without (id : N) (l : list (N * phase)) : list (N * phase) := filter (fun x => negb (fst x =? id)) l.
Definition go_on (s : transfers) (id : N) (p : phase) : transfers * option answer :=
  ({| counts := counts s; tasks := without id (tasks s) ++ [(id, p)] |}, None).
Definition over (s : transfers) (id : N) (d : direction) (r : result) (a : answer) : transfers * option answer :=
  ({| counts := report_outcome (counts s) d r; tasks := without id (tasks s) |}, Some a).
(** 150-200 [inbound_stream], 202-291 [outbound_stream] *)
Definition transfer_step (s : transfers) (e : event) : transfers * option answer :=
  match e with
  | Begin id data =>
      match task s id with
      | Some _ => (s, None)
      | None =>
          let d := match data with None => Inbound | Some _ => Outbound end in
          let p := match data with None => ConnectingIn | Some b => ConnectingOut b end in
          ({| counts := active_inc (counts s) d; tasks := tasks s ++ [(id, p)] |}, None)
      end
  | Connected id ok =>
      match task s id with
      | Some ConnectingIn => if ok then go_on s id Reading else over s id Inbound FailedConnection NoStream
      | Some (ConnectingOut b) => if ok then go_on s id (Writing b) else over s id Outbound FailedConnection NotSent
      | _ => (s, None)
      end
  | Read id r =>
      match task s id, r with
      | Some Reading, Some b => over s id Inbound Success (Received b)
      | Some Reading, None => over s id Inbound FailedDataTx NoData
      | _, _ => (s, None)
      end
  | Wrote id r =>
      match task s id, r with
      | Some (Writing b), Some n => if negb (n =? blen b) then over s id Outbound FailedDataTx NotSent else go_on s id Closing
      | Some (Writing _), None => over s id Outbound FailedDataTx NotSent
      | _, _ => (s, None)
      end
  | Closed id ok =>
      match task s id with
      | Some Closing => if ok then over s id Outbound Success Sent else over s id Outbound FailedShutdown NotSent
      | _ => (s, None)
      end
  end.
Definition no_transfers : transfers := {| counts := no_utp; tasks := [] |}.
(** All of the events, with what they made the node answer *)
Fixpoint transfer_run (s : transfers) (l : list event) : transfers * list (event * option answer) :=
  match l with
  | [] => (s, [])
  | e :: l => let (s, a) := transfer_step s e in let (s, log) := transfer_run s l in (s, (e, a) :: log)
  end.

(** overlay.rs:200-257 [get_utp_summary]: its numbers in order; [get() as u64] *)
Definition gauge_u64 (z : Z) : N := Z.to_N (z mod 2 ^ 64).
Definition utp_summary (m : utp) : list N :=
  let o := outcomes m in
  let active_in := gauge_u64 (streams m Inbound) in
  let active_out := gauge_u64 (streams m Outbound) in
  let fc_in := o Inbound FailedConnection in let fd_in := o Inbound FailedDataTx in let fs_in := o Inbound FailedShutdown in
  let fc_out := o Outbound FailedConnection in let fd_out := o Outbound FailedDataTx in let fs_out := o Outbound FailedShutdown in
  [active_in + active_out; active_in; active_out;
   o Inbound Success + o Outbound Success; o Inbound Success; o Outbound Success;
   fc_in + fc_out + fd_in + fd_out + fs_in + fs_out; fc_in + fd_in + fs_in; fc_out + fd_out + fs_out;
   fc_in + fc_out; fc_in; fc_out; fd_in + fd_out; fd_in; fd_out; fs_in + fs_out; fs_in; fs_out].

(** ** Messages *)
(** Requests and responses, as far as they are counted: labels.rs:50-76 *)
Inductive request := Ping | FindNodes | FindContent | Offer | PopulatedOffer | PopulatedOfferWithResult.
Inductive response := Pong | Nodes | Content | Accept.
Inductive label := LPing | LFindNodes | LFindContent | LOffer | LPong | LNodes | LContent | LAccept.
Definition request_label (r : request) : label :=
  match r with Ping => LPing | FindNodes => LFindNodes | FindContent => LFindContent | Offer | PopulatedOffer | PopulatedOfferWithResult => LOffer end.
Definition response_label (r : response) : label := match r with Pong => LPong | Nodes => LNodes | Content => LContent | Accept => LAccept end.
Definition label_eqb (a b : label) : bool :=
  match a, b with
  | LPing, LPing | LFindNodes, LFindNodes | LFindContent, LFindContent | LOffer, LOffer | LPong, LPong | LNodes, LNodes
  | LContent, LContent | LAccept, LAccept => true
  | _, _ => false
  end.
Record messages := { sent : label -> N; received : label -> N; validations : bool -> N }.
Definition no_messages : messages := {| sent := fun _ => 0; received := fun _ => 0; validations := fun _ => 0 |}.
(** overlay.rs:96-121, 190-198 *)
Definition count_sent (l : label) (m : messages) : messages :=
  {| sent := fun x => if label_eqb x l then sent m x + 1 else sent m x; received := received m; validations := validations m |}.
Definition count_received (l : label) (m : messages) : messages :=
  {| sent := sent m; received := fun x => if label_eqb x l then received m x + 1 else received m x; validations := validations m |}.
Definition count_validation (b : bool) (m : messages) : messages :=
  {| sent := sent m; received := received m; validations := fun x => if Bool.eqb x b then validations m x + 1 else validations m x |}.
(** What happens: a request comes and is answered, or handling it fails; a request is sent; a response comes to a request that is
    known or not, or the request failed; content is validated *)
Inductive traffic :=
| Asked (r : request) (answer : option response)
| Asks (r : request)
| Answered (known : bool) (answer : option response)
| Validated (ok : bool).
(** manager.rs:465-476, 558-559; 477-491; 273-294 *)
Definition traffic_step (m : messages) (e : traffic) : messages :=
  match e with
  | Asked r a => count_received (request_label r) (match a with Some a => count_sent (response_label a) m | None => m end)
  | Asks r => count_sent (request_label r) m
  | Answered true (Some a) => count_received (response_label a) m
  | Answered _ _ => m
  | Validated ok => count_validation ok m
  end.
(** overlay.rs:259-274 [get_message_summary]: its numbers in order *)
Definition message_summary (m : messages) : list N :=
  [received m LAccept; sent m LOffer; sent m LAccept; received m LOffer; validations m true; validations m true + validations m false].

(** ** The head of the chain *)
(** chain_head.rs:9-17; the delays that were observed.  They are differences of slots as [f64], exact below 2^53. *)
Record head_metrics := { opt_slot : Z; fin_slot : Z; opt_lag : Z; fin_lag : Z; opt_delays : list Z; fin_delays : list Z }.
Definition no_head_metrics : head_metrics := {| opt_slot := 0; fin_slot := 0; opt_lag := 0; fin_lag := 0; opt_delays := []; fin_delays := [] |}.
(** [as i64] *)
Definition as_i64 (n : N) : Z := if n <? 2 ^ 63 then Z.of_N n else (Z.of_N n - 2 ^ 64)%Z.
(** chain_head.rs:78-90 [on_slot] *)
Definition on_slot (m : head_metrics) (current : N) : head_metrics := {|
  opt_slot := opt_slot m; fin_slot := fin_slot m;
  opt_lag := if (0 <? opt_slot m)%Z then (as_i64 current - opt_slot m)%Z else opt_lag m;
  fin_lag := if (0 <? fin_slot m)%Z then (as_i64 current - fin_slot m)%Z else fin_lag m;
  opt_delays := opt_delays m; fin_delays := fin_delays m |}.
(** chain_head.rs:92-99 *)
Definition report_optimistic (m : head_metrics) (slot : N) : head_metrics := {|
  opt_slot := as_i64 slot; fin_slot := fin_slot m; opt_lag := opt_lag m; fin_lag := fin_lag m;
  opt_delays := if (0 <? opt_slot m)%Z then opt_delays m ++ [(Z.of_N slot - opt_slot m)%Z] else opt_delays m; fin_delays := fin_delays m |}.
(** chain_head.rs:101-108 *)
Definition report_finalized (m : head_metrics) (slot : N) : head_metrics := {|
  opt_slot := opt_slot m; fin_slot := as_i64 slot; opt_lag := opt_lag m; fin_lag := fin_lag m; opt_delays := opt_delays m;
  fin_delays := if (0 <? fin_slot m)%Z then fin_delays m ++ [(Z.of_N slot - fin_slot m)%Z] else fin_delays m |}.
Record reported := { chain : chain_head; shown : head_metrics }.
(** store.rs:34-40, 42-48, with the reports *)
Definition see_latest (s : reported) (h : lc_header) : reported :=
  if hd_slot (latest (chain s)) <? hd_slot h
  then {| chain := update_latest_if_newer (chain s) h; shown := report_optimistic (shown s) (hd_slot h) |} else s.
Definition see_finalized (s : reported) (h : lc_header) : reported :=
  if hd_slot (finalized (chain s)) <? hd_slot h
  then {| chain := update_finalized_if_newer (chain s) h; shown := report_finalized (shown s) (hd_slot h) |} else s.
(** network.rs:110-145, the loop: an update, or the tick of a slot *)
Inductive occurrence := Update (o : head_op) | Tick (current : N).
Definition see (s : reported) (o : occurrence) : reported :=
  match o with
  | Update (ProcessUpdate a f) | Update (ProcessFinality a f) => see_finalized (see_latest s a) f
  | Update (ProcessOptimistic a) => see_latest s a
  | Update (UpdateSummaries l) => {| chain := update_summaries_if_newer (chain s) l; shown := shown s |}
  | Tick current => {| chain := chain s; shown := on_slot (shown s) current |}
  end.
(** store.rs:21-32: nothing is reported of the first header. *)
Definition report_from (h : lc_header) (l : list summary) : reported := {| chain := new_head h l; shown := no_head_metrics |}.

(** network.rs:182-190 [get_slot_interval].  Times are nanoseconds since the genesis of the beacon chain.  [now]: the first reading of
    the clock, [now']: the one in [current_slot] *)
Definition until_next_slot (now now' : N) : outcome N :=
  let next := slot_time (current_slot now' + 1) in
  if now <=? next then Ok (next - now) else Panic.

(** ** Storage *)
(** storage.rs:125-139 [report_radius] *)
Definition radius_ratio (radius : N) : f64 := fdiv (f64_of (big_endian_u32 radius)) (f64_of (2 ^ 32 - 1)).
(** storage.rs:195-203 [precision_for_percentage] *)
Definition precision (percent : f64) : nat :=
  if Qle_bool 10 percent then 0%nat else if Qle_bool 1 percent then 1%nat else if Qle_bool (flit (1 # 10)) percent then 2%nat
  else if Qle_bool (flit (1 # 100)) percent then 3%nat else 4%nat.

(** storage.rs (beacon):465-471, 484-492, 531-538: by how much the gauge of entries of the beacon store grows *)
Section Beacon.
Variable boot_view : fork -> bytes -> option lc_header.
Variable update_view : fork -> bytes -> bool.
Variable fin_view : fork -> bytes -> option (lc_header * lc_header).
Variable opt_view : fork -> bytes -> option (lc_header * N).
Variable sums_view : bytes -> option (N * list summary).
Variable header_root : lc_header -> bytes.
Definition counted (k : beacon_key) (v : bytes) : N :=
  match k with
  | KBootstrap _ => match decode_boot boot_view v with Ok (_, h) => if sql_int (hd_slot h) then 1 else 0 | _ => 0 end
  | KUpdates start count =>
      match decode_updates update_view v with
      | Ok l => blen (filter (fun x => sql_int (fst x)) (combine (periods start count) l))
      | _ => 0
      end
  | KSummaries epoch => match decode_sums sums_view v with Ok _ => if sql_int epoch then 1 else 0 | _ => 0 end
  | KFinality _ | KOptimistic _ => 0
  end.
(** The store with the gauge, in one run of the node; storage.rs:725-744: pruning does not report. *)
Inductive beacon_event := Stored (k : beacon_key) (v : bytes) | Pruned (now : N).
Definition beacon_step (s : bstore * N) (e : beacon_event) : bstore * N :=
  match e with
  | Stored k v => (fst (put boot_view update_view fin_view opt_view sums_view header_root (fst s) k v), snd s + counted k v)
  | Pruned now => (prune (fst s) now, snd s)
  end.
(** storage.rs:284-328: the gauge of a new process *)
Definition beacon_started (s : bstore) : bstore * N := (s, 0).
End Beacon.
