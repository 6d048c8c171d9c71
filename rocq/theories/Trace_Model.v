(** Model of /repo/crates/ethportal-api/src/types/query_trace.rs and of its use in
    /repo/crates/portalnet/src/overlay/service/find_content.rs and manager.rs: the trace of a lookup of content.

    A node record has a node id, a sequence number and the rest.  A HashMap is a function.  [now] is the clock of the system in
    milliseconds since 1970; it may be set back.  JSON is left out. *)
From Verif Require Import Base Distance_Model.

Record enr := { id : bytes; seq : N; rest : bytes }.
Definition enr_eqb (a b : enr) : bool := beqb (id a) (id b) && (seq a =? seq b) && beqb (rest a) (rest b).
(** query_trace.rs:189-195 [QueryResponse], 217-225 [QueryFailureKind], 200-205 [QueryFailure], 230-234 [NodeInfo]; [radius] is never set *)
Record response := { duration_ms : N; responded_with : list bytes }.
Inductive failure_kind := UtpConnectionFailed | UtpTransferFailed | InvalidContent.
Record failure := { f_duration_ms : N; f_kind : failure_kind }.
Record node_info := { n_enr : enr; n_distance : bytes }.
Definition map_of (A : Type) := bytes -> option A.
Definition none {A} : map_of A := fun _ => None.
Definition insert {A} (k : bytes) (v : A) (m : map_of A) : map_of A := fun x => if beqb x k then Some v else m x.
(** query_trace.rs:17-37 [QueryTrace] *)
Record trace := {
  received_from : option bytes; origin : bytes; responses : map_of response; failures : map_of failure; metadata : map_of node_info;
  started_at_ms : N; target_id : bytes; cancelled : list bytes }.

(** query_trace.rs:40-59 [new] *)
Definition new_trace (local : enr) (target : bytes) (now : N) : trace := {|
  received_from := None; origin := id local; responses := none; failures := none; metadata := none;
  started_at_ms := N.min now (2 ^ 64 - 1); target_id := target; cancelled := [] |}.
(** query_trace.rs:130-144 [timestamp_millis_u64] *)
Definition timestamp_millis_u64 (since now : N) : N := N.min (now - since) (2 ^ 64 - 1).
(** query_trace.rs:170-184 [get_metadata]; the distance is 32 bytes, big endian *)
Definition get_metadata (e : enr) (target : bytes) : node_info := {| n_enr := e; n_distance := big_endian (distance (id e) target) |}.
(** query_trace.rs:146-168 [add_metadata] *)
Definition add_metadata (t : trace) (e : enr) (node_responded : bool) : trace :=
  let v := match metadata t (id e) with
           | Some i =>
               if negb (enr_eqb e (n_enr i)) && (((seq e =? seq (n_enr i)) && node_responded) || (seq (n_enr i) <? seq e))
               then get_metadata e (target_id t) else i
           | None => get_metadata e (target_id t)
           end in
  {| received_from := received_from t; origin := origin t; responses := responses t; failures := failures t; metadata := insert (id e) v (metadata t);
     started_at_ms := started_at_ms t; target_id := target_id t; cancelled := cancelled t |}.
Definition set_responses (t : trace) (r : map_of response) : trace := {|
  received_from := received_from t; origin := origin t; responses := r; failures := failures t; metadata := metadata t;
  started_at_ms := started_at_ms t; target_id := target_id t; cancelled := cancelled t |}.
(** query_trace.rs:64-86 [node_responded_with] *)
Definition node_responded_with (t : trace) (e : enr) (l : list enr) (now : N) : trace :=
  let t := fold_left (fun t x => add_metadata t x false) l t in
  let entry := match responses t (id e) with Some r => r | None => {| duration_ms := timestamp_millis_u64 (started_at_ms t) now; responded_with := [] |} end in
  let t := set_responses t (insert (id e) {| duration_ms := duration_ms entry; responded_with := responded_with entry ++ map id l |} (responses t)) in
  add_metadata t e true.
(** query_trace.rs:93-105 [node_responded_with_content] *)
Definition node_responded_with_content (t : trace) (e : enr) (now : N) : trace :=
  let t := set_responses t (insert (id e) {| duration_ms := timestamp_millis_u64 (started_at_ms t) now; responded_with := [] |} (responses t)) in
  add_metadata t e true.
(** query_trace.rs:108-119 [node_failed] *)
Definition node_failed (t : trace) (n : bytes) (k : failure_kind) (now : N) : trace := {|
  received_from := received_from t; origin := origin t; responses := responses t;
  failures := insert n {| f_duration_ms := timestamp_millis_u64 (started_at_ms t) now; f_kind := k |} (failures t); metadata := metadata t;
  started_at_ms := started_at_ms t; target_id := target_id t; cancelled := cancelled t |}.
(** query_trace.rs:122-126 [content_validated] *)
Definition content_validated (t : trace) (n : bytes) : trace := {|
  received_from := match received_from t with None => Some n | x => x end; origin := origin t; responses := responses t; failures := failures t; metadata := metadata t;
  started_at_ms := started_at_ms t; target_id := target_id t; cancelled := cancelled t |}.
Definition set_cancelled (t : trace) (l : list bytes) : trace := {|
  received_from := received_from t; origin := origin t; responses := responses t; failures := failures t; metadata := metadata t;
  started_at_ms := started_at_ms t; target_id := target_id t; cancelled := l |}.

(** The calls of a trace *)
Inductive call := Nodes (e : enr) (l : list enr) (now : N) | Content (e : enr) (now : N) | Failed (n : bytes) (k : failure_kind) (now : N) | Validated (n : bytes).
Definition do_call (t : trace) (c : call) : trace :=
  match c with
  | Nodes e l now => node_responded_with t e l now
  | Content e now => node_responded_with_content t e now
  | Failed n k now => node_failed t n k now
  | Validated n => content_validated t n
  end.

(** ** A lookup with a trace *)
(** [untrusted]: the records that the query knows *)
Record lookup := { untrusted : list enr; tr : trace }.
(** find_content.rs:755-776 [init_find_content_query] *)
Definition new_lookup (local : enr) (target : bytes) (peers : list enr) (now now' : N) : lookup :=
  {| untrusted := peers; tr := node_responded_with (new_trace local target now) local peers now' |}.
(** find_content.rs:703-716: content that the node has itself *)
Definition local_trace (local : enr) (target : bytes) (now now' : N) : trace :=
  content_validated (node_responded_with_content (new_trace local target now) local now') (id local).
(** What happens: a node answers with records, or with content or a uTP connection; a node fails; the query ends with content.
    [pending], [stopped]: the nodes that Query_Model [pending_peers] and [fc_into_result] say *)
Inductive happening :=
| Answered (source : enr) (enrs : list enr) (pending : list bytes) (now : N)
| Sent (source : enr) (now : N)
| Broke (n : bytes) (k : failure_kind) (now : N)
| Ended (peer : bytes) (stopped : list bytes).
(** find_content.rs:236-243: the records that are new *)
Definition is_known (n : bytes) (l : list enr) : bool := existsb (fun x => beqb (id x) n) l.
Fixpoint take_new (known : list enr) (l : list enr) : list enr * list enr :=
  match l with
  | [] => (known, [])
  | e :: l => if is_known (id e) known then take_new known l else let '(k, n) := take_new (known ++ [e]) l in (k, e :: n)
  end.
(** find_content.rs:204-220, 223-262, 265-283; manager.rs:436-453; find_content.rs:463-477 *)
Definition happen (local : bytes) (s : lookup) (h : happening) : lookup :=
  match h with
  | Answered source enrs pending now =>
      let '(known, new_enrs) := take_new (untrusted s) (filter (fun e => negb (beqb (id e) local)) enrs) in
      {| untrusted := known; tr := set_cancelled (node_responded_with (tr s) source new_enrs now) pending |}
  | Sent source now => {| untrusted := untrusted s; tr := node_responded_with_content (tr s) source now |}
  | Broke n k now => {| untrusted := untrusted s; tr := node_failed (tr s) n k now |}
  | Ended peer stopped => {| untrusted := untrusted s; tr := set_cancelled (content_validated (tr s) peer) stopped |}
  end.
