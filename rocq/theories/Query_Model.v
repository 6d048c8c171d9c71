(** Recursive lookups: /repo/crates/portalnet/src/find/iterators/{query,findnodes,findcontent}.rs.

    Node ids are numbers below 2^256 (not enforced here), a distance is the exclusive or of two
    ids, instants are numbers.  [closest_peers], a [BTreeMap] from distances to peers, is a list
    of pairs in increasing order of distance.  The counter [peers_returned] of a peer is left
    out: nothing reads it.  Subtractions that would go below zero, and the assertions that guard
    them, are [Panic]. *)
From Verif Require Import Base.
From Verif Require Import Payload_Model.

(** query.rs:219-245 [QueryPeerState] *)
Inductive peer_state := NotContacted | Waiting (deadline : N) | Unresponsive | Failed | Succeeded.
(** query.rs:169-180 [QueryPeer] *)
Record peer := { p_id : N; p_state : peer_state }.
Definition set_state (p : peer) (s : peer_state) : peer := {| p_id := p_id p; p_state := s |}.

(** query.rs:132-167 [QueryProgress] *)
Inductive progress := Iterating (no_progress : N) | Stalled | Finished.
(** query.rs:30-60 [QueryConfig]; the overall timeout is used by the pool only. *)
Record config := { parallelism : N; num_results : N; peer_timeout : N }.

Definition peer_map := list (N * peer).
(** findnodes.rs:36-56; [started] belongs to the pool. *)
Record query := {
  q_target : N;
  q_progress : progress;
  q_peers : peer_map;
  q_waiting : N;
  q_config : config
}.

(** [BTreeMap] operations. *)
Fixpoint find_peer (d : N) (m : peer_map) : option peer :=
  match m with
  | [] => None
  | (k, p) :: r => if d =? k then Some p else find_peer d r
  end.
Fixpoint set_peer (d : N) (s : peer_state) (m : peer_map) : peer_map :=
  match m with
  | [] => []
  | (k, p) :: r => if d =? k then (k, set_state p s) :: r else (k, p) :: set_peer d s r
  end.
(** [entry(d).or_insert(p)] *)
Fixpoint or_insert (d : N) (p : peer) (m : peer_map) : peer_map :=
  match m with
  | [] => [(d, p)]
  | (k, p') :: r => if d <? k then (d, p) :: m else if d =? k then m else (k, p') :: or_insert d p r
  end.

(** findnodes.rs:287-318, findcontent.rs:399-440 [with_config].  Collecting into the map keeps
    the last of several peers with one distance; they are the same peer. *)
Definition new_peer (id : N) : peer := {| p_id := id; p_state := NotContacted |}.
Definition add_peer (target : N) (m : peer_map) (id : N) : peer_map := or_insert (N.lxor target id) (new_peer id) m.
Definition new_query (c : config) (target : N) (known : list N) : query :=
  {| q_target := target; q_progress := Iterating 0;
     q_peers := fold_left (add_peer target) (firstn (N.to_nat (num_results c)) known) [];
     q_waiting := 0; q_config := c |}.

(** findnodes.rs:326-332, findcontent.rs:447-453 [at_capacity] *)
Definition at_capacity (q : query) : bool :=
  match q_progress q with
  | Stalled => num_results (q_config q) <=? q_waiting q
  | Iterating _ => parallelism (q_config q) <=? q_waiting q
  | Finished => true
  end.

Definition is_finished (q : query) : bool := match q_progress q with Finished => true | _ => false end.
Definition with_peers (q : query) (m : peer_map) (w : N) : query :=
  {| q_target := q_target q; q_progress := q_progress q; q_peers := m; q_waiting := w; q_config := q_config q |}.
Definition with_progress (q : query) (p : progress) : query :=
  {| q_target := q_target q; q_progress := p; q_peers := q_peers q; q_waiting := q_waiting q; q_config := q_config q |}.

(** Recording the outcome [s] for a peer; [None] when nothing changes:
    findnodes.rs:83-104 (all of [on_failure]), 110-142 and findcontent.rs:159-193, 244-266. *)
Definition settle (q : query) (id : N) (s : peer_state) : outcome (option query) :=
  if is_finished q then Ok None
  else
    let d := N.lxor (q_target q) id in
    match find_peer d (q_peers q) with
    | None => Ok None
    | Some p =>
        match p_state p with
        | Waiting _ =>
            if q_waiting q =? 0 then Panic
            else Ok (Some (with_peers q (set_peer d s (q_peers q)) (q_waiting q - 1)))
        | Unresponsive => Ok (Some (with_peers q (set_peer d s (q_peers q)) (q_waiting q)))
        | _ => Ok None
        end
    end.

(** findnodes.rs:82-104, findcontent.rs:243-267 [on_failure] *)
Definition on_failure (q : query) (id : N) : outcome query :=
  omap (fun r => match r with Some q' => q' | None => q end) (settle q id Failed).

(** findnodes.rs:144-159, findcontent.rs:199-214: the loop over the returned peers.  The flag
    is that of the last one. *)
Fixpoint incorporate (target num_results num_closest : N) (m : peer_map) (flag : bool) (nodes : list N) : peer_map * bool :=
  match nodes with
  | [] => (m, flag)
  | id :: r =>
      let d := N.lxor target id in
      let m' := or_insert d (new_peer id) m in
      let first := match m' with (k, _) :: _ => k =? d | [] => false end in
      incorporate target num_results num_closest m' (first || (num_closest <? num_results)) r
  end.
(** findnodes.rs:162-177, findcontent.rs:216-233 *)
Definition next_progress (c : config) (p : progress) (flag : bool) : progress :=
  match p with
  | Iterating n =>
      let n := if flag then 0 else n + 1 in
      if parallelism c <=? n then Stalled else Iterating n
  | Stalled => if flag then Iterating 0 else Stalled
  | Finished => Finished
  end.
Definition learn (q : query) (nodes : list N) : query :=
  let (m, flag) := incorporate (q_target q) (num_results (q_config q)) (blen (q_peers q)) (q_peers q) false nodes in
  with_progress (with_peers q m (q_waiting q)) (next_progress (q_config q) (q_progress q) flag).

(** findnodes.rs:109-178 [on_success] *)
Definition on_success (q : query) (id : N) (nodes : list N) : outcome query :=
  omap (fun r => match r with Some q' => learn q' nodes | None => q end) (settle q id Succeeded).

(** query_pool.rs:200-222 [QueryState] *)
Inductive query_state := QWaiting (peer : option N) | QAtCapacity | QValidating (peer : N) | QFinished.

(** The loop of [poll] over the peers: findnodes.rs:194-246; findcontent.rs:303-341 is the same
    loop without the counter of results, that is with [None].  How it ends: *)
Inductive scan_end := Contact (id : N) | Capacity | Done | Through.
Fixpoint scan (c : config) (now : N) (at_cap : bool) (m : peer_map) (waiting : N) (count : option N)
  : outcome (peer_map * N * scan_end) :=
  match m with
  | [] => Ok ([], waiting, Through)
  | (d, p) :: r =>
      let go p' waiting count :=
        omap (fun x => match x with (r', w, e) => ((d, p') :: r', w, e) end) (scan c now at_cap r waiting count) in
      match p_state p with
      | NotContacted =>
          if at_cap then Ok (m, waiting, Capacity)
          else Ok ((d, set_state p (Waiting (now + peer_timeout c))) :: r, waiting + 1, Contact (p_id p))
      | Waiting t =>
          if t <=? now then
            if waiting =? 0 then Panic else go (set_state p Unresponsive) (waiting - 1) count
          else if at_cap then Ok (m, waiting, Capacity)
          else go p waiting None
      | Succeeded =>
          match count with
          | Some n => if num_results c <=? n + 1 then Ok (m, waiting, Done) else go p waiting (Some (n + 1))
          | None => go p waiting None
          end
      | Failed | Unresponsive => go p waiting count
      end
  end.

(** findnodes.rs:190-257, findcontent.rs:300-353: the loop and what follows it. *)
Definition scan_query (q : query) (now : N) (count : option N) : outcome (query * query_state) :=
  omap (fun x => match x with (m, w, e) =>
    let q' := with_peers q m w in
    match e with
    | Contact id => (q', QWaiting (Some id))
    | Capacity => (q', QAtCapacity)
    | Done => (with_progress q' Finished, QFinished)
    | Through => if 0 <? w then (q', QWaiting None) else (with_progress q' Finished, QFinished)
    end end) (scan (q_config q) now (at_capacity q) (q_peers q) (q_waiting q) count).

(** findnodes.rs:180-258 [poll] *)
Definition poll (q : query) (now : N) : outcome (query * query_state) :=
  if is_finished q then Ok (q, QFinished) else scan_query q now (Some 0).

(** findnodes.rs:260-272 [into_result] *)
Definition succeeded_ids (m : peer_map) : list N :=
  flat_map (fun e => match p_state (snd e) with Succeeded => [p_id (snd e)] | _ => [] end) m.
Definition into_result (q : query) : list N :=
  firstn (N.to_nat (num_results (q_config q))) (succeeded_ids (q_peers q)).

(** ** Content lookups *)

(** findcontent.rs:42-46 [FindContentQueryResponse], 79-84 [UnvalidatedContent] *)
Inductive unvalidated := UContent (content : bytes) | UConnection (id : N).
Inductive response := ClosestNodes (nodes : list N) | Found (u : unvalidated).
(** findcontent.rs:86-94 [ValidatedContent] *)
Record validated := { v_content : bytes; v_utp : bool; v_peer : N }.

(** findcontent.rs:96-132.  [fc_channel] holds the messages sent on [content_tx] and not yet
    received. *)
Record content_query := {
  fc_query : query;
  fc_unchecked : list (N * unvalidated);
  fc_pending : list N;
  fc_channel : list (option validated);
  fc_validated : option validated;
  fc_validating : N
}.
Definition new_content_query (c : config) (target : N) (known : list N) : content_query :=
  {| fc_query := new_query c target known; fc_unchecked := []; fc_pending := []; fc_channel := [];
     fc_validated := None; fc_validating := 0 |}.
Definition with_query (f : content_query) (q : query) : content_query :=
  {| fc_query := q; fc_unchecked := fc_unchecked f; fc_pending := fc_pending f; fc_channel := fc_channel f;
     fc_validated := fc_validated f; fc_validating := fc_validating f |}.

(** findcontent.rs:158-241 [on_success].  A peer is inserted into [unchecked_content] at most
    once, so the newest entry comes first. *)
Definition fc_on_success (f : content_query) (id : N) (r : response) : outcome content_query :=
  omap (fun x => match x with
    | None => f
    | Some q' =>
        match r with
        | ClosestNodes nodes => with_query f (learn q' nodes)
        | Found u =>
            {| fc_query := q'; fc_unchecked := (id, u) :: fc_unchecked f; fc_pending := fc_pending f ++ [id];
               fc_channel := fc_channel f; fc_validated := fc_validated f; fc_validating := fc_validating f |}
        end
    end) (settle (fc_query f) id Succeeded).
(** findcontent.rs:243-267 [on_failure] *)
Definition fc_on_failure (f : content_query) (id : N) : outcome content_query :=
  omap (with_query f) (on_failure (fc_query f) id).
(** A message arrives on the channel (sent by the service). *)
Definition fc_send (f : content_query) (m : option validated) : content_query :=
  {| fc_query := fc_query f; fc_unchecked := fc_unchecked f; fc_pending := fc_pending f; fc_channel := fc_channel f ++ [m];
     fc_validated := fc_validated f; fc_validating := fc_validating f |}.

(** findcontent.rs:269-353 [poll]: after the channel was looked at (274-283), 285-353 *)
Definition fc_advance (f : content_query) (now : N) : outcome (content_query * query_state) :=
  if 0 <? fc_validating f then Ok (f, QAtCapacity)
  else
    match fc_pending f with
    | id :: rest =>
        Ok ({| fc_query := fc_query f; fc_unchecked := fc_unchecked f; fc_pending := rest; fc_channel := fc_channel f;
               fc_validated := fc_validated f; fc_validating := fc_validating f + 1 |}, QValidating id)
    | [] => omap (fun x => (with_query f (fst x), snd x)) (scan_query (fc_query f) now None)
    end.
Definition fc_poll (f : content_query) (now : N) : outcome (content_query * query_state) :=
  if is_finished (fc_query f) then Ok (f, QFinished)
  else
    match fc_channel f with
    | Some v :: rest =>
        Ok ({| fc_query := with_progress (fc_query f) Finished; fc_unchecked := fc_unchecked f; fc_pending := fc_pending f;
               fc_channel := rest; fc_validated := Some v; fc_validating := fc_validating f |}, QFinished)
    | None :: rest =>
        if fc_validating f =? 0 then Panic
        else fc_advance {| fc_query := fc_query f; fc_unchecked := fc_unchecked f; fc_pending := fc_pending f;
                           fc_channel := rest; fc_validated := fc_validated f; fc_validating := fc_validating f - 1 |} now
    | [] => fc_advance f now
    end.

(** findcontent.rs:477-489 [pending_peers] *)
Definition pending_peers (f : content_query) (source : N) : list N :=
  flat_map (fun e => match p_state (snd e) with
                     | Waiting _ => if p_id (snd e) =? source then [] else [p_id (snd e)]
                     | _ => [] end) (q_peers (fc_query f)).
(** findcontent.rs:355-367 [into_result] *)
Definition fc_into_result (f : content_query) : option (validated * list N) :=
  match fc_validated f with
  | Some v => Some (v, pending_peers f (v_peer v))
  | None => None
  end.
(** findcontent.rs:457-473 [get_nodes_to_poke] *)
Definition nodes_to_poke (f : content_query) (source : N) : list N :=
  firstn (N.to_nat (num_results (q_config (fc_query f))))
    (flat_map (fun e => match p_state (snd e) with
                        | Succeeded => if p_id (snd e) =? source then [] else [p_id (snd e)]
                        | _ => [] end) (q_peers (fc_query f))).
(** findcontent.rs:369-391 [pending_validation_result] *)
Fixpoint find_unchecked (id : N) (l : list (N * unvalidated)) : option unvalidated :=
  match l with [] => None | (k, u) :: r => if id =? k then Some u else find_unchecked id r end.
Definition pending_validation_result (f : content_query) (source : N) : option (unvalidated * list N) :=
  match find_unchecked source (fc_unchecked f) with
  | Some u => Some (u, nodes_to_poke f source)
  | None => None
  end.

(** ** Driving a lookup *)
(** The calls the service makes: manager.rs:384-432 [query_event_poll] for polls, find_nodes.rs
    and find_content.rs [advance_…] for replies, find_nodes.rs:124 and manager.rs:422 for
    failures (the peer's record is not known, or there is nothing to ask it for; a request that
    fails or times out is not reported to the lookup), find_content.rs:350-480 for the messages
    on [valid_content_tx]. *)
Inductive call := CPoll (now : N) | CSuccess (id : N) (nodes : list N) | CFailure (id : N).
Inductive content_call := CCPoll (now : N) | CCSuccess (id : N) (r : response) | CCFailure (id : N) | CCVerdict (v : option validated).

Definition step (q : query) (a : call) : outcome (query * option query_state) :=
  match a with
  | CPoll now => omap (fun x => (fst x, Some (snd x))) (poll q now)
  | CSuccess id nodes => omap (fun x => (x, None)) (on_success q id nodes)
  | CFailure id => omap (fun x => (x, None)) (on_failure q id)
  end.
Definition content_step (f : content_query) (a : content_call) : outcome (content_query * option query_state) :=
  match a with
  | CCPoll now => omap (fun x => (fst x, Some (snd x))) (fc_poll f now)
  | CCSuccess id r => omap (fun x => (x, None)) (fc_on_success f id r)
  | CCFailure id => omap (fun x => (x, None)) (fc_on_failure f id)
  | CCVerdict v => Ok (fc_send f v, None)
  end.

(** find_content.rs:328-465, the arm [QueryEvent::Validating]: the messages sent to the lookup
    about the content of [peer].  [pending] is the result of [pending_validation_result];
    [enr_known] whether the record of the peer is found; [version] the latest common protocol
    version ([Some true]: version 1 or later) if there is one; [transfer] the received stream if
    the transfer worked; [judge] is what
    [process_received_content] (Receive_Model.v, [receive_lookup]) replies: the content to
    return, or [None] if it is invalid. *)
Definition verdicts_sent (judge : bytes -> option bytes) (peer : N)
    (pending : option unvalidated) (enr_known : bool) (version : option bool) (transfer : option bytes)
  : list (option validated) :=
  let processed utp content :=
    [match judge content with
     | Some c => Some {| v_content := c; v_utp := utp; v_peer := peer |}
     | None => None
     end] in
  match pending with
  | None => []
  | Some (UContent content) => processed false content
  | Some (UConnection _) =>
      if enr_known then
        match version with
        | None => []
        | Some v1 =>
            match transfer with
            | None => [None]
            | Some data =>
                if v1 then match decode_single_content_payload data with Ok d => processed true d | _ => [None] end
                else processed true data
            end
        end
      else []
  end.
