(** What users of an overlay network call, /repo/crates/portalnet/src/overlay/protocol.rs, and how
    the service keeps track of the requests it sends out, overlay/service/manager.rs and
    overlay/request.rs.

    A record, the routing table and the fate of an entry are those of KBucket_Model, messages those
    of Wire_Model.  The answer of a peer to the bytes sent to it is an argument, as are the results
    of a recursive search, the records the discovery layer knows, the verdict of the validator and
    the bytes received over a stream.  The order in which answers arrive is any order.  A request
    with its content ([PopulatedOffer], [PopulatedOfferWithResult]) is kept as the items and goes
    out as an [Offer] of their keys.  Metrics, logs and timeouts are left out. *)
From Verif Require Import Base.
From Verif Require Import Payload_Model AcceptCodes_Model Wire_Model KBucket_Model OfferAccept_Model Ping_Model.

(** portal_wire.rs:214-223 [Request]: what is remembered about a request. *)
Inductive request :=
| RPing (seq : N) (t : ext_type) (payload : bytes)
| RFindNodes (distances : list N)
| RFindContent (key : bytes)
| ROffer (keys : list bytes)
| RPopulatedOffer (items : list (bytes * bytes)) (with_result : bool).
(** portal_wire.rs:180-191 [From<Request> for Message] (and 432-441, 456-465: the keys of the items) *)
Definition request_message (r : request) : message enr :=
  match r with
  | RPing s t p => Ping s t p
  | RFindNodes ds => FindNodes ds
  | RFindContent k => FindContent k
  | ROffer ks => Offer ks
  | RPopulatedOffer items _ => Offer (map fst items)
  end.

Section Overlay.
(** The encodings of records, see Wire_Model. *)
Context (enr_rlp : enr -> bytes) (dec_nodes dec_content : bytes -> outcome enr).

(** ** Requests that are under way *)
(** request.rs:69-80 [ActiveOutgoingRequest]; [a_caller] is the one waiting at the other end of the
    response channel, if any. *)
Record active := { a_id : N; a_dest : enr; a_caller : option N; a_request : request }.
(** manager.rs:535-554: a spawned task that waits for the answer of the peer. *)
Record talk := { t_id : N; t_dest : enr; t_bytes : bytes }.
Record requests := { actives : list active; talks : list talk }.
Definition no_requests : requests := {| actives := []; talks := [] |}.
Inductive effect :=
| Answer (caller : N) (r : outcome (message enr))                    (* the caller's channel resolves *)
| Processed (source : enr) (req : request) (response : message enr)  (* manager.rs:285 *)
| Failed (destination : enr).                                        (* manager.rs:287 *)
Definition answer_to (c : option N) (r : outcome (message enr)) : list effect :=
  match c with Some c => [Answer c r] | None => [] end.

(** manager.rs:536-548: what the task makes of the bytes that came back ([None] if none did) *)
Definition response_of (answer : option bytes) : outcome (message enr) :=
  match answer with
  | None => Err
  | Some b => obind (decode_message dec_nodes dec_content b) (fun m => if is_response m then Ok m else Err)
  end.
(** manager.rs:478-491, 527-555: [insert] replaces an entry with the same id, whose channel is then
    closed, which its caller sees as an error (protocol.rs:768-770). *)
Definition submit (st : requests) (caller : option N) (id : N) (dest : enr) (r : request) : requests * list effect :=
  ({| actives := {| a_id := id; a_dest := dest; a_caller := caller; a_request := r |} :: filter (fun a => negb (a_id a =? id)) (actives st);
      talks := talks st ++ [{| t_id := id; t_dest := dest; t_bytes := encode_message enr_rlp (request_message r) |}] |},
   flat_map (fun a => answer_to (a_caller a) Err) (filter (fun a => a_id a =? id) (actives st))).
(** manager.rs:272-294: a response is matched with its request by the id.  (The channel the tasks
    write to keeps their order, so writing and reading are one step here.) *)
Definition finish (st : requests) (t : talk) (answer : option bytes) : requests * list effect :=
  let r := response_of answer in
  match find (fun a => a_id a =? t_id t) (actives st) with
  | Some a =>
      ({| actives := filter (fun a => negb (a_id a =? t_id t)) (actives st); talks := talks st |},
       answer_to (a_caller a) r ++ match r with Ok m => [Processed (a_dest a) (a_request a) m] | _ => [Failed (a_dest a)] end)
  | None => (st, [])
  end.
Inductive event :=
| Submit (caller : option N) (id : N) (dest : enr) (r : request)
| Finish (i : nat).     (* the i-th of the waiting tasks gets its answer or gives up *)
(** [peer id dest b]: what comes back for the bytes [b] sent to [dest] in request [id] *)
Definition step (peer : N -> enr -> bytes -> option bytes) (st : requests) (e : event) : requests * list effect :=
  match e with
  | Submit caller id dest r => submit st caller id dest r
  | Finish i =>
      match nth_error (talks st) i with
      | Some t => finish {| actives := actives st; talks := firstn i (talks st) ++ skipn (S i) (talks st) |} t (peer (t_id t) (t_dest t) (t_bytes t))
      | None => (st, [])
      end
  end.
Fixpoint run (peer : N -> enr -> bytes -> option bytes) (st : requests) (es : list event) : requests * list effect :=
  match es with
  | [] => (st, [])
  | e :: es => let (st1, o1) := step peer st e in let (st2, o2) := run peer st1 es in (st2, o1 ++ o2)
  end.

(** ** Calls that send one request.  [ask] is [send_overlay_request] (protocol.rs:748-771) to the
    node in question. *)
Section Calls.
Context (ask : request -> outcome (message enr)).

(** protocol.rs:362-390 [default_ping_extension] *)
Definition default_ping_extension (me : self) (t : ext_type) : outcome ping_extension :=
  match t with
  | Capabilities => Ok (create_capabilities me)
  | BasicRadius => Ok (EBasicRadius (me_radius me))
  | HistoryRadius => Ok (EHistoryRadius (me_radius me) 0)
  | ErrorExt => Err
  | NonSupported _ => Err
  end.
(** protocol.rs:397-421, the request of [send_ping].  Default type: extension_types.rs:7-9. *)
Definition ping_request (me : self) (t : option ext_type) (x : option ping_extension) : outcome request :=
  omap (fun v => RPing (me_seq me) (extension_type v) (payload_of v))
    (match t, x with
     | Some t, Some x => if same_ext t (extension_type x) then Ok x else Err
     | t, None => default_ping_extension me (match t with Some t => t | None => Capabilities end)
     | None, Some _ => Err
     end).
(** protocol.rs:423-434 *)
Definition send_ping (me : self) (t : option ext_type) (x : option ping_extension) : outcome (message enr) :=
  obind (ping_request me t x) (fun r =>
  obind (ask r) (fun m => match m with Pong _ _ _ => Ok m | _ => Err end)).

(** protocol.rs:851-875 [validate_find_nodes_distances]; the set is the list without repetitions. *)
Definition validate_find_nodes_distances (ds : list N) : bool :=
  negb (blen ds =? 0) && (blen ds <=? 256) && negb (existsb (fun d => 256 <? d) ds) && (blen (nodup N.eq_dec ds) =? blen ds).
(** protocol.rs:437-457 [send_find_nodes] *)
Definition send_find_nodes (ds : list N) : outcome (list enr) :=
  if validate_find_nodes_distances ds then obind (ask (RFindNodes ds)) (fun m => match m with Nodes _ es => Ok es | _ => Err end) else Err.

(** protocol.rs:460-530 [send_find_content] with 554-573 [init_find_content_stream].  [parse]
    decodes a key, [validate] is the validator of the network, [stream] reads from the connection. *)
Definition send_find_content (version : version_result) (parse : bytes -> option bytes) (validate : bytes -> bytes -> bool)
  (stream : conn -> outcome bytes) (key : bytes) : outcome (content_msg enr * bool) :=
  match version with
  | Version v =>
      match parse key with
      | None => Err
      | Some k =>
          obind (ask (RFindContent key)) (fun m =>
          match m with
          | Content (ContentBytes c) => if validate k c then Ok (ContentBytes c, false) else Err
          | Content (ContentEnrs es) => Ok (ContentEnrs es, false)
          | Content (ConnectionId id) =>
              obind (stream (cid_connector (swap16 id))) (fun b =>
              obind (if is_v1_enabled v then decode_single_content_payload b else Ok b) (fun c =>
              if validate k c then Ok (ContentBytes c, true) else Err))
          | _ => Err
          end)
      end
  | _ => Err
  end.

(** protocol.rs:576-613 [send_offer] *)
Definition send_offer (version : version_result) (items : list (bytes * bytes)) : outcome (list accept_code) :=
  match version with
  | Version v => obind (ask (RPopulatedOffer items false)) (fun m =>
      match m with Accept _ raw => accept_list_decode v raw | _ => Err end)
  | _ => Err
  end.

(** trace.rs [OfferTraceMultipleItems]: the codes, or that the transfer failed *)
Inductive offer_trace := TraceSuccess (codes : list accept_code) | TraceFailed.
(** offer.rs:265-392 [process_accept] for a request with a result channel: what is sent over that
    channel, [None] if it is dropped.  [transfer] says whether the stream was written to the end. *)
Definition accept_result (version : version_result) (transfer : conn -> bytes -> bool) (items : list (bytes * bytes)) (id : N) (raw : bytes)
  : option offer_trace :=
  match version with
  | Version v =>
      match accept_list_decode v raw with
      | Ok codes =>
          if all_declined codes then Some (TraceSuccess codes)
          else
            match encode_content_payload (map snd (accepted_items codes items)) with
            | Ok payload => if transfer (cid_connector (swap16 id)) payload then Some (TraceSuccess codes) else Some TraceFailed
            | _ => Some TraceFailed
            end
      | _ => None
      end
  | _ => None
  end.
(** protocol.rs:635-669 [send_offer_trace_with_multiple_items]: any answer lets it wait for the
    channel, which is dropped unless the answer was an [Accept] (manager.rs:664-673). *)
Definition send_offer_trace_items (version : version_result) (transfer : conn -> bytes -> bool) (items : list (bytes * bytes)) : outcome offer_trace :=
  obind (ask (RPopulatedOffer items true)) (fun m =>
  match m with
  | Accept id raw => match accept_result version transfer items id raw with Some t => Ok t | None => Err end
  | _ => Err
  end).
(** protocol.rs:616-633 [send_offer_trace] *)
Definition send_offer_trace (version : version_result) (transfer : conn -> bytes -> bool) (key value : bytes) : outcome (option accept_code) :=
  obind (send_offer_trace_items version transfer [(key, value)]) (fun t =>
  match t with
  | TraceSuccess [c] => Ok (Some c)
  | TraceSuccess _ => Err
  | TraceFailed => Ok None
  end).
End Calls.

(** ** Records of nodes *)
Section Records.
(** Our own record. *)
Context (own : enr).
(** protocol.rs:274-303 [add_enr]: the table afterwards and whether it is [Ok] *)
Definition api_add_enr (t : table) (e : enr) (f : fate) : table * bool :=
  let (t', r) := insert_or_update (enr_id own) t (new_node e) true true f in
  (t', match r with IFailed => false | _ => true end).
(** protocol.rs:306-316 [get_enr] *)
Definition get_enr (t : table) (id : N) : outcome enr :=
  if id =? enr_id own then Ok own
  else match present id t with Some n => Ok (n_enr n) | None => Err end.
(** protocol.rs:319-321 [delete_enr]: the table afterwards and whether something was removed *)
Definition api_delete_enr (t : table) (id : N) : table * bool :=
  (remove id t, match lookup id t with Some _ => true | None => false end).

(** [Iterator::max_by] on the sequence number: the last of the largest. *)
Fixpoint max_seq_from (best : enr) (l : list enr) : enr :=
  match l with
  | [] => best
  | e :: l => max_seq_from (if enr_seq best <=? enr_seq e then e else best) l
  end.
Definition max_seq (l : list enr) : option enr :=
  match l with [] => None | e :: l => Some (max_seq_from e l) end.

(** [cached]: discovery.rs:297-307 [find_enr]; [found]: what the recursive search returns;
    [ask e ds]: [send_find_nodes] to [e]. *)
Context (cached : N -> option enr) (found : N -> list enr) (ask : enr -> list N -> outcome (list enr)).
(** protocol.rs:671-711 [lookup_node] *)
Definition is_connected (t : table) (id : N) : bool :=
  match lookup id t with Some s => negb (s_pending s) && s_connected s | None => false end.
Definition lookup_node (t : table) (target : N) : list enr :=
  if target =? enr_id own then [own]
  else if is_connected t target then match cached target with Some e => [e] | None => [] end
  else found target.
(** protocol.rs:324-358 [lookup_enr] *)
Definition lookup_enr (t : table) (id : N) : outcome enr :=
  if id =? enr_id own then Ok own
  else
    let known := get_enr t id in
    let by_network :=
      match max_seq (lookup_node t id) with
      | Some e => if (match known with Ok k => enr_seq k | _ => 0 end) <? enr_seq e then Ok e else known
      | None => known
      end in
    match known with
    | Ok k => match ask k [0] with
              | Ok es => match max_seq es with Some e => Ok e | None => by_network end
              | _ => by_network
              end
    | _ => by_network
    end.
End Records.
End Overlay.
