(** Answering offers, answering the answer, and the transfer that follows:
    /repo/crates/portalnet/src/overlay/service/offer.rs (offer side and accept side) and
    the two ends of a find-content transfer in find_content.rs. *)
From Verif Require Import Base Payload_Model AcceptCodes_Model AcceptQueue_Model.

(** crates/storage/src/lib.rs:23-32 [ShouldWeStoreContent] *)
Inductive decision := Store | DNotWithinRadius | DAlreadyStored.

(** [u16::to_be] / [from_be] on a little-endian machine: the two bytes are swapped. *)
Definition swap16 (x : N) : N := (x mod 256) * 256 + x / 256.

(** utp-rs [ConnectionId]: the numbers used for sending and receiving. *)
Record conn := mk_conn { c_send : N; c_recv : N }.
(** utp_socket.cid(peer, is_initiator = false), used at offer.rs:162 and find_content.rs:126:
    a random receiving number, sending with the number before it. *)
Definition cid_acceptor (r : N) : conn := mk_conn ((r + 65535) mod 65536) r.
(** offer.rs:311-316, 485-490 and find_content.rs:365-369: the connecting side derives both
    from the number on the wire. *)
Definition cid_connector (id : N) : conn := mk_conn ((id + 1) mod 65536) id.

(** A content key is kept as the bytes it is encoded to; [parse] is
    [TContentKey::try_from_bytes]. *)
Fixpoint map_option {A B} (f : A -> option B) (l : list A) : option (list B) :=
  match l with
  | [] => Some []
  | x :: l' => match f x, map_option f l' with Some y, Some ys => Some (y :: ys) | _, _ => None end
  end.

(** storage/src/lib.rs:60-65 [should_we_store_batch] (no store overrides it): the first
    error ends it. *)
Fixpoint map_outcome {A B} (f : A -> outcome B) (l : list A) : outcome (list B) :=
  match l with
  | [] => Ok []
  | x :: l' => obind (f x) (fun y => obind (map_outcome f l') (fun ys => Ok (y :: ys)))
  end.

(** offer.rs:129-147: one code per key in order; [clock i] is the time and the choice of the
    expired entry when the queue is asked for the [i]-th time.  [requested_keys.set(i, _)]
    is in range because the list was created with one entry per key (64). *)
Fixpoint offer_codes (clock : nat -> N * nat) (i : nat) (peer : enr)
  (kds : list (bytes * decision)) (q : queue) : queue * list accept_code * list bytes :=
  match kds with
  | [] => (q, [], [])
  | (k, d) :: rest =>
      match d with
      | Store =>
          let (q1, ok) := add_key_to_queue (fst (clock i)) (snd (clock i)) k peer q in
          let '(q2, codes, acc) := offer_codes clock (S i) peer rest q1 in
          if ok then (q2, Accepted :: codes, k :: acc)
          else (q2, InboundTransferInProgress :: codes, acc)
      | DNotWithinRadius =>
          let '(q2, codes, acc) := offer_codes clock (S i) peer rest q in
          (q2, NotWithinRadius :: codes, acc)
      | DAlreadyStored =>
          let '(q2, codes, acc) := offer_codes clock (S i) peer rest q in
          (q2, AlreadyStored :: codes, acc)
      end
  end.

(** The reply on the wire and, if a transfer was started, its connection and keys. *)
Record offer_reply := mk_reply {
  r_connection_id : N; r_codes : bytes; r_transfer : option (conn * list bytes) }.

(** portal_wire.rs:514-527 [Accept::new]: a failed encoding panics. *)
Definition accept_new (v : protocol_version) (id : N) (codes : list accept_code)
  (tr : option (conn * list bytes)) : outcome offer_reply :=
  match accept_list_encode v codes with
  | Ok raw => Ok (mk_reply id raw tr)
  | _ => Panic
  end.

(** offer.rs:51-262 [handle_offer], up to the spawned task.  [source] is the record found for
    the sender with the result of the version negotiation; [permit] whether an inbound
    transfer slot is free; [r] the random connection number. *)
Definition handle_offer (parse : bytes -> option bytes) (should : bytes -> outcome decision)
  (source : option (enr * version_result)) (permit : bool) (clock : nat -> N * nat) (r : N)
  (offered : list bytes) (q : queue) : queue * outcome offer_reply :=
  match accept_list_new (length offered) with
  | Ok codes0 =>
      match source with
      | None => (q, Err)
      | Some (peer, Version v) =>
          if negb permit then (q, accept_new v 0 (map (fun _ => RateLimited) codes0) None)
          else
            match map_option parse offered with
            | None => (q, Err)
            | Some keys =>
                match map_outcome should keys with
                | Ok ds =>
                    let '(q', codes, acc) := offer_codes clock 0 peer (combine keys ds) q in
                    if all_declined codes then (q', accept_new v 0 codes None)
                    else
                      let cid := cid_acceptor r in
                      (q', accept_new v (swap16 (c_send cid)) codes (Some (cid, acc)))
                | Err => (q, Err)
                | Panic => (q, Panic)
                end
            end
      | Some (_, _) => (q, Err)
      end
  | Err => (q, Err)
  | Panic => (q, Panic)
  end.

(** The request the reply belongs to: items sent along, or keys to be read from the store. *)
Inductive offer_request :=
| PopulatedOffer (items : list (bytes * bytes))
| StoredOffer (keys : list bytes).

(** offer.rs:325-336: pair codes with items, keep the accepted ones. *)
Definition accepted_items {A} (codes : list accept_code) (items : list A) : list A :=
  map snd (filter (fun ci => code_eqb (fst ci) Accepted) (combine codes items)).

(** offer.rs:629-664 [provide_requested_content] *)
Fixpoint provide (get : bytes -> outcome (option bytes)) (cks : list (accept_code * bytes)) : outcome (list bytes) :=
  match cks with
  | [] => Ok []
  | (c, k) :: rest =>
      if code_eqb c Accepted then
        match get k with
        | Ok (Some v) => obind (provide get rest) (fun vs => Ok (v :: vs))
        | Ok None => Err
        | Err => Err
        | Panic => Panic
        end
      else provide get rest
  end.
Definition provide_requested_content (parse : bytes -> option bytes) (get : bytes -> outcome (option bytes))
  (codes : list accept_code) (keys : list bytes) : outcome (list bytes) :=
  match map_option parse keys with
  | None => Err
  | Some ks => provide get (combine codes ks)
  end.

(** offer.rs:265-392 [process_accept]: nothing to send, or a connection and the bytes to send. *)
Definition process_accept (parse : bytes -> option bytes) (get : bytes -> outcome (option bytes))
  (v : protocol_version) (req : offer_request) (connection_id : N) (codes_raw : bytes)
  : outcome (option (conn * bytes)) :=
  obind (accept_list_decode v codes_raw) (fun codes =>
    if all_declined codes then Ok None
    else
      obind (match req with
             | PopulatedOffer items => Ok (map snd (accepted_items codes items))
             | StoredOffer keys => provide_requested_content parse get codes keys
             end) (fun items =>
      obind (encode_content_payload items) (fun payload =>
        Ok (Some (cid_connector (swap16 connection_id), payload))))).

(** offer.rs:667-687 [decode_payload] *)
Definition decode_payload (accepted : list bytes) (payload : bytes) : outcome (list (bytes * bytes)) :=
  obind (decode_content_payload payload) (fun vals =>
    if Nat.eqb (length accepted) (length vals) then Ok (combine accepted vals) else Err).

(** find_content.rs:70-167 [handle_find_content], for content that is in the store: the value
    itself, or a transfer of it.  [version] is the negotiation with the asking peer ([None]
    if its record is not known). *)
Inductive content_reply :=
| ReplyContent (v : bytes)
| ReplyConnection (connection_id : N) (cid : conn) (payload : bytes)
| ReplyEnrs.
Definition max_content_payload : N := 1165.
Definition handle_find_content (get : bytes -> outcome (option bytes)) (permit : bool)
  (version : option version_result) (r : N) (key : bytes) : outcome content_reply :=
  match get key, permit with
  | Ok (Some content), true =>
      if blen content <=? max_content_payload then Ok (ReplyContent content)
      else
        match version with
        | Some (Version v) =>
            obind (if is_v1_enabled v then encode_content_payload [content] else Ok content)
              (fun payload => let cid := cid_acceptor r in
                              Ok (ReplyConnection (swap16 (c_send cid)) cid payload))
        | _ => Err
        end
  | Ok _, false => Ok ReplyEnrs
  | Ok None, _ => Ok ReplyEnrs
  | Err, _ => Err
  | Panic, _ => Panic
  end.

(** find_content.rs:365-415: what the asking side makes of the transferred bytes. *)
Definition receive_found_content (v : protocol_version) (data : bytes) : outcome bytes :=
  if is_v1_enabled v then decode_single_content_payload data else Ok data.
