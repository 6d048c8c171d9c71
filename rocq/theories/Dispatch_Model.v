(** Model of /repo/crates/portalnet/src/events.rs (the routing of TALKREQ requests and of events to the subnetworks), of the
    identifiers of protocols in /repo/crates/ethportal-api/src/types/network_spec.rs, of
    /repo/crates/portalnet/src/discovery.rs [send_talk_req], of /repo/crates/subnetworks/*/src/events.rs and of
    /repo/crates/portalnet/src/overlay/protocol.rs [process_one_request].

    A handle that was not created, or whose subnetwork has ended, takes no messages ([on]).  The queues do not lose messages
    (tokio's unbounded channels); the streams of events may, then an error arrives ([Lagged]).  A request that nobody
    keeps is answered by discv5 with an empty answer when it is dropped.  Messages for the log are left out. *)
From Coq Require Import String Ascii.
From Verif Require Import Base Hex_Model Capacity_Model Wire_Spec Wire_Model Args_Model.

(** network_spec.rs:158-218 [MAINNET], [ANGELFOOD] and [SEPOLIA]: [portal_subnetworks] *)
Definition portal_subnetworks (n : network) : list (subnetwork * bytes) :=
  match n with
  | Mainnet =>
      [(History, lit "0x5000"); (State, lit "0x500A"); (LegacyHistory, lit "0x500B"); (Beacon, lit "0x500C"); (CanonicalIndices, lit "0x500D");
       (VerkleState, lit "0x500E"); (TransactionGossip, lit "0x500F"); (Utp, lit "0x757470")]
  | Angelfood =>
      [(State, lit "0x504A"); (LegacyHistory, lit "0x504B"); (Beacon, lit "0x504C"); (CanonicalIndices, lit "0x504D");
       (VerkleState, lit "0x504E"); (TransactionGossip, lit "0x504F"); (Utp, lit "0x757470")]
  | Sepolia =>
      [(State, lit "0x504A"); (LegacyHistory, lit "0x504B"); (Beacon, lit "0x504C"); (CanonicalIndices, lit "0x504D");
       (VerkleState, lit "0x504E"); (TransactionGossip, lit "0x504F"); (Utp, lit "0x757470")]
  end.
(** network_spec.rs:90-95 [get_subnetwork_from_protocol_identifier] and 97-107 [get_protocol_identifier_from_subnetwork] *)
Definition get_subnetwork_from_protocol_identifier (n : network) (hex : bytes) : option subnetwork :=
  option_map fst (find (fun p => beqb (snd p) hex) (portal_subnetworks n)).
Definition get_protocol_identifier_from_subnetwork (n : network) (s : subnetwork) : option bytes :=
  option_map snd (find (fun p => subnetwork_eqb (fst p) s) (portal_subnetworks n)).

(** discovery.rs:343-361 [send_talk_req]: the protocol of the request *)
Definition send_talk_req (n : network) (s : subnetwork) : outcome bytes :=
  match get_protocol_identifier_from_subnetwork n s with
  | Some id => Ok (match hex_decode id with Ok b => b | _ => [] end)
  | None => Panic
  end.

(** events.rs:258-269 [EventEnvelope]; [payload]: OverlayEvent and Timestamp *)
Record event := { payload : N; from : subnetwork; destination : option (list subnetwork) }.
Record talk := { protocol : bytes; body : bytes }.
(** events.rs:31-37 [OverlayRequest] *)
Inductive message_in := Talk (t : talk) | Event (e : event).

(** events.rs:112-156 [dispatch_discv5_talk_req]: who gets the request *)
Definition dispatch_discv5_talk_req (n : network) (on : subnetwork -> bool) (t : talk) : option subnetwork :=
  match get_subnetwork_from_protocol_identifier n (hex_encode_upper (protocol t)) with
  | Some LegacyHistory => if on LegacyHistory then Some LegacyHistory else None
  | Some Beacon => if on Beacon then Some Beacon else None
  | Some State => if on State then Some State else None
  | Some Utp => if on Utp then Some Utp else None
  | _ => None
  end.
(** events.rs:158-199 [dispatch_overlay_event]: who gets the event, in this order *)
Definition contains (l : list subnetwork) (s : subnetwork) : bool := existsb (subnetwork_eqb s) l.
Definition dispatch_overlay_event (on : subnetwork -> bool) (e : event) : list subnetwork :=
  let recipients := filter (fun id => negb (subnetwork_eqb id (from e))) (match destination e with Some l => l | None => [LegacyHistory; Beacon; State] end) in
  (if contains recipients Beacon then if on Beacon then [Beacon] else [] else []) ++
  (if contains recipients State then if on State then [State] else [] else []) ++
  (if contains recipients LegacyHistory then if on LegacyHistory then [LegacyHistory] else [] else []).

(** events.rs:82-110 [start]: one turn of the loop, in whatever order requests and events arrive *)
Inductive arrival := Arrived (m : message_in) | Lagged.
Definition sent := list (subnetwork * message_in).
Definition turn (n : network) (on : subnetwork -> bool) (a : arrival) : sent :=
  match a with
  | Arrived (Talk t) => match dispatch_discv5_talk_req n on t with Some s => [(s, Talk t)] | None => [] end
  | Arrived (Event e) => map (fun s => (s, Event e)) (dispatch_overlay_event on e)
  | Lagged => []
  end.
(** [None]: the panic if there are no subnetworks *)
Definition start (n : network) (on : subnetwork -> bool) (l : list arrival) : option sent :=
  if on LegacyHistory || on State || on Beacon then Some (flat_map (turn n on) l) else None.
(** What a subnetwork finds in its queue *)
Definition queue (s : subnetwork) (q : sent) : list message_in := map snd (filter (fun x => subnetwork_eqb (fst x) s) q).

(** ** Answers *)
Section Answers.
Context {E : Type} (enr_rlp : E -> bytes) (dec_nodes dec_content : bytes -> outcome E).
(** protocol.rs:191-209 [process_one_request]; [serve]: the service of the subnetwork *)
Definition process_one_request (serve : message E -> outcome (message E)) (body : bytes) : outcome (message E) :=
  obind (decode_message dec_nodes dec_content body) (fun m => if is_request m then serve m else Err).
(** beacon events.rs:45-67 [handle_talk_request], and the same for the others *)
Definition handle_talk_request (serve : message E -> outcome (message E)) (body : bytes) : bytes :=
  match process_one_request serve body with Ok m => encode_message enr_rlp m | _ => [] end.
(** The answer of a node; discovery.rs:467-484 [recv_from]: what is for uTP is answered with nothing at once *)
Definition answer (n : network) (on : subnetwork -> bool) (serve : subnetwork -> message E -> outcome (message E)) (t : talk) : bytes :=
  match dispatch_discv5_talk_req n on t with
  | Some Utp | None => []
  | Some s => handle_talk_request (serve s) (body t)
  end.
End Answers.
