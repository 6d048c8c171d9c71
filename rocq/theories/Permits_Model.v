(** Slots for uTP transfers: /repo/crates/portalnet/src/utp/controller.rs, utp/timed_semaphore.rs
    and the places in overlay/service/ that take and give back permits.

    A permit belongs to the value that owns it and is given back when that value is dropped.
    The owners are the handler while it runs, the spawned task it is moved into, or the
    entry of an outgoing request; they are listed as [activity]s. *)
From Verif Require Import Base.

Inductive kind :=
  | ReceiveOffer     (* offer.rs:188-256: receiving what was accepted, including the fallback *)
  | ServeContent     (* find_content.rs:134-138: sending content that was asked for *)
  | OfferPending     (* an outgoing offer that has not been answered *)
  | SendOffer        (* offer.rs:317-389: sending what the peer accepted *)
  | Download.        (* find_content.rs:364-447: receiving content found by a lookup, or offer.rs:457-560 *)
(** [holds_in], [holds_out]: whether it owns a permit of the inbound or outbound semaphore. *)
Record activity := { a_id : N; a_kind : kind; holds_in : bool; holds_out : bool }.
(** The number of free permits of the two semaphores. *)
Record slots := { free_in : N; free_out : N; active : list activity }.

(** controller.rs:53-65 [new] *)
Definition new_slots (limit : N) : slots := {| free_in := limit; free_out := limit; active := [] |}.
(** controller.rs:94-113 [get_inbound_semaphore], 72-91 [get_outbound_semaphore] *)
Definition get_inbound (s : slots) : option slots :=
  if free_in s =? 0 then None else Some {| free_in := free_in s - 1; free_out := free_out s; active := active s |}.
Definition get_outbound (s : slots) : option slots :=
  if free_out s =? 0 then None else Some {| free_in := free_in s; free_out := free_out s - 1; active := active s |}.
(** timed_semaphore.rs:12-17 [drop], or dropping the value *)
Definition drop_inbound (s : slots) : slots := {| free_in := free_in s + 1; free_out := free_out s; active := active s |}.
Definition drop_outbound (s : slots) : slots := {| free_in := free_in s; free_out := free_out s + 1; active := active s |}.
Definition start (s : slots) (a : activity) : slots := {| free_in := free_in s; free_out := free_out s; active := active s ++ [a] |}.

(** What handling an offer finds out before and after the permit is taken. *)
Inductive offer_check := NoRecordOrVersion | BadKeys | StoreFailed | NothingAccepted | SomethingAccepted.
Inductive offer_answer := OfferError | RateLimited | Declined | AcceptedSome.
(** offer.rs:51-264 [handle_offer] *)
Definition handle_offer (s : slots) (id : N) (c : offer_check) : slots * offer_answer :=
  match c with
  | NoRecordOrVersion => (s, OfferError)
  | _ =>
      match get_inbound s with
      | None => (s, RateLimited)
      | Some s =>
          match c with
          | SomethingAccepted => (start s {| a_id := id; a_kind := ReceiveOffer; holds_in := true; holds_out := false |}, AcceptedSome)
          | NothingAccepted => (drop_inbound s, Declined)
          | _ => (drop_inbound s, OfferError)
          end
      end
  end.

(** What the store has for a request, and whether the sender's record and version are known. *)
Inductive content_check := BadKey | LookupFailed | Missing | Small | Large (record_known : bool).
Inductive content_answer := ContentError | ContentInline | ContentStream | ContentRecords.
(** find_content.rs:70-172 [handle_find_content]: the permit is taken whatever the store says. *)
Definition handle_find_content (s : slots) (id : N) (c : content_check) : slots * content_answer :=
  match c with
  | BadKey => (s, ContentError)
  | _ =>
      match get_outbound s with
      | None => match c with LookupFailed => (s, ContentError) | _ => (s, ContentRecords) end
      | Some s =>
          match c with
          | Small => (drop_outbound s, ContentInline)
          | Large true => (start s {| a_id := id; a_kind := ServeContent; holds_in := false; holds_out := true |}, ContentStream)
          | Large false => (drop_outbound s, ContentError)
          | Missing => (drop_outbound s, ContentRecords)
          | _ => (drop_outbound s, ContentError)
          end
      end
  end.

(** put_content.rs:35-58 and find_content.rs:654-676: an offer for gossip is only made with a permit. *)
Definition gossip_offer (s : slots) (id : N) : slots * bool :=
  match get_outbound s with
  | None => (s, false)
  | Some s => (start s {| a_id := id; a_kind := OfferPending; holds_in := false; holds_out := true |}, true)
  end.
(** overlay/protocol.rs:756: requests made by users of the node carry no permit. *)
Definition api_offer (s : slots) (id : N) : slots :=
  start s {| a_id := id; a_kind := OfferPending; holds_in := false; holds_out := false |}.
(** find_content.rs:364-447: downloads of lookups carry no permit; offer.rs:457-560: nor do those of
    the fallback, which run while the task of the offer holds one. *)
Definition download (s : slots) (id : N) : slots :=
  start s {| a_id := id; a_kind := Download; holds_in := false; holds_out := false |}.

Definition released (a : activity) (s : slots) : slots :=
  {| free_in := if holds_in a then free_in s + 1 else free_in s; free_out := if holds_out a then free_out s + 1 else free_out s; active := active s |}.
Definition forget (id : N) (s : slots) : slots :=
  {| free_in := free_in s; free_out := free_out s; active := filter (fun a => negb (a_id a =? id)) (active s) |}.
(** The end of an activity, in whatever way: a task that is done, fails or panics, a request that fails. *)
Definition finish (s : slots) (id : N) : slots :=
  match find (fun a => a_id a =? id) (active s) with
  | Some a => released a (forget id s)
  | None => s
  end.
(** manager.rs:272-293 and offer.rs:266-391 [process_accept]: an answer to an outgoing offer. [accepted] if it is a
    valid answer that accepts something: the permit is moved into the task; otherwise it is dropped. *)
Definition offer_answered (s : slots) (id : N) (accepted : bool) : slots :=
  match find (fun a => a_id a =? id) (active s) with
  | Some a =>
      match a_kind a with
      | OfferPending =>
          if accepted then start (forget id s) {| a_id := id; a_kind := SendOffer; holds_in := holds_in a; holds_out := holds_out a |}
          else released a (forget id s)
      | _ => s
      end
  | None => s
  end.

Inductive op :=
  | OfferReceived (id : N) (c : offer_check)
  | ContentAsked (id : N) (c : content_check)
  | Gossip (id : N)
  | UserOffer (id : N)
  | LookupDownload (id : N)
  | Answered (id : N) (accepted : bool)
  | Ended (id : N).
Definition step (s : slots) (o : op) : slots :=
  match o with
  | OfferReceived id c => fst (handle_offer s id c)
  | ContentAsked id c => fst (handle_find_content s id c)
  | Gossip id => fst (gossip_offer s id)
  | UserOffer id => api_offer s id
  | LookupDownload id => download s id
  | Answered id accepted => offer_answered s id accepted
  | Ended id => finish s id
  end.
(** The activity a step may start. *)
Definition fresh_id (o : op) : option N :=
  match o with OfferReceived id _ | ContentAsked id _ | Gossip id | UserOffer id | LookupDownload id => Some id | _ => None end.
