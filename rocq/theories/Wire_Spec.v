(** Which messages are well formed: every field fits its wire type. *)
From Verif Require Import Base Wire_Model.

(** An extension type as it comes out of a [u16]. *)
Definition ext_ok (t : ext_type) : Prop :=
  match t with
  | NonSupported n => n < 65536 /\ n <> 0 /\ n <> 1 /\ n <> 2 /\ n <> 65535
  | _ => True
  end.
Definition message_ok {E} (m : message E) : Prop :=
  match m with
  | Ping s t p | Pong s t p => s < 2 ^ 64 /\ ext_ok t /\ blen p <= 1100
  | FindNodes ds => Forall (fun d => d < 65536) ds
  | Nodes t _ => t < 256
  | Content (ConnectionId id) => id < 65536
  | Accept id _ => id < 65536
  | _ => True
  end.
(** The records in a message. *)
Definition records {E} (m : message E) : list E :=
  match m with Nodes _ es | Content (ContentEnrs es) => es | _ => [] end.
(** A ping or pong whose payload has the maximal length. *)
Definition full_payload {E} (m : message E) : Prop :=
  match m with Ping _ _ p | Pong _ _ p => blen p = 1100 | _ => False end.
(** Bytes carried by one discv5 talk packet, computed from the packet layout: masking IV,
    static header, authdata, MAC, request id, protocol id and RLP overhead are taken off the
    1280 bytes of a packet. *)
Definition packet_room : N := 1280 - (16 + 23 + 32 + 16 + 8 + 8 + 6).
