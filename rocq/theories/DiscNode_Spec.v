(** Words for the property about the discovery layer of a node. *)
From Verif Require Import Base DiscNode_Model.

(** What the user or else the STUN server says about the address of the node. *)
Inductive said (c : config) (w : world) : option sock -> Prop :=
| said_nothing : no_stun c = true -> said c w None
| said_by_user s : no_stun c = false -> external_addr c = Some s -> said c w (Some s)
| said_by_stun s : no_stun c = false -> external_addr c = None -> w_stun w = s -> said c w s.
(** The gateway is asked unless that is switched off or the address that was said is one of the own interfaces, and gives [a]. *)
Definition gateway_gives (c : config) (w : world) (s : option sock) (a : ip) : Prop :=
  no_upnp c = false
  /\ (forall x p l, s = Some (x, p) -> w_interfaces w = Some l -> ~ In x l)
  /\ exists g h, w_gateway w = Some g /\ g_local g = Some h /\ g_external g = Some a /\ g_maps g (listen_port c) = true.
(** Where other nodes can send packets, by a record: an address and a port of the same kind. *)
Inductive contact (f : fields) : sock -> Prop :=
| contact4 a p : f_ip4 f = Some a -> f_udp4 f = Some p -> contact f (V4 a, p)
| contact6 a p : f_ip6 f = Some a -> f_udp6 f = Some p -> contact f (V6 a, p).
(** The address in a record. *)
Definition shows (f : fields) (a : option ip) : Prop :=
  match a with
  | None => f_ip4 f = None /\ f_ip6 f = None
  | Some (V4 x) => f_ip4 f = Some x /\ f_ip6 f = None
  | Some (V6 x) => f_ip4 f = None /\ f_ip6 f = Some x
  end.

(** The node an event is about, and the entry it files. *)
Definition about (v : event) : N := match v with Session e | Put e => e_id (fst e) | Ask k => k end.
Definition files (v : event) : option entry := match v with Session e | Put e => Some e | Ask _ => None end.
(** The entry filed last for a node. *)
Definition filed_last (vs : list event) (k : N) (e : entry) : Prop :=
  exists l1 v l2, vs = l1 ++ v :: l2 /\ files v = Some e /\ about v = k
    /\ forall u, In u l2 -> files u <> None -> about u <> k.
(** Distance d of two ids. *)
Definition at_distance (a b d : N) : Prop := 2 ^ (d - 1) <= N.lxor a b < 2 ^ d /\ 1 <= d.
(** Nodes that answer FINDNODE send only records at distances that were asked for. *)
Definition honest (ask : enr -> list N -> option (list enr)) : Prop :=
  forall e ds rs r, ask e ds = Some rs -> In r rs -> exists d, In d ds /\ at_distance (e_id e) (e_id r) d.
