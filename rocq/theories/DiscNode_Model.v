(** The discovery layer of a node and its address: /repo/crates/portalnet/src/discovery.rs, socket.rs and
    /repo/crates/rpc/src/discv5_rpc.rs.

    The crates [discv5], [stunclient], [igd_next] and [lru] are outside: what a STUN server, the gateway, the routing table of
    discv5 and other nodes answer are arguments; the cache of [lru] is modelled as a list, most recently used first.
    Times are whole seconds. *)
From Verif Require Import Base.

Inductive ip := V4 (a : N) | V6 (a : N).
Definition ip_eqb (a b : ip) : bool :=
  match a, b with V4 x, V4 y => x =? y | V6 x, V6 y => x =? y | _, _ => false end.
Definition sock : Type := ip * N.
(** config.rs:13-25 [PortalnetConfig], the part that is used here *)
Record config := { external_addr : option sock; listen_port : N; no_stun : bool; no_upnp : bool; session_cache : N }.
(** socket.rs:65-127: whether a gateway is found, the own address towards it, its external address, whether it maps a port *)
Record gateway := { g_local : option ip; g_external : option ip; g_maps : N -> bool }.
(** What is outside: the answer of the STUN server (socket.rs:22-48), the addresses of the interfaces if they can be listed, the
    gateway, whether the private key is one of the curve, the clock, and the values of the keys [c] and [pv] of the record. *)
Record world := {
  w_stun : option sock; w_interfaces : option (list ip); w_gateway : option gateway; w_key_ok : bool; w_now : N;
  w_client : bytes; w_versions : bytes }.
(** socket.rs:50-63 [is_local_addr] *)
Definition is_local_addr (w : world) (a : option ip) : bool :=
  match a with
  | Some a => match w_interfaces w with Some l => existsb (fun b => ip_eqb b a) l | None => false end
  | None => false
  end.
(** socket.rs:65-127 [upnp_for_external]: the port that is mapped is the port the node listens on *)
Definition upnp_for_external (w : world) (port : N) : option sock :=
  match w_gateway w with
  | None => None
  | Some g =>
      match g_local g with
      | None => None
      | Some _ => match g_external g with None => None | Some a => if g_maps g port then Some (a, port) else None end
      end
  end.
(** discovery.rs:89-101 *)
Definition known_external (c : config) (w : world) : option ip * N :=
  if no_stun c then (None, listen_port c)
  else match (match external_addr c with Some s => Some s | None => w_stun w end) with
       | Some (a, p) => (Some a, p)
       | None => (None, listen_port c)
       end.
(** discovery.rs:103-124: [Err] is the complaint about two different addresses *)
Definition enr_address (c : config) (w : world) : outcome (option ip * N) :=
  let (a, p) := known_external c w in
  if negb (no_upnp c) && negb (is_local_addr w a) then
    match upnp_for_external w (listen_port c) with
    | None => Ok (a, p)
    | Some (b, q) =>
        match a, external_addr c with
        | Some a, Some _ => if ip_eqb a b then Ok (Some b, q) else Err
        | _, _ => Ok (Some b, q)
        end
    end
  else Ok (a, p).
(** The fields of a record that the node sets: discovery.rs:130-160.  [builder.ip] sets [ip] or [ip6] by the kind of the address,
    [builder.udp4] sets [udp]; nothing sets [udp6]. *)
Record fields := { f_ip4 : option N; f_ip6 : option N; f_udp4 : option N; f_udp6 : option N; f_seq : N; f_client : bytes; f_versions : bytes }.
Definition own_fields (c : config) (w : world) : outcome fields :=
  obind (enr_address c w) (fun '(a, p) =>
    if w_key_ok w then
      Ok {| f_ip4 := match a with Some (V4 x) => Some x | _ => None end;
            f_ip6 := match a with Some (V6 x) => Some x | _ => None end;
            f_udp4 := Some p; f_udp6 := None; f_seq := w_now w; f_client := w_client w; f_versions := w_versions w |}
    else Err).

(** Records of other nodes: id, sequence number and the rest *)
Record enr := { e_id : N; e_seq : N; e_rest : N }.
Section Node.
Context {T : Type}.
(** the table of discv5: what it does with a record that is to be added *)
Variable add : T -> enr -> option T.
(** discovery.rs:171-179: the bootnodes; the first that the table refuses ends the start *)
Fixpoint bootnodes (own : N) (l : list enr) (t : T) : option T :=
  match l with
  | [] => Some t
  | e :: l => if e_id e =? own then bootnodes own l t else match add t e with Some t => bootnodes own l t | None => None end
  end.
(** discovery.rs:80-195 [new]: the fields, the table and the size of the cache *)
Definition new (c : config) (w : world) (own : N) (boot : list enr) (t : T) : outcome (fields * T * nat) :=
  obind (own_fields c w) (fun f =>
    match bootnodes own boot t with
    | None => Err
    | Some t => if session_cache c * 2 =? 0 then Panic else Ok (f, t, N.to_nat (session_cache c * 2))
    end).
End Node.

(** The cache of addresses: an entry is filed under the id of its record.  [LruCache::put] and [get] *)
Definition entry : Type := enr * sock.
Definition cache := list entry.
Definition without (k : N) (l : cache) : cache := filter (fun e : entry => negb (e_id (fst e) =? k)) l.
Definition cache_put (cap : nat) (e : entry) (l : cache) : cache := firstn cap (e :: without (e_id (fst e)) l).
Definition cache_get (k : N) (l : cache) : option entry * cache :=
  match find (fun e : entry => e_id (fst e) =? k) l with Some e => (Some e, e :: without k l) | None => (None, l) end.
(** What happens to the cache: a session is established (discovery.rs:224-243), an address is put in (334-340), an address is asked
    for (329-332, and by [find_enr]). *)
Inductive event := Session (e : entry) | Put (e : entry) | Ask (k : N).
Definition happen (cap : nat) (l : cache) (v : event) : cache :=
  match v with Session e | Put e => cache_put cap e l | Ask k => snd (cache_get k l) end.
Definition happened (cap : nat) (vs : list event) (l : cache) : cache := fold_left (happen cap) vs l.
(** discovery.rs:291-307 [find_enr]; [table]: what the routing table of discv5 has *)
Definition find_enr (l : cache) (table : N -> option enr) (k : N) : option enr :=
  match fst (cache_get k l) with Some e => Some (fst e) | None => table k end.
(** discovery.rs:313-317 and discv5_rpc.rs:69-72 [delete_enr]: the table forgets, the cache does not *)
Definition delete_enr (table : N -> option enr) (k : N) : (N -> option enr) * bool :=
  (fun i => if i =? k then None else table i, match table k with Some _ => true | None => false end).
(** discv5_rpc.rs:62-67 [get_enr] *)
Definition get_enr (l : cache) (table : N -> option enr) (k : N) : outcome enr := of_option (find_enr l table k).

(** discv5_rpc.rs:74-90 [lookup_enr]: [nearest] is the answer of the recursive search, [ask] that of a node to FINDNODE *)
Fixpoint lookup_loop (ask : enr -> list N -> option (list enr)) (k : N) (l : list enr) : outcome enr :=
  match l with
  | [] => Err
  | e :: l =>
      if e_id e =? k then Ok e
      else match ask e [256] with
           | None => Err
           | Some rs => match find (fun r => e_id r =? k) rs with Some r => Ok r | None => lookup_loop ask k l end
           end
  end.
Definition lookup_enr (nearest : option (list enr)) (ask : enr -> list N -> option (list enr)) (k : N) : outcome enr :=
  match nearest with None => Err | Some l => lookup_loop ask k l end.

(** discovery.rs:418-431 [UtpPeer::consolidate] *)
Definition consolidate (a b : enr) : outcome enr :=
  if e_id a =? e_id b then (if e_seq b <=? e_seq a then Ok a else Ok b) else Panic.
(** discovery.rs:436-464 [send_to]: to whom a packet of uTP goes, if to anyone *)
Definition send_to (l : cache) (table : N -> option enr) (k : N) (given : option enr) : option enr :=
  match given with Some e => Some e | None => find_enr l table k end.
(** discovery.rs:466-486 [recv_from]: what is left in the buffer *)
Definition recv_from (room : nat) (packet : bytes) : bytes := firstn (Nat.min room (length packet)) packet.

(** socket.rs:15-19, 105-121: the port is mapped for an hour, and again half an hour after each try, whether it went well or
    not; [late i] is how long the i-th try takes.  [good 0] is the mapping at the start. *)
Definition UPNP_MAPPING_DURATION : N := 3600.
Definition UPNP_MAPPING_TIMEOUT : N := UPNP_MAPPING_DURATION / 2.
Fixpoint tried_at (late : nat -> N) (i : nat) : N :=
  match i with O => 0 | S i => tried_at late i + UPNP_MAPPING_TIMEOUT + late i end.
Definition mapped (late : nat -> N) (good : nat -> bool) (t : N) : Prop :=
  exists i, good i = true /\ tried_at late i <= t < tried_at late i + UPNP_MAPPING_DURATION.
