(** Portal wire messages: /repo/crates/ethportal-api/src/types/portal_wire.rs, the size limits
    in crates/portalnet/src/overlay/service/{utils,find_nodes,find_content}.rs. *)
From Verif Require Import Base Ssz_Model.

(** ping_extensions/extension_types.rs:6-37 [PingExtensionType] and its two conversions *)
Inductive ext_type := Capabilities | BasicRadius | HistoryRadius | ErrorExt | NonSupported (n : N).
Definition ext_of_u16 (n : N) : ext_type :=
  if n =? 0 then Capabilities else if n =? 1 then BasicRadius else if n =? 2 then HistoryRadius
  else if n =? 65535 then ErrorExt else NonSupported n.
Definition ext_u16 (t : ext_type) : N :=
  match t with Capabilities => 0 | BasicRadius => 1 | HistoryRadius => 2 | ErrorExt => 65535 | NonSupported n => n end.

(** portal_wire.rs:146-157, 247-251, 265-269, 300-310, 375-389, 408-411, 480-483: the
    messages.  Node records are of an arbitrary type [E]. *)
Inductive content_msg (E : Type) :=
| ConnectionId (id : N)
| ContentBytes (b : bytes)
| ContentEnrs (l : list E).
Arguments ConnectionId {E}. Arguments ContentBytes {E}. Arguments ContentEnrs {E}.
Inductive message (E : Type) :=
| Ping (enr_seq : N) (payload_type : ext_type) (payload : bytes)
| Pong (enr_seq : N) (payload_type : ext_type) (payload : bytes)
| FindNodes (distances : list N)
| Nodes (total : N) (enrs : list E)
| FindContent (content_key : bytes)
| Content (c : content_msg E)
| Offer (content_keys : list bytes)
| Accept (connection_id : N) (content_keys : bytes).
Arguments Ping {E}. Arguments Pong {E}. Arguments FindNodes {E}. Arguments Nodes {E}.
Arguments FindContent {E}. Arguments Content {E}. Arguments Offer {E}. Arguments Accept {E}.

Fixpoint map_o {A B} (f : A -> outcome B) (l : list A) : outcome (list B) :=
  match l with
  | [] => Ok []
  | x :: l' => obind (f x) (fun y => obind (map_o f l') (fun ys => Ok (y :: ys)))
  end.

Section Wire.
(** [enr_rlp]: RLP encoding of a record; [dec_nodes], [dec_content]: the two ways of decoding
    one (portal_wire.rs:325-331 [Decodable::decode]; enr.rs:67-72 via its base64 form). *)
Context {E : Type} (enr_rlp : E -> bytes) (dec_nodes dec_content : bytes -> outcome E).

(** Derived [Encode] of the structs, in declaration order of their fields.  [CustomPayload]
    and [ByteList1100] are plain bytes (portal_wire.rs:114-127). *)
Definition encode_body (m : message E) : bytes :=
  match m with
  | Ping s t p | Pong s t p => encode_container [PFix (le_bytes 8 s); PFix (le_bytes 2 (ext_u16 t)); PVar p]
  | FindNodes ds => encode_container [PVar (concat (map (le_bytes 2) ds))]
  | Nodes t es => encode_container [PFix (le_bytes 1 t); PVar (encode_var_list (map enr_rlp es))]
  | FindContent k => encode_container [PVar k]
  | Content (ConnectionId id) => 0 :: le_bytes 2 id
  | Content (ContentBytes b) => 1 :: b
  | Content (ContentEnrs es) => 2 :: encode_var_list (map enr_rlp es)
  | Offer ks => encode_container [PVar (encode_var_list ks)]
  | Accept id ks => encode_container [PFix (le_bytes 2 id); PVar ks]
  end.
Definition selector (m : message E) : N :=
  match m with
  | Ping _ _ _ => 0 | Pong _ _ _ => 1 | FindNodes _ => 2 | Nodes _ _ => 3
  | FindContent _ => 4 | Content _ => 5 | Offer _ => 6 | Accept _ _ => 7
  end.
(** portal_wire.rs:159-164 *)
Definition encode_message (m : message E) : bytes := selector m :: encode_body m.

(** portal_wire.rs:102-112 [CustomPayload::from_ssz_bytes]: [ByteList1100::from] cuts what is
    too long. *)
Definition decode_custom_payload (b : bytes) : bytes := firstn 1100 b.

Definition decode_ping (k : N -> ext_type -> bytes -> message E) (b : bytes) : outcome (message E) :=
  obind (decode_container [Some 8; Some 2; None] b) (fun x =>
    match x with
    | [s; t; p] =>
        obind (decode_uint 8 s) (fun s => obind (decode_uint 2 t) (fun t =>
          Ok (k s (ext_of_u16 t) (decode_custom_payload p))))
    | _ => Err
    end).
Definition decode_find_nodes (b : bytes) : outcome (message E) :=
  obind (decode_container [None] b) (fun x =>
    match x with
    | [d] => obind (decode_fixed_list 2 None d) (fun l => obind (map_o (decode_uint 2) l) (fun ds => Ok (FindNodes ds)))
    | _ => Err
    end).
Definition decode_nodes (b : bytes) : outcome (message E) :=
  obind (decode_container [Some 1; None] b) (fun x =>
    match x with
    | [t; e] => obind (decode_uint 1 t) (fun t => obind (decode_var_list None e) (fun l =>
                obind (map_o dec_nodes l) (fun es => Ok (Nodes t es))))
    | _ => Err
    end).
Definition decode_find_content (b : bytes) : outcome (message E) :=
  obind (decode_container [None] b) (fun x => match x with [k] => Ok (FindContent k) | _ => Err end).
Definition decode_content (b : bytes) : outcome (message E) :=
  obind (split_union b) (fun x =>
    match fst x with
    | 0 => obind (decode_uint 2 (snd x)) (fun id => Ok (Content (ConnectionId id)))
    | 1 => Ok (Content (ContentBytes (snd x)))
    | 2 => obind (decode_var_list None (snd x)) (fun l => obind (map_o dec_content l) (fun es => Ok (Content (ContentEnrs es))))
    | _ => Err
    end).
Definition decode_offer (b : bytes) : outcome (message E) :=
  obind (decode_container [None] b) (fun x =>
    match x with [k] => obind (decode_var_list None k) (fun ks => Ok (Offer ks)) | _ => Err end).
Definition decode_accept (b : bytes) : outcome (message E) :=
  obind (decode_container [Some 2; None] b) (fun x =>
    match x with [i; k] => obind (decode_uint 2 i) (fun i => Ok (Accept i k)) | _ => Err end).

(** portal_wire.rs:166-172 [TryFrom<Vec<u8>> for Message], derived [Decode] *)
Definition decode_message (b : bytes) : outcome (message E) :=
  obind (split_union b) (fun x =>
    match fst x with
    | 0 => decode_ping Ping (snd x)
    | 1 => decode_ping Pong (snd x)
    | 2 => decode_find_nodes (snd x)
    | 3 => decode_nodes (snd x)
    | 4 => decode_find_content (snd x)
    | 5 => decode_content (snd x)
    | 6 => decode_offer (snd x)
    | 7 => decode_accept (snd x)
    | _ => Err
    end).

(** portal_wire.rs:212-231 [TryFrom<Message> for Request]: whether it succeeds. *)
Definition is_request (m : message E) : bool :=
  match m with Ping _ _ _ | FindNodes _ | FindContent _ | Offer _ => true | _ => false end.
(** portal_wire.rs:244-260 [TryFrom<Message> for Response] *)
Definition is_response (m : message E) : bool :=
  match m with Pong _ _ _ | Nodes _ _ | Content _ | Accept _ _ => true | _ => false end.

(** portal_wire.rs:29-68 *)
Definition max_discv5_packet_size : N := 1280.
Definition max_talk_req_payload_size : N := max_discv5_packet_size - 16 - 23 - 32 - 16 - 8 - 8 - 6.
Definition max_nodes_enrs_size : N := max_talk_req_payload_size - 1 - 1 - 4.
Definition max_content_payload_size : N := max_talk_req_payload_size - 1 * 2 - 4.

(** service/utils.rs:4-11 [pop_while_ssz_bytes_len_gt]; [Vec::ssz_bytes_len] is the length of
    the encoding.  An empty list has length 0, so the loop ends. *)
Fixpoint pop_loop (fuel : nat) (max_size : N) (es : list E) : list E :=
  match fuel with
  | O => es
  | S f => if max_size <? blen (encode_var_list (map enr_rlp es)) then pop_loop f max_size (removelast es) else es
  end.
Definition pop_while_ssz_bytes_len_gt (es : list E) (max_size : N) : list E := pop_loop (length es) max_size es.

(** find_nodes.rs:47-75 [handle_find_nodes], after the routing table lookup (modelled in
    KBucket_Model) has produced [found]. *)
Definition handle_find_nodes (node_id : E -> bytes) (source : bytes) (found : list E) : message E :=
  Nodes 1 (pop_while_ssz_bytes_len_gt (filter (fun e => negb (beqb (node_id e) source)) found) max_nodes_enrs_size).
(** find_content.rs:138-160: the reply of [handle_find_content] when there is no value or no
    transfer slot; [found] are the closest nodes, [affected_by_radius] is a property of the key. *)
Definition find_content_enrs (node_id : E -> bytes) (source : bytes) (affected_by_radius : bool) (found : list E) : message E :=
  let enrs := if affected_by_radius then found else [] in
  Content (ContentEnrs (pop_while_ssz_bytes_len_gt (filter (fun e => negb (beqb (node_id e) source)) enrs) max_content_payload_size)).
(** find_content.rs:92-93: content small enough is sent inline. *)
Definition inline_content_reply (content : bytes) : option (message E) :=
  if blen content <=? max_content_payload_size then Some (Content (ContentBytes content)) else None.
End Wire.
