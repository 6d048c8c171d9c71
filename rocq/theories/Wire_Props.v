(** Properties C07, C08 and C40. *)
From Verif Require Import Base Ssz_Model Ssz_Proofs Wire_Model Wire_Spec Wire_Proofs.

(** C07: every well-formed message decodes from its encoding, whatever the codec of node
    records is, as long as the records in the message themselves round trip. *)
Theorem C07_message_round_trip :
  forall (E : Type) (enr_rlp : E -> bytes) (dec_nodes dec_content : bytes -> outcome E) (m : message E),
    message_ok m -> blen (encode_message enr_rlp m) < 2 ^ 32 ->
    (forall e, In e (records m) -> dec_nodes (enr_rlp e) = Ok e /\ dec_content (enr_rlp e) = Ok e) ->
    decode_message dec_nodes dec_content (encode_message enr_rlp m) = Ok m.
Proof. exact @message_round. Qed.
Print Assumptions C07_message_round_trip.

(** The encodings are those of the specification's test vectors, for records that are bytes. *)
Example C07_examples :
  let enc := encode_message (fun b : bytes => b) in
  enc (FindNodes [256; 255]) = [2; 4;0;0;0; 0;1;255;0] /\
  enc (Nodes 1 []) = [3; 1; 5;0;0;0] /\
  enc (FindContent [112;111;114;116;97;108]) = [4; 4;0;0;0; 112;111;114;116;97;108] /\
  enc (Content (ConnectionId 513)) = [5; 0; 1;2] /\
  enc (Offer [[1;2;3]]) = [6; 4;0;0;0; 4;0;0;0; 1;2;3] /\
  enc (Accept 513 [0;1;2;3;4;5;1;1]) = [7; 1;2; 6;0;0;0; 0;1;2;3;4;5;1;1] /\
  enc (Nodes 1 [[7;8]; [9]]) = [3; 1; 5;0;0;0; 8;0;0;0; 10;0;0;0; 7;8; 9] /\
  decode_message Ok Ok (enc (Nodes 1 [[7;8]; [9]])) = Ok (Nodes 1 [[7;8]; [9]]) /\
  decode_message Ok Ok (enc (Ping 5 (NonSupported 77) [1;2])) = Ok (Ping 5 (NonSupported 77) [1;2]).
Proof. vm_compute. repeat split. Qed.

(** C08: no byte string makes decoding panic. *)
Theorem C08_decode_total :
  forall (E : Type) (dec_nodes dec_content : bytes -> outcome E) (b : bytes),
    (forall x, dec_nodes x <> Panic) -> (forall x, dec_content x <> Panic) ->
    decode_message dec_nodes dec_content b <> Panic.
Proof. exact @message_no_panic. Qed.
Print Assumptions C08_decode_total.

(** C08 (part): a decoded message is well formed and re-encodes to the bytes it came from,
    provided records do, except for a ping or pong whose payload was cut at 1100 bytes.
    Missing from the full claim: that exception. *)
Theorem C08_decode_unambiguous_partial :
  forall (E : Type) (enr_rlp : E -> bytes) (dec_nodes dec_content : bytes -> outcome E) (b : bytes) (m : message E),
    bytes_ok b -> decode_message dec_nodes dec_content b = Ok m ->
    (forall x e, dec_nodes x = Ok e -> enr_rlp e = x) -> (forall x e, dec_content x = Ok e -> enr_rlp e = x) ->
    message_ok m /\
    (encode_message enr_rlp m = b \/
     (full_payload m /\ exists rest, rest <> [] /\ b =
        match m with
        | Ping s t p | Pong s t p =>
            selector m :: encode_container [PFix (le_bytes 8 s); PFix (le_bytes 2 (ext_u16 t)); PVar (p ++ rest)]
        | _ => []
        end)).
Proof. exact @message_canonical. Qed.
Print Assumptions C08_decode_unambiguous_partial.

(** Consequence: two different byte strings that decode to the same message both decode to a
    ping or pong with a payload of 1100 bytes. *)
Theorem C08_same_message_same_bytes_partial :
  forall (E : Type) (enr_rlp : E -> bytes) (dec_nodes dec_content : bytes -> outcome E) (b1 b2 : bytes) (m : message E),
    bytes_ok b1 -> bytes_ok b2 ->
    (forall x e, dec_nodes x = Ok e -> enr_rlp e = x) -> (forall x e, dec_content x = Ok e -> enr_rlp e = x) ->
    decode_message dec_nodes dec_content b1 = Ok m -> decode_message dec_nodes dec_content b2 = Ok m ->
    b1 = b2 \/ full_payload m.
Proof.
  intros E enr_rlp dn dc b1 b2 m H1 H2 C1 C2 D1 D2.
  destruct (message_canonical enr_rlp dn dc b1 m H1 D1 C1 C2) as [_ [X|[X _]]]; [|right; exact X].
  destruct (message_canonical enr_rlp dn dc b2 m H2 D2 C1 C2) as [_ [Y|[Y _]]]; [|right; exact Y].
  left. congruence.
Qed.
Print Assumptions C08_same_message_same_bytes_partial.

(** C08 (finding): two different byte strings decode to the same ping. *)
Theorem C08_decode_unambiguous_refuted :
  exists (b1 b2 : bytes) (m : message bytes),
    bytes_ok b1 /\ bytes_ok b2 /\ b1 <> b2 /\
    decode_message Ok Ok b1 = Ok m /\ decode_message Ok Ok b2 = Ok m.
Proof.
  set (p := fun l => encode_message (fun b : bytes => b) (Ping 1 BasicRadius (repeat 7 1100 ++ l))).
  exists (p []), (p [9]), (Ping 1 BasicRadius (repeat 7 1100)).
  split; [apply bytes_okb_spec; vm_compute; reflexivity|].
  split; [apply bytes_okb_spec; vm_compute; reflexivity|].
  split; [|split; vm_compute; reflexivity].
  intros H. apply (f_equal (@length N)) in H. vm_compute in H. discriminate.
Qed.
Print Assumptions C08_decode_unambiguous_refuted.

(** C08: a decoded message is taken either as a request or as a response, never as both. *)
Theorem C08_request_xor_response :
  forall (E : Type) (m : message E), is_response m = negb (is_request m).
Proof. intros E m. destruct m; reflexivity. Qed.
Print Assumptions C08_request_xor_response.

Example C08_examples :
  decode_message Ok Ok [5; 2; 4;0;0;0; 9] = Ok (Content (ContentEnrs [[9]])) /\
  decode_message Ok Ok [5; 2; 3;0;0;0; 9] = Err /\
  decode_message Ok Ok [6; 4;0;0;0; 8;0;0;0; 7;0;0;0] = Err /\
  decode_message Ok Ok [8] = Err /\ decode_message (E:=bytes) Ok Ok [] = Err.
Proof. vm_compute. repeat split. Qed.

(** C40: the reply to a request for nodes fits into a packet; it lists a longest possible
    prefix of the nodes found and never the asking node. *)
Theorem C40_nodes_reply_fits :
  forall (E : Type) (enr_rlp : E -> bytes) (node_id : E -> bytes) (source : bytes) (found : list E),
    exists es rest, handle_find_nodes enr_rlp node_id source found = Nodes 1 es /\
      filter (fun e => negb (beqb (node_id e) source)) found = es ++ rest /\
      blen (encode_message enr_rlp (Nodes 1 es)) <= packet_room /\
      (rest = [] \/ exists e rest', rest = e :: rest' /\
         packet_room < blen (encode_message enr_rlp (Nodes 1 (es ++ [e])))) /\
      Forall (fun e => node_id e <> source) es.
Proof. intros E enr. exact (find_nodes_reply enr (fun _ => Err) (fun _ => Err)). Qed.
Print Assumptions C40_nodes_reply_fits.

(** C40: the same for the nodes closest to some content; four bytes of the packet may stay
    unused. *)
Theorem C40_content_reply_fits :
  forall (E : Type) (enr_rlp : E -> bytes) (node_id : E -> bytes) (source : bytes) (found : list E),
    exists es rest, find_content_enrs enr_rlp node_id source true found = Content (ContentEnrs es) /\
      filter (fun e => negb (beqb (node_id e) source)) found = es ++ rest /\
      blen (encode_message enr_rlp (Content (ContentEnrs es))) <= packet_room /\
      (rest = [] \/ exists e rest', rest = e :: rest' /\
         packet_room - 4 < blen (encode_message enr_rlp (Content (ContentEnrs (es ++ [e]))))) /\
      Forall (fun e => node_id e <> source) es.
Proof. intros E enr. exact (find_content_reply enr (fun _ => Err) (fun _ => Err)). Qed.
Print Assumptions C40_content_reply_fits.

Theorem C40_unaffected_content_no_nodes :
  forall (E : Type) (enr_rlp : E -> bytes) (node_id : E -> bytes) (source : bytes) (found : list E),
    find_content_enrs enr_rlp node_id source false found = Content (ContentEnrs []).
Proof. reflexivity. Qed.
Print Assumptions C40_unaffected_content_no_nodes.

(** C40: content sent inline fits; what is not sent inline is longer than 1165 bytes. *)
Theorem C40_inline_content_fits :
  forall (E : Type) (enr_rlp : E -> bytes) (content : bytes),
    (forall m, inline_content_reply (E:=E) content = Some m ->
       m = Content (ContentBytes content) /\ blen (encode_message enr_rlp m) <= packet_room) /\
    (inline_content_reply (E:=E) content = None <-> packet_room - 6 < blen content).
Proof.
  intros E enr content. split; [apply (inline_reply enr (fun _ => Err) (fun _ => Err))|].
  unfold inline_content_reply. change (packet_room - 6) with 1165. change max_content_payload_size with 1165.
  destruct (N.leb_spec (blen content) 1165); split; try discriminate; try reflexivity; lia.
Qed.
Print Assumptions C40_inline_content_fits.

(** Six records of 300 bytes: three fit. *)
Example C40_example :
  let es := map (fun i => repeat i 300) [1;2;3;4;5;6] in
  handle_find_nodes (fun b => b) (fun b => firstn 1 b) [2] es = Nodes 1 (map (fun i => repeat i 300) [1;3;4]).
Proof. vm_compute. reflexivity. Qed.
