(** Properties C42, C43 and C59. *)
From Verif Require Import Base Payload_Model AcceptCodes_Model AcceptQueue_Model
  OfferAccept_Model OfferAccept_Spec OfferAccept_Proofs.

(** C43: the answer to an offer, when a transfer slot is free.  Per offered key in order:
    the code says what the store decided; a key is accepted only if the store wants it, no
    earlier transfer of it can still be running, and it was not accepted earlier in the same
    offer; a wanted key that is not in the queue and not repeated is accepted.  A transfer is
    started exactly when something was accepted, otherwise the connection id is zero.
    The queue has no repeated keys in every reachable state; handling one offer is assumed
    to take less than two minutes. *)
Theorem C43_offer_reply_faithful :
  forall parse should peer v clock t0 r offered q q' reply,
  NoDup (map e_key q) -> (forall m, t0 <= fst (clock m) < t0 + 120000) ->
  handle_offer parse should (Some (peer, Version v)) true clock r offered q = (q', Ok reply) ->
  exists codes, accept_list_encode v codes = Ok (r_codes reply) /\ length codes = length offered /\
  (forall i raw, nth_error offered i = Some raw ->
     exists k d c, parse raw = Some k /\ should k = Ok d /\ nth_error codes i = Some c /\
       (c = NotWithinRadius <-> d = DNotWithinRadius) /\ (c = AlreadyStored <-> d = DAlreadyStored) /\
       (c = Accepted \/ c = InboundTransferInProgress <-> d = Store) /\
       (c = Accepted ->
          (forall e, In e q -> e_key e = k -> e_deadline e < t0 + 120000) /\
          (forall j raw', (j < i)%nat -> nth_error offered j = Some raw' -> parse raw' = Some k ->
             nth_error codes j <> Some Accepted)) /\
       (d = Store -> (forall e, In e q -> e_key e <> k) ->
          (forall j raw', (j < i)%nat -> nth_error offered j = Some raw' -> parse raw' <> Some k) ->
          c = Accepted)) /\
  (In Accepted codes <-> r_transfer reply <> None) /\
  (r_transfer reply = None -> r_connection_id reply = 0).
Proof. exact offer_reply_faithful. Qed.
Print Assumptions C43_offer_reply_faithful.

(** C43: without a free slot every key is answered "rate limited" and the queue is untouched. *)
Theorem C43_rate_limited :
  forall parse should peer v clock r offered q,
  (length offered <= 64)%nat ->
  exists raw, handle_offer parse should (Some (peer, Version v)) false clock r offered q
              = (q, Ok (mk_reply 0 raw None)) /\
              accept_list_encode v (repeat RateLimited (length offered)) = Ok raw.
Proof. exact rate_limited_offer. Qed.
Print Assumptions C43_rate_limited.

(** C43: no offer makes the node panic. *)
Theorem C43_no_panic :
  forall parse should source permit clock r offered q,
  (forall k, should k <> Panic) -> snd (handle_offer parse should source permit clock r offered q) <> Panic.
Proof. exact handle_offer_no_panic. Qed.
Print Assumptions C43_no_panic.

(** C43 (finding): the connection id can be zero although content was accepted (the random
    connection number is not kept away from it). *)
Theorem C43_zero_id_means_nothing_accepted_refuted :
  exists parse should source clock r offered reply,
    snd (handle_offer parse should source true clock r offered []) = Ok reply /\
    r_connection_id reply = 0 /\ r_transfer reply <> None.
Proof.
  exists Some, (fun _ => Ok Store), (Some (mk_enr 1 1 1, Version V1)), (fun _ => (0, 0%nat)), 1, [[7]].
  eexists. split; [vm_compute; reflexivity|]. split; [reflexivity|discriminate].
Qed.
Print Assumptions C43_zero_id_means_nothing_accepted_refuted.

(** C42: offer with values.  Offerer and receiver use the same version.  If the receiver
    started a transfer, the offerer sends a payload over the matching connection numbers
    and the receiver pairs exactly the accepted keys with the values offered for them; if
    not, the offerer sends nothing. *)
Theorem C42_populated_offer_delivers :
  forall parse should get peer v clock r items q q' reply,
  Forall (fun it => bytes_ok (snd it) /\ blen (snd it) <= u32_max) items -> r < 65536 ->
  handle_offer parse should (Some (peer, Version v)) true clock r (map fst items) q = (q', Ok reply) ->
  match r_transfer reply with
  | None => process_accept parse get v (PopulatedOffer items) (r_connection_id reply) (r_codes reply) = Ok None
  | Some (cid, acc) =>
      exists cid' payload pairs keys codes,
        process_accept parse get v (PopulatedOffer items) (r_connection_id reply) (r_codes reply) = Ok (Some (cid', payload)) /\
        c_send cid' = c_recv cid /\ c_recv cid' = c_send cid /\
        decode_payload acc payload = Ok pairs /\
        map_option parse (map fst items) = Some keys /\ accept_list_encode v codes = Ok (r_codes reply) /\
        pairs = select_accepted codes (combine keys (map snd items)) /\ pairs <> [] /\
        (forall k x, In (k, x) pairs -> exists raw, In (raw, x) items /\ parse raw = Some k)
  end.
Proof. exact populated_offer_delivers. Qed.
Print Assumptions C42_populated_offer_delivers.

(** C42: offer of keys only: the values are those in the offerer's store. *)
Theorem C42_stored_offer_delivers :
  forall parse should get peer v clock r offered q q' reply cid acc cid' payload,
  r < 65536 -> (forall k x, get k = Ok (Some x) -> bytes_ok x /\ blen x <= u32_max) ->
  handle_offer parse should (Some (peer, Version v)) true clock r offered q = (q', Ok reply) ->
  r_transfer reply = Some (cid, acc) ->
  process_accept parse get v (StoredOffer offered) (r_connection_id reply) (r_codes reply) = Ok (Some (cid', payload)) ->
  c_send cid' = c_recv cid /\ c_recv cid' = c_send cid /\
  exists pairs, decode_payload acc payload = Ok pairs /\ map fst pairs = acc /\
    (forall k x, In (k, x) pairs -> get k = Ok (Some x)).
Proof. exact stored_offer_delivers. Qed.
Print Assumptions C42_stored_offer_delivers.

(** Three keys, the second one already stored: first and third are transferred. *)
Definition ex_should (k : bytes) : outcome decision := Ok (if beqb k [2] then DAlreadyStored else Store).
Definition ex_items : list (bytes * bytes) := [([1], [11; 11]); ([2], [22]); ([3], [])].
Example C42_C43_example : forall v, v = V0 \/ v = V1 ->
  exists q' reply payload,
    handle_offer Some ex_should (Some (mk_enr 9 1 1, Version v)) true (fun _ => (1000, 0%nat)) 513 (map fst ex_items) [] = (q', Ok reply) /\
    r_transfer reply = Some (mk_conn 512 513, [[1]; [3]]) /\ r_connection_id reply = 2 /\
    process_accept Some (fun _ => Err) v (PopulatedOffer ex_items) 2 (r_codes reply) = Ok (Some (mk_conn 513 512, payload)) /\
    decode_payload [[1]; [3]] payload = Ok [([1], [11; 11]); ([3], [])].
Proof.
  intros v [->| ->]; do 2 eexists; exists [2; 11; 11; 0];
    (split; [vm_compute; reflexivity|]); vm_compute; repeat split.
Qed.

(** C42 (finding): the two ends negotiate the version separately.  If the offerer holds a
    record of the receiver without versions it uses version 0 while the receiver, knowing
    the offerer's record, uses version 1; the codes are then misread, and a value can be
    delivered under the wrong key. *)
Theorem C42_versions_agree_refuted :
  exists local should items q' reply cid acc payload k x,
    latest_common_protocol_version local (Some (encode_versions local)) = Version V1 /\
    latest_common_protocol_version local None = Version V0 /\
    handle_offer Some should (Some (mk_enr 9 1 1, Version V1)) true (fun _ => (0, 0%nat)) 513 (map fst items) [] = (q', Ok reply) /\
    r_transfer reply = Some (cid, acc) /\
    (exists cid', process_accept Some (fun _ => Err) V0 (PopulatedOffer items) (r_connection_id reply) (r_codes reply)
       = Ok (Some (cid', payload))) /\
    decode_payload acc payload = Ok [(k, x)] /\ ~ In (k, x) items.
Proof.
  exists [V0; V1], (fun k => Ok (if beqb k [1] then DAlreadyStored else if beqb k [3] then Store else DAlreadyStored)).
  exists [([1], [11]); ([2], [22]); ([3], [33]); ([4], [44])].
  do 2 eexists. exists (mk_conn 512 513), [[3]], [1; 22], [3], [22].
  split; [reflexivity|]. split; [reflexivity|]. split; [vm_compute; reflexivity|]. split; [reflexivity|].
  split; [eexists; vm_compute; reflexivity|]. split; [vm_compute; reflexivity|].
  cbn. intuition congruence.
Qed.
Print Assumptions C42_versions_agree_refuted.

(** C59: a value in the store reaches the peer that asks for it: inline when it fits into a
    packet, else as a transfer whose bytes the asking peer decodes to the value. *)
Theorem C59_found_content_delivered :
  forall get v r key content,
  get key = Ok (Some content) -> bytes_ok content -> blen content <= u32_max -> r < 65536 ->
  exists reply, handle_find_content get true (Some (Version v)) r key = Ok reply /\
     match reply with
     | ReplyContent x => x = content /\ blen content <= 1165
     | ReplyConnection id cid payload =>
         1165 < blen content /\ receive_found_content v payload = Ok content /\
         c_send (cid_connector (swap16 id)) = c_recv cid /\ c_recv (cid_connector (swap16 id)) = c_send cid
     | ReplyEnrs => False
     end.
Proof. exact found_content_delivered. Qed.
Print Assumptions C59_found_content_delivered.

Example C59_example : forall v, v = V0 \/ v = V1 ->
  exists id cid payload,
    handle_find_content (fun _ => Ok (Some (repeat 5 1166%nat))) true (Some (Version v)) 0 [1]
      = Ok (ReplyConnection id cid payload) /\ id = 65535 /\
    receive_found_content v payload = Ok (repeat 5 1166%nat).
Proof. intros v [->| ->]; do 3 eexists; (split; [vm_compute; reflexivity|]); vm_compute; split; reflexivity. Qed.
