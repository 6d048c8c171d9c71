(** Properties C03, C04, C55. *)
From Verif Require Import Base Payload_Model Payload_Spec Payload_Proofs.

(** C03: every list of items with 32-bit lengths survives encode and decode. *)
Theorem C03_payload_round_trip :
  forall items : list bytes,
    Forall (fun it => bytes_ok it /\ blen it <= u32_max) items ->
    exists bs, encode_content_payload items = Ok bs /\ bytes_ok bs /\
               decode_content_payload bs = Ok items.
Proof. exact payload_round_trip. Qed.
Print Assumptions C03_payload_round_trip.

(** C03: encoding fails exactly on an oversized item and never panics. *)
Theorem C03_payload_encode_fails :
  forall items : list bytes,
    encode_content_payload items <> Panic /\
    (encode_content_payload items = Err <-> Exists (fun it => u32_max < blen it) items).
Proof. exact encode_payload_fails. Qed.
Print Assumptions C03_payload_encode_fails.

(** C03: the single item form used for find-content transfers. *)
Theorem C03_payload_single_round_trip :
  forall it : bytes, bytes_ok it -> blen it <= u32_max ->
    exists bs, encode_content_payload [it] = Ok bs /\ decode_single_content_payload bs = Ok it.
Proof. exact payload_single_round_trip. Qed.
Print Assumptions C03_payload_single_round_trip.

Example C03_example :
  encode_content_payload [[1;2;3]; []; repeat 7 200%nat] = Ok ([3;1;2;3; 0; 200; 1] ++ repeat 7 200%nat)
  /\ decode_content_payload ([3;1;2;3; 0; 200; 1] ++ repeat 7 200%nat) = Ok [[1;2;3]; []; repeat 7 200%nat].
Proof. vm_compute. split; reflexivity. Qed.

(** C04: the decoder accepts exactly the concatenations of prefixed items, and never panics. *)
Theorem C04_payload_decode_exact :
  forall (l : bytes) (items : list bytes), bytes_ok l ->
    decode_content_payload l = Ok items <-> payload_of items l.
Proof. exact decode_payload_iff. Qed.
Print Assumptions C04_payload_decode_exact.

Theorem C04_payload_single_exact :
  forall (l it : bytes), bytes_ok l ->
    decode_single_content_payload l = Ok it <-> payload_of [it] l.
Proof. exact decode_single_iff. Qed.
Print Assumptions C04_payload_single_exact.

Theorem C04_payload_decode_total :
  forall l : bytes, decode_content_payload l <> Panic /\ decode_single_content_payload l <> Panic.
Proof. exact decode_total. Qed.
Print Assumptions C04_payload_decode_total.

(** Non-minimal prefixes are accepted ([0x82 0x00] is a 2), trailing and missing bytes are not. *)
Example C04_example :
  decode_content_payload [130; 0; 9; 8; 1; 7] = Ok [[9; 8]; [7]] /\
  decode_single_content_payload [1; 7; 0] = Err /\
  decode_content_payload [5; 1; 2] = Err.
Proof. vm_compute. repeat split. Qed.

(** C55 (finding): "decoding never reserves more memory than the payload is long" is false.
    Five bytes make the decoder ask for a buffer of almost 4 GiB before it notices that the
    bytes are missing. *)
Theorem C55_allocation_bounded_refuted :
  exists l : bytes, bytes_ok l /\ blen l = 5 /\
    next_item_allocation l = u32_max /\ decode_content_payload l = Err.
Proof. exact allocation_witness. Qed.
Print Assumptions C55_allocation_bounded_refuted.

(** What does hold: the request is bounded by 2^32 - 1, and by the payload when decoding succeeds. *)
Theorem C55_allocation_bounded_partial :
  forall l : bytes, bytes_ok l ->
    next_item_allocation l <= u32_max /\
    (forall it rest, decode_next_content_item l = Ok (Some (it, rest)) ->
       next_item_allocation l = blen it /\ blen it + 1 <= blen l).
Proof. exact allocation_bounded. Qed.
Print Assumptions C55_allocation_bounded_partial.
