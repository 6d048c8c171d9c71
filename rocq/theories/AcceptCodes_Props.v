(** Properties C06 and C53. *)
From Verif Require Import Base AcceptCodes_Model AcceptCodes_Proofs.

(** C06: for any list of at most 64 codes the other end, using the same protocol version,
    decodes a list of the same length that marks exactly the same items as accepted; from
    version 1 on it is the same list, on version 0 every other code is seen as declined. *)
Theorem C06_accept_codes_wire :
  forall (v : protocol_version) (l : list accept_code), (length l <= 64)%nat ->
    exists raw l', accept_list_encode v l = Ok raw /\ accept_list_decode v raw = Ok l' /\
      length l' = length l /\
      (forall i, nth_error l' i = Some Accepted <-> nth_error l i = Some Accepted) /\
      (is_v1_enabled v = true -> l' = l) /\
      (is_v1_enabled v = false -> forall i, nth_error l' i = Some Declined <->
         exists c, nth_error l i = Some c /\ c <> Accepted).
Proof. exact accept_codes_wire. Qed.
Print Assumptions C06_accept_codes_wire.

(** C06: no byte string decodes to more than 64 codes, and decoding never panics. *)
Theorem C06_accept_codes_limit :
  forall (v : protocol_version) (raw : bytes) (l : list accept_code),
    accept_list_decode v raw = Ok l -> (length l <= 64)%nat.
Proof. exact accept_decode_limits. Qed.
Print Assumptions C06_accept_codes_limit.

Theorem C06_accept_codes_decode_total :
  forall (v : protocol_version) (raw : bytes), accept_list_decode v raw <> Panic.
Proof. exact accept_decode_no_panic. Qed.
Print Assumptions C06_accept_codes_decode_total.

(** C06: a fresh list exists exactly up to 64 entries and accepts nothing. *)
Theorem C06_accept_codes_new :
  forall n : nat,
    (exists l, accept_list_new n = Ok l /\ length l = n /\ all_declined l = true) <-> (n <= 64)%nat.
Proof. exact accept_new_limit. Qed.
Print Assumptions C06_accept_codes_new.

Theorem C06_all_declined :
  forall l : list accept_code, all_declined l = true <-> ~ In Accepted l.
Proof. exact all_declined_spec. Qed.
Print Assumptions C06_all_declined.

(** C06: the version 0 bit list is not malleable. *)
Theorem C06_bitlist_canonical :
  forall (b : bytes) (l : list bool), bytes_ok b -> bitlist_decode b = Some l ->
    (length l <= 64)%nat /\ bitlist_encode l = b.
Proof. exact bitlist_decode_canonical. Qed.
Print Assumptions C06_bitlist_canonical.

(** The test vectors of crates/ethportal-api/src/types/portal_wire.rs. *)
Example C06_example :
  accept_list_encode V0 (Accepted :: repeat Declined 7) = Ok [1; 1] /\
  accept_list_encode V0 (Accepted :: repeat Declined 62 ++ [Accepted]) = Ok [1;0;0;0;0;0;0;128;1] /\
  accept_list_encode V1 [Accepted; Declined; AlreadyStored; NotWithinRadius; RateLimited; InboundTransferInProgress; Declined; Declined]
    = Ok [0;1;2;3;4;5;1;1] /\
  accept_list_decode V0 [1; 1] = Ok (Accepted :: repeat Declined 7).
Proof. vm_compute. repeat split. Qed.

(** C53: with version lists as the node's configuration requires them (strictly increasing),
    the negotiated version is the greatest common one, failure means there is none, and the
    record of the peer always decodes. *)
Theorem C53_negotiation_greatest_common :
  forall (a b : list protocol_version) (v : protocol_version),
    is_strictly_sorted_and_specified a = true -> is_strictly_sorted_and_specified b = true ->
    (length b <= 8)%nat ->
    (latest_common_protocol_version a (Some (encode_versions b)) = Version v <->
       In v a /\ In v b /\ (forall w, In w a -> In w b -> version_u8 w <= version_u8 v)) /\
    (latest_common_protocol_version a (Some (encode_versions b)) = NoMatchingVersion <->
       forall w, In w a -> ~ In w b) /\
    latest_common_protocol_version a (Some (encode_versions b)) <> FailedToDecode.
Proof. exact negotiate_spec. Qed.
Print Assumptions C53_negotiation_greatest_common.

(** C53: both ends pick the same version. *)
Theorem C53_negotiation_symmetric :
  forall a b : list protocol_version,
    is_strictly_sorted_and_specified a = true -> is_strictly_sorted_and_specified b = true ->
    (length a <= 8)%nat -> (length b <= 8)%nat ->
    latest_common_protocol_version a (Some (encode_versions b)) =
    latest_common_protocol_version b (Some (encode_versions a)).
Proof. exact negotiate_symmetric. Qed.
Print Assumptions C53_negotiation_symmetric.

Example C53_example :
  is_strictly_sorted_and_specified [V0; V1] = true /\ is_strictly_sorted_and_specified [V1; V2] = true /\
  latest_common_protocol_version [V0; V1] (Some (encode_versions [V1; V2])) = Version V1 /\
  latest_common_protocol_version [V0] (Some (encode_versions [V1])) = NoMatchingVersion.
Proof. vm_compute. repeat split. Qed.

(** C53 (finding): a peer without a version entry is assumed to speak version 0, also by a
    node that does not support version 0 (the Sepolia specification). *)
Theorem C53_chosen_version_is_supported_refuted :
  exists local, is_strictly_sorted_and_specified local = true /\
    exists v, latest_common_protocol_version local None = Version v /\ ~ In v local.
Proof. exact negotiate_unsupported_witness. Qed.
Print Assumptions C53_chosen_version_is_supported_refuted.

(** C53 (finding): [NetworkSpec::new] drops the result of the sortedness check, so a
    specification with an unsorted list is accepted and then does not negotiate the
    greatest common version. *)
Theorem C53_spec_lists_are_sorted_refuted :
  exists a b v w, network_spec_versions a = Ok a /\
    latest_common_protocol_version a (Some (encode_versions b)) = Version v /\
    In w a /\ In w b /\ version_u8 v < version_u8 w.
Proof. exact unsorted_accepted_witness. Qed.
Print Assumptions C53_spec_lists_are_sorted_refuted.
