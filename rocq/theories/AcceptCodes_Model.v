(** Model of crates/ethportal-api/src/types/accept_code.rs and
    crates/ethportal-api/src/types/protocol_versions.rs, and of
    [NetworkSpec::latest_common_protocol_version]
    (crates/ethportal-api/src/types/network_spec.rs). *)
From Verif Require Import Base.

(** protocol_versions.rs:15-24 [ProtocolVersion]; the derived equality is structural. *)
Inductive protocol_version :=
| V0 | V1 | V2 | UnspecifiedVersion (v : N).

(** protocol_versions.rs:26-37, 45-49 [Deref], [From<ProtocolVersion> for u8] *)
Definition version_u8 (v : protocol_version) : N :=
  match v with V0 => 0 | V1 => 1 | V2 => 2 | UnspecifiedVersion n => n end.

(** protocol_versions.rs:51-60 [From<u8> for ProtocolVersion] *)
Definition version_of_u8 (n : N) : protocol_version :=
  if n =? 0 then V0 else if n =? 1 then V1 else if n =? 2 then V2 else UnspecifiedVersion n.

(** protocol_versions.rs:40-42 [is_v1_enabled]; the order is that of the [u8]s (97-107). *)
Definition is_v1_enabled (v : protocol_version) : bool := version_u8 V1 <=? version_u8 v.

Definition version_eqb (a b : protocol_version) : bool :=
  match a, b with
  | V0, V0 | V1, V1 | V2, V2 => true
  | UnspecifiedVersion n, UnspecifiedVersion m => n =? m
  | _, _ => false
  end.

(** protocol_versions.rs:119-130 [is_strictly_sorted_and_specified] *)
Fixpoint is_strictly_sorted_and_specified_from (prev : option protocol_version) (l : list protocol_version) : bool :=
  match l with
  | [] => true
  | v :: l' =>
      match v with UnspecifiedVersion _ => false | _ =>
        match prev with
        | Some p => if version_u8 v <=? version_u8 p then false
                    else is_strictly_sorted_and_specified_from (Some v) l'
        | None => is_strictly_sorted_and_specified_from (Some v) l'
        end
      end
  end.
Definition is_strictly_sorted_and_specified (l : list protocol_version) : bool :=
  is_strictly_sorted_and_specified_from None l.

(** protocol_versions.rs:109-111: SSZ [VariableList<ProtocolVersion, U8>], one byte per
    version.  The RLP string that wraps these bytes in the node record (140-155) is not
    modelled. *)
Definition encode_versions (l : list protocol_version) : bytes := map version_u8 l.
Definition decode_versions (b : bytes) : option (list protocol_version) :=
  if 8 <? blen b then None else Some (map version_of_u8 b).

(** network_spec.rs:60-81 [NetworkSpec::new], the part about versions: the result of the
    sortedness check on line 68 is discarded, so every list is accepted. *)
Definition network_spec_versions (l : list protocol_version) : outcome (list protocol_version) :=
  let _ := is_strictly_sorted_and_specified l in Ok l.

(** Result of the negotiation: [ProtocolVersionError] has two cases. *)
Inductive version_result :=
| Version (v : protocol_version)
| FailedToDecode
| NoMatchingVersion.

(** network_spec.rs:109-131 [latest_common_protocol_version]; [peer] is the raw value
    under the "pv" key of the peer's record, if there is one. *)
Definition latest_common_protocol_version (local : list protocol_version) (peer : option bytes) : version_result :=
  match peer with
  | None => Version V0
  | Some raw =>
      match decode_versions raw with
      | None => FailedToDecode
      | Some other =>
          match find (fun v => existsb (version_eqb v) other) (rev local) with
          | Some v => Version v
          | None => NoMatchingVersion
          end
      end
  end.

(** accept_code.rs:150-166 [AcceptCode] *)
Inductive accept_code :=
| Accepted | Declined | AlreadyStored | NotWithinRadius | RateLimited
| InboundTransferInProgress | Unspecified.

(** accept_code.rs:182-194 *)
Definition code_u8 (c : accept_code) : N :=
  match c with
  | Accepted => 0 | Declined => 1 | AlreadyStored => 2 | NotWithinRadius => 3
  | RateLimited => 4 | InboundTransferInProgress => 5 | Unspecified => 255
  end.

(** accept_code.rs:196-208: every other byte becomes [Unspecified]. *)
Definition code_of_u8 (b : N) : accept_code :=
  if b =? 0 then Accepted else if b =? 1 then Declined else if b =? 2 then AlreadyStored
  else if b =? 3 then NotWithinRadius else if b =? 4 then RateLimited
  else if b =? 5 then InboundTransferInProgress else Unspecified.

Definition code_eqb (a b : accept_code) : bool := code_u8 a =? code_u8 b.

(** accept_code.rs:22-24 [AcceptCodeList::new]; [VariableList<_, U64>] refuses more than 64. *)
Definition accept_list_new (capacity : nat) : outcome (list accept_code) :=
  if (64 <? capacity)%nat then Err else Ok (repeat Declined capacity).

(** accept_code.rs:31-38 [set] *)
Fixpoint list_set {A} (l : list A) (i : nat) (x : A) : option (list A) :=
  match l, i with
  | [], _ => None
  | _ :: l', O => Some (x :: l')
  | y :: l', S i' => match list_set l' i' x with Some r => Some (y :: r) | None => None end
  end.
Definition accept_list_set (l : list accept_code) (i : nat) (c : accept_code) : outcome (list accept_code) :=
  match list_set l i c with Some l' => Ok l' | None => Panic end.

(** accept_code.rs:41-43 [all_declined] *)
Definition all_declined (l : list accept_code) : bool := negb (existsb (code_eqb Accepted) l).

(** ssz [BitList<U64>]: bit [i] of the little-endian number is entry [i], one more bit set
    marks the end.  [bits_num] is that number without the mark. *)
Fixpoint bits_num (l : list bool) : N :=
  match l with
  | [] => 0
  | b :: l' => N.b2n b + 2 * bits_num l'
  end.
Definition bitlist_encode (l : list bool) : bytes :=
  le_bytes (S (length l / 8)) (bits_num (l ++ [true])).
(** ssz [Bitfield::from_bytes]: no set bit, a mark that is not in the last byte, or more
    than 64 bits are errors. *)
Definition bitlist_decode (b : bytes) : option (list bool) :=
  let n := le_num b in
  if n =? 0 then None
  else
    let len := N.log2 n in
    if negb (len / 8 + 1 =? blen b) then None
    else if 64 <? len then None
    else Some (map (fun i => N.testbit n (N.of_nat i)) (seq 0 (N.to_nat len))).

(** accept_code.rs:45-55 [AcceptCodeList::encode] (a list has at most 64 entries by
    construction; [with_capacity] errors otherwise). *)
Definition accept_list_encode (v : protocol_version) (l : list accept_code) : outcome bytes :=
  if is_v1_enabled v then Ok (map code_u8 l)
  else if (64 <? length l)%nat then Err
  else Ok (bitlist_encode (map (code_eqb Accepted) l)).

(** accept_code.rs:57-78 [AcceptCodeList::decode] *)
Definition accept_list_decode (v : protocol_version) (raw : bytes) : outcome (list accept_code) :=
  if is_v1_enabled v then
    if 64 <? blen raw then Err else Ok (map code_of_u8 raw)
  else
    match bitlist_decode raw with
    | None => Err
    | Some bits => Ok (map (fun b : bool => if b then Accepted else Declined) bits)
    end.
