(** Model of crates/portalnet/src/utils/portal_wire.rs and of the two functions of the
    [leb128] crate it calls ([write::unsigned], [read::unsigned], version 0.2). *)
From Verif Require Import Base.

Definition u32_max : N := 2 ^ 32 - 1.

(** leb128 [write::unsigned]: seven bits per byte, low bits first, bit 7 set on all but
    the last byte.  The loop runs at most ten times for a [u64]; fuel 10, running out is
    an error value (unreachable below 2^70). *)
Fixpoint leb_write (fuel : nat) (v : N) : option bytes :=
  match fuel with
  | O => None
  | S f =>
      let low := N.land v 127 in
      let v' := N.shiftr v 7 in
      if v' =? 0 then Some [low]
      else match leb_write f v' with
           | Some rest => Some (N.lor low 128 :: rest)
           | None => None
           end
  end.

(** leb128 [read::unsigned]: accumulates [low_bits << shift]; at shift 63 only the bytes 0
    and 1 are allowed, anything else is an overflow error (which the crate reports after
    skipping continuation bytes; the caller gives up on any error, so the skipping is not
    modelled).  End of input is an error. *)
Fixpoint leb_read (shift result : N) (l : bytes) : option (N * bytes) :=
  match l with
  | [] => None
  | b :: l' =>
      if (shift =? 63) && negb (b =? 0) && negb (b =? 1) then None
      else
        let result' := N.lor result (N.shiftl (N.land b 127) shift) in
        if N.land b 128 =? 0 then Some (result', l')
        else leb_read (shift + 7) result' l'
  end.

(** portal_wire.rs:77-81 [read_varint]: LEB128 [u64], then [u32::try_from]. *)
Definition read_varint (l : bytes) : option (N * bytes) :=
  match leb_read 0 0 l with
  | Some (v, rest) => if v <=? u32_max then Some (v, rest) else None
  | None => None
  end.

(** portal_wire.rs:7-19 [decode_next_content_item]: [Ok None] at the end of the input,
    otherwise a length prefix and exactly that many bytes ([read_exact] fails when there
    are fewer). *)
Definition decode_next_content_item (l : bytes) : outcome (option (bytes * bytes)) :=
  match l with
  | [] => Ok None
  | _ =>
      match read_varint l with
      | None => Err
      | Some (n, rest) =>
          if blen rest <? n then Err
          else Ok (Some (firstn (N.to_nat n) rest, skipn (N.to_nat n) rest))
      end
  end.

(** portal_wire.rs:16: the size of the buffer [BytesMut::zeroed] is asked for while
    decoding the next item (0 if that line is not reached). *)
Definition next_item_allocation (l : bytes) : N :=
  match l with
  | [] => 0
  | _ => match read_varint l with None => 0 | Some (n, _) => n end
  end.

(** portal_wire.rs:23-32 [decode_content_payload]: the [while let] loop.  Every iteration
    consumes at least one byte, so fuel [S (length payload)] is enough; running out is an
    error value (shown unreachable by the equivalence C04). *)
Fixpoint decode_content_payload_loop (fuel : nat) (l : bytes) : outcome (list bytes) :=
  match fuel with
  | O => Err
  | S f =>
      obind (decode_next_content_item l) (fun r =>
        match r with
        | None => Ok []
        | Some (item, rest) => omap (cons item) (decode_content_payload_loop f rest)
        end)
  end.
Definition decode_content_payload (payload : bytes) : outcome (list bytes) :=
  decode_content_payload_loop (S (length payload)) payload.

(** portal_wire.rs:36-49 [decode_single_content_payload] *)
Definition decode_single_content_payload (payload : bytes) : outcome bytes :=
  obind (decode_next_content_item payload) (fun r =>
    match r with
    | None => Err
    | Some (item, []) => Ok item
    | Some (_, _ :: _) => Err
    end).

(** portal_wire.rs:56-73 [encode_content_payload]: writing to a [BytesMut] cannot fail. *)
Fixpoint encode_content_payload (items : list bytes) : outcome bytes :=
  match items with
  | [] => Ok []
  | it :: rest =>
      if u32_max <? blen it then Err
      else match leb_write 10 (blen it) with
           | None => Err
           | Some p => omap (fun tl => p ++ it ++ tl) (encode_content_payload rest)
           end
  end.
