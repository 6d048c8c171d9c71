(** Model of crates/ethportal-api/src/utils/bytes.rs and of the functions of
    crates/ethportal-api/src/types/node_id.rs that use it.
    A Rust [&str] is modelled by its UTF-8 bytes ([bytes]); characters are ASCII codes.
    The different error values of [ByteUtilsError] are collapsed into [Err]. *)
From Verif Require Import Base Distance_Model.

(** hex crate, [hex::encode]: lower-case digit of a nibble. *)
Definition hex_digit (d : N) : N := if d <? 10 then 48 + d else 87 + d.
(** hex crate, [hex::encode_upper] *)
Definition hex_digit_upper (d : N) : N := if d <? 10 then 48 + d else 55 + d.

Definition hex_chars (dig : N -> N) (data : bytes) : bytes :=
  flat_map (fun b => [dig (b / 16); dig (b mod 16)]) data.

(** bytes.rs:19-21 [hex_encode]; "0x" is 48, 120. *)
Definition hex_encode (data : bytes) : bytes := [48; 120] ++ hex_chars hex_digit data.

(** bytes.rs:54-56 [hex_encode_upper] *)
Definition hex_encode_upper (data : bytes) : bytes := [48; 120] ++ hex_chars hex_digit_upper data.

(** bytes.rs:44-51 [hex_encode_compact]; ".." is 46, 46. *)
Definition hex_encode_compact (data : bytes) : bytes :=
  if blen data <=? 8 then hex_encode data
  else
    let hex := hex_chars hex_digit data in
    [48; 120] ++ firstn 4 hex ++ [46; 46] ++ skipn (length hex - 4) hex.

(** hex crate: value of one character. *)
Definition hex_val (c : N) : option N :=
  if (48 <=? c) && (c <=? 57) then Some (c - 48)
  else if (97 <=? c) && (c <=? 102) then Some (c - 87)
  else if (65 <=? c) && (c <=? 70) then Some (c - 55)
  else None.

(** hex crate, [hex::decode]: an odd number of characters is an error, as is any
    character that is not a hex digit. *)
Fixpoint hex_decode_raw (s : bytes) : outcome bytes :=
  match s with
  | [] => Ok []
  | [_] => Err
  | c1 :: c2 :: s' =>
      match hex_val c1, hex_val c2 with
      | Some d1, Some d2 => omap (cons (d1 * 16 + d2)) (hex_decode_raw s')
      | _, _ => Err
      end
  end.

(** bytes.rs:24-41 [hex_decode].  [data.get(..2)] is [None] (an error) if there are fewer
    than two bytes or if byte 2 is inside a multi-byte character; in the second case the
    first two bytes are not both ASCII so the next test would fail as well.
    [to_lowercase() != "0x"] lets "0X" through. *)
Definition hex_decode (data : bytes) : outcome bytes :=
  match data with
  | c1 :: c2 :: post_prefix =>
      if (c1 =? 48) && ((c2 =? 120) || (c2 =? 88)) then hex_decode_raw post_prefix
      else Err
  | _ => Err
  end.

(** bytes.rs:59-82 [random_32byte_array].  [rnd] are the bytes produced by
    [rng().fill_bytes] (32 of them, the first ones unused) and [choice] the result of
    [random_range]; see [random_choice_ok] for the range it is drawn from.
    [(128_f32 * 0.5_f32.powi(k)) as u8] is exactly [128 / 2^k] for k <= 7.
    The test [first_zero_bytes == 32] can not hold for a [u8] argument. *)
Definition random_choice_ok (leading_bit_zeros choice : N) : Prop :=
  let k := leading_bit_zeros mod 8 in
  if k =? 0 then 128 <= choice <= 255
  else 128 / 2 ^ k <= choice < 2 * (128 / 2 ^ k).
Definition random_32byte_array (leading_bit_zeros : N) (rnd : bytes) (choice : N) : bytes :=
  let first_zero_bytes := N.to_nat (leading_bit_zeros / 8) in
  repeat 0 first_zero_bytes ++ choice :: skipn (S first_zero_bytes) rnd.

(** node_id.rs:9-18 [generate_random_node_id] *)
Definition generate_random_node_id (target_bucket_idx : N) (local_node_id rnd : bytes) (choice : N) : bytes :=
  let distance_leading_zeroes := 255 - target_bucket_idx in
  let random_distance := random_32byte_array distance_leading_zeroes rnd choice in
  big_endian (distance local_node_id random_distance).

(** node_id.rs:26-51 [generate_random_node_ids]; [rnds index] is the random array drawn for
    that index.  [checked_shr]/[checked_shl] by 8 give the default 0.  The assertion on
    the range is the [Panic] branch. *)
Definition set_top_bits (unique_bits index : N) (node_id : bytes) : bytes :=
  let mask := if unique_bits <? 8 then N.shiftr 255 unique_bits else 0 in
  let insignificant_bits := 8 - unique_bits in
  let top := if insignificant_bits <? 8 then N.shiftl index insignificant_bits mod 256 else 0 in
  match node_id with
  | b :: rest => N.lor (N.land b mask) top :: rest
  | [] => []
  end.
Definition generate_random_node_ids (unique_bits : N) (rnds : N -> bytes) : outcome (list bytes) :=
  if 8 <? unique_bits then Panic
  else Ok (map (fun i => let index := N.of_nat i in set_top_bits unique_bits index (rnds index))
               (seq 0 (N.to_nat (2 ^ unique_bits)))).
