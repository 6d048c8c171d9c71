(** Properties C01, C02. *)
From Verif Require Import Base Distance_Model Distance_Spec Distance_Proofs.

(** C01: the XOR distance is a metric on 32-byte ids and is unidirectional. *)
Theorem C01_xor_distance_metric :
  forall x y z : bytes, id32 x -> id32 y -> id32 z ->
    distance x y <= u256_max /\
    distance x y = distance y x /\
    (distance x y = 0 <-> x = y) /\
    distance x z <= distance x y + distance y z.
Proof. exact xor_distance_metric. Qed.
Print Assumptions C01_xor_distance_metric.

Theorem C01_xor_unidirectional :
  forall (x : bytes) (d : N), id32 x -> d <= u256_max ->
    exists! y, id32 y /\ distance x y = d.
Proof. exact xor_unidirectional. Qed.
Print Assumptions C01_xor_unidirectional.

Example C01_example :
  id32 (be_bytes 32 1) /\ id32 (be_bytes 32 (2^255)) /\
  distance (be_bytes 32 1) (be_bytes 32 (2^255)) = 2 ^ 255 + 1.
Proof. split; [|split]; [apply id32_be_bytes | apply id32_be_bytes | vm_compute; reflexivity]. Qed.

(** C02: the logarithmic distance brackets the distance. *)
Theorem C02_log2_brackets :
  forall d : N, d <= u256_max ->
    (log2 d = None <-> d = 0) /\
    (forall k, log2 d = Some k <-> 1 <= k /\ k <= 256 /\ 2 ^ (k - 1) <= d /\ d < 2 ^ k).
Proof. exact log2_brackets. Qed.
Print Assumptions C02_log2_brackets.

(** C02: big-endian bytes round-trip and carry the order; the stored 4-byte prefix
    is the distance divided by 2^224, hence monotone. *)
Theorem C02_big_endian_order :
  forall d e : N, d <= u256_max -> e <= u256_max ->
    id32 (big_endian d) /\
    be_num (big_endian d) = d /\
    (d < e <-> lex_lt (big_endian d) (big_endian e)) /\
    (d <= e -> big_endian_u32 d <= big_endian_u32 e) /\
    big_endian_u32 d = d / 2 ^ 224.
Proof. exact big_endian_order. Qed.
Print Assumptions C02_big_endian_order.

Example C02_example : log2 1 = Some 1 /\ log2 (2^255) = Some 256 /\ log2 u256_max = Some 256
  /\ big_endian_u32 (2^224 * 7 + 3) = 7.
Proof. vm_compute. repeat split. Qed.
