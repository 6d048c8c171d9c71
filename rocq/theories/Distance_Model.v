(** Model of crates/ethportal-api/src/types/distance.rs *)
From Verif Require Import Base.

(** A 256-bit unsigned integer ([U256]) is an [N] below [2^256]. *)
Definition u256_max : N := 2 ^ 256 - 1.

(** distance.rs:89-95 [XorMetric::distance]: bytewise xor of two 32-byte arrays read
    as a big-endian number.  The loop [for i in 0..32] becomes [combine]/[map]; both
    arguments are arrays of length 32 in the code ([id32] in the statements). *)
Definition xor_bytes (x y : bytes) : bytes :=
  map (fun p => N.lxor (fst p) (snd p)) (combine x y).
Definition distance (x y : bytes) : N := be_num (xor_bytes x y).

(** [U256::leading_zeros] (alloy/ruint): 256 for zero. *)
Definition leading_zeros256 (d : N) : N := 256 - N.size d.

(** distance.rs:42-48 [Distance::log2] *)
Definition log2 (d : N) : option N :=
  if d =? 0 then None else Some (256 - leading_zeros256 d).

(** distance.rs:51-53 [Distance::big_endian] *)
Definition big_endian (d : N) : bytes := be_bytes 32 d.

(** distance.rs:56-60 [Distance::big_endian_u32] *)
Definition big_endian_u32 (d : N) : N := be_num (firstn 4 (big_endian d)).
