(** What a uTP content payload is, independently of how it is parsed. *)
From Verif Require Import Base.

(** Value of a string of LEB128 digits: base 128, least significant digit first. *)
Fixpoint leb_value (p : bytes) : N :=
  match p with
  | [] => 0
  | b :: p' => b mod 128 + 128 * leb_value p'
  end.

(** [p] is a LEB128 number: all bytes but the last have the continuation bit. *)
Fixpoint leb_shape (p : bytes) : Prop :=
  match p with
  | [] => False
  | [b] => b < 128
  | b :: p' => 128 <= b /\ leb_shape p'
  end.

(** [p] is a length prefix for an item of [n] bytes: a LEB128 number of at most ten bytes
    (a [u64]) with value [n], which has to fit in 32 bits. *)
Definition length_prefix (p : bytes) (n : N) : Prop :=
  leb_shape p /\ (length p <= 10)%nat /\ leb_value p = n /\ n < 2 ^ 32.

(** [payload] is the concatenation of prefixed items. *)
Inductive payload_of : list bytes -> bytes -> Prop :=
| payload_nil : payload_of [] []
| payload_cons it items p tl :
    length_prefix p (blen it) -> payload_of items tl ->
    payload_of (it :: items) (p ++ it ++ tl).
