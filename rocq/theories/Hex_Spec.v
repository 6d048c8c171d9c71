(** Hexadecimal notation. *)
From Verif Require Import Base.

(** ASCII character [c] denotes the digit [d]: '0'..'9', 'a'..'f', 'A'..'F'. *)
Definition hex_char (c d : N) : Prop :=
  (48 <= c <= 57 /\ d = c - 48) \/ (97 <= c <= 102 /\ d = c - 97 + 10) \/ (65 <= c <= 70 /\ d = c - 65 + 10).

(** The characters [s] spell the bytes [b]. *)
Inductive hex_spells : bytes -> bytes -> Prop :=
| spells_nil : hex_spells [] []
| spells_cons c1 d1 c2 d2 s b :
    hex_char c1 d1 -> hex_char c2 d2 -> hex_spells s b ->
    hex_spells (c1 :: c2 :: s) (16 * d1 + d2 :: b).
