(** Vocabulary for the texts of beacon data. *)
From Verif Require Import Base Hex_Model Hex_Spec.

(** [s] is "0x" (or "0X") and the digits of [b] *)
Definition spells (s b : bytes) : Prop := exists x h, s = 48 :: x :: h /\ (x = 120 \/ x = 88) /\ hex_spells h b.
Definition spells_small (s b : bytes) : Prop := exists h, s = 48 :: 120 :: h /\ hex_spells h b.

(** [s] is the number [n] in decimal digits, with underscores anywhere *)
Inductive reads_as : bytes -> N -> Prop :=
| no_digit : reads_as [] 0
| one_more s n d : reads_as s n -> d < 10 -> reads_as (s ++ [48 + d]) (10 * n + d)
| underscore s n : reads_as s n -> reads_as (s ++ [95]) n.
