(** What an e2store file is. *)
From Verif Require Import Base E2Store_Model.

(** A record that can be written: a type of 16 bits, and a value of less than 4 GiB (8 bytes are
    for the header). *)
Definition entry_ok (e : entry) : Prop :=
  e_type e < 2 ^ 16 /\ bytes_ok (e_value e) /\ blen (e_value e) < 2 ^ 32 - 8 /\
  e_len e = blen (e_value e) /\ e_reserved e = 0.
(** The bytes of a record: type (big endian), length (little endian), two zero bytes, value. *)
Definition record (e : entry) : bytes := be_bytes 2 (e_type e) ++ le_bytes 4 (blen (e_value e)) ++ [0; 0] ++ e_value e.
Definition file (es : list entry) : bytes := concat (map record es).
