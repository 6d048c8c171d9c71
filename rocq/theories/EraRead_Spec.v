(** What stands in a record of an era1, e2hs, era or e2ss file. *)
From Verif Require Import Base E2Store_Model EraFiles_Model EraFiles_Spec.

(** A record of type [t] that holds the compressed value [v]. *)
Definition holds {A} (t : N) (unpack : bytes -> option A) (e : entry) (v : A) : Prop := e_type e = t /\ unpack (e_value e) = Some v.
(** A record of type [t] that holds 32 bytes. *)
Definition holds_word (t : N) (e : entry) (w : bytes) : Prop := e_type e = t /\ e_value e = w /\ blen w = 32.
(** A record of type [t] that is an index with [n] offsets: words of 8 bytes, first number, offsets, count. *)
Definition holds_index (t n : N) (e : entry) (ix : index) : Prop :=
  e_type e = t /\ e_value e = concat (map (le_bytes 8) (ix_start ix :: ix_offsets ix ++ [ix_count ix])) /\ index_ok ix n.
(** The blocks of the slots that are not empty, with their slots (64 bits). *)
Fixpoint numbered {Bk} (s : N) (slots : list (option Bk)) : list (N * Bk) :=
  match slots with
  | [] => []
  | Some b :: r => (s mod 2 ^ 64, b) :: numbered (s + 1) r
  | None :: r => numbered (s + 1) r
  end.
