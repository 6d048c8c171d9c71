(** The areas of the database. *)
From Verif Require Import Base ExecDb_Model KeySpace_Model.

Inductive area := Storage (address : bytes) | State | Place.
(** Addresses are hashes, as are all keys but that of the position *)
Definition write_typed (w : write) : Prop :=
  match w with
  | StorageNode a k _ | StorageGone a k => length a = 32%nat
  | StateNode k _ | StateGone _ k | Record k _ | RecordGone k => length k = 32%nat
  | Position _ => True
  end.
(** The write sets the value under the key in the area, or removes it ([None]) *)
Inductive sets : write -> area -> bytes -> option bytes -> Prop :=
| sets_storage a k v : sets (StorageNode a k v) (Storage a) k (Some v)
| sets_storage_gone a k : sets (StorageGone a k) (Storage a) k None
| sets_state k v : sets (StateNode k v) State k (Some v)
| sets_state_gone k : sets (StateGone true k) State k None
| sets_record k v : sets (Record k v) State k (Some v)
| sets_record_gone k : sets (RecordGone k) State k None
| sets_position v k : sets (Position v) Place k (Some v).
(** The last of the writes to this place, or none: then what was there before *)
Definition last_set (ws : list write) (before : option bytes) (ar : area) (k : bytes) (r : option bytes) : Prop :=
  (exists ws1 w ws2, ws = ws1 ++ w :: ws2 /\ sets w ar k r /\ forall w' r', In w' ws2 -> ~ sets w' ar k r') \/
  (r = before /\ forall w r', In w ws -> ~ sets w ar k r').
