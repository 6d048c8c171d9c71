(** Words for the property about the check of snapshots. *)
From Verif Require Import Base Trie_Model StateContent_Model EraFiles_Model ExecDb_Model ExecSnap_Model SnapStats_Model.

(** Numbers that grow from [last] on. *)
Fixpoint growing (last : N) (l : list N) : Prop :=
  match l with [] => True | x :: l => last < x /\ growing x l end.
Definition number_of {V} (x : bytes * V) : N := be_num (fst x).
(** An account with its storage, in parts. *)
Definition group : Type := account_entry * list (list (bytes * N)).
Definition written (g : group) : list snap_item := Account (fst g) :: map Storage (snd g).
(** All parts but the last are full. *)
Definition full (parts : list (list (bytes * N))) : Prop := forall p, In p (removelast parts) -> blen p = 10000000.
Definition good_group (keccak : bytes -> bytes) (g : group) : Prop :=
  code_hash (ae_state (fst g)) = keccak (ae_code (fst g))
  /\ blen (snd g) = ae_count (fst g)
  /\ full (snd g)
  /\ growing 0 (map number_of (concat (snd g))).
Definition good_file (keccak : bytes -> bytes) (gs : list group) : Prop :=
  growing 0 (map (fun g => be_num (ae_hash (fst g))) gs) /\ forall g, In g gs -> good_group keccak g.
(** What is counted. *)
Definition numbers (gs : list group) : stats :=
  {| account_count := blen gs;
     bytecode_count := blen (filter (fun g => match ae_code (fst g) with [] => false | _ => true end) gs);
     storage_entry_count := blen (concat (map snd gs));
     storage_item_count := blen (concat (concat (map snd gs))) |}.
