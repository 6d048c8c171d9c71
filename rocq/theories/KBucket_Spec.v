(** Vocabulary for statements about the routing table. *)
From Verif Require Import Base.
From Verif Require Import KBucket_Model.

Section Spec.
Variable local : N.

(** Histories of the service from an empty table, with any behaviour of the [discv5] table. *)
Inductive reach : service -> list op -> Prop :=
  | R_start : reach {| tbl := []; queue := [] |} []
  | R_step st t o : reach st t -> (forall t', o = Bucket t' -> drift (tbl st) t') ->
      reach (fst (step local st o)) (t ++ [o]).

Definition has_peer (t : table) (s : slot) : Prop := In s t.
(** The record [e] belongs to a peer of the table that is connected (and not waiting for a
    place). *)
Definition connected_peer (t : table) (e : enr) : Prop :=
  exists s, In s t /\ s_connected s = true /\ s_pending s = false /\ n_enr (s_node s) = e.
Definition entry_of (t : table) (id : N) (n : node) : Prop := exists s, In s t /\ s_node s = n /\ enr_id (n_enr n) = id.

(** What a user of the node does by hand, and the records given at the start. *)
Definition by_hand (o : op) : Prop := match o with AddEnr _ _ | Bootnode _ _ _ => True | _ => False end.
Definition one_record (o : op) : Prop := match o with Discovered l => exists x, l = [x] | _ => True end.
(** The radius a message reports. *)
Definition radius_in (x : extension) : N :=
  match x with XCapabilities r _ | XBasicRadius r | XHistoryRadius r _ => r end.
End Spec.
