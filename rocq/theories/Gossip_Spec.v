(** Vocabulary for statements about gossip. *)
From Verif Require Import Base.
From Verif Require Import KBucket_Model Gossip_Model.

(** [s] are [k] elements of [l], or all of them, taken at different places. *)
Definition sample_of {A} (k : nat) (l s : list A) : Prop :=
  length s = Nat.min k (length l) /\ exists rest, Permutation (s ++ rest) l.

(** The connected peer with record [e] would take the content [x]. *)
Definition wants (t : table) (x : item) (e : enr) : Prop :=
  exists s, In s t /\ s_connected s = true /\ s_pending s = false /\ n_enr (s_node s) = e /\
    (i_by_radius x = true -> N.lxor (i_id x) (enr_id e) <= n_radius (s_node s)).
Definition distance_to (x : item) (e : enr) : N := N.lxor (i_id x) (enr_id e).
Definition raw (x : item) : bytes * bytes := (i_key x, i_value x).
