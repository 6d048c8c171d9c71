(** The order of names and what a bucket has. *)
From Verif Require Import Base FileNames_Model.

(** [a] comes before [b] in a list of names: the first byte that differs is smaller, or [a] ends first *)
Definition before (a b : bytes) : Prop :=
  (exists p x y s t, a = p ++ x :: s /\ b = p ++ y :: t /\ x < y) \/ (exists y t, b = a ++ y :: t).
(** The hash of a block or of a state, as bytes *)
Definition hash_bytes (h : bytes) : Prop := Forall (fun x => x < 256) h.
(** Nothing but history files with numbers below [limit] *)
Definition history_names (limit : N) (names : list bytes) : Prop := forall x, In x names -> exists i h, hash_bytes h /\ i < limit /\ x = e2hs_name i h.
