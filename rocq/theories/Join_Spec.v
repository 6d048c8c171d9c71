(** What is said about joining the network. *)
From Verif Require Import Base.
From Verif Require Import Hex_Model Distance_Model KBucket_Model KBucket_Spec.

(** What the generator of random numbers gives for a bucket *)
Definition drawn (idx : N) (d : bytes * N) : Prop := length (fst d) = 32%nat /\ bytes_ok (fst d) /\ random_choice_ok (255 - idx) (snd d).
(** The logarithmic distance of two nodes, 1 to 256; each is that of half as many ids as the next *)
Definition log_distance (a b d : N) : Prop := 2 ^ (d - 1) <= N.lxor a b < 2 ^ d /\ 1 <= d <= 256.
(** The records of the [limit] connected peers nearest to a target, nearest first *)
Definition nearest_peers (t : table) (target limit : N) (l : list enr) : Prop :=
  (forall e, In e l -> connected_peer t e) /\
  StronglySorted (fun a b => N.lxor target (enr_id a) < N.lxor target (enr_id b)) l /\
  blen l <= limit /\ (blen l < limit -> forall e, connected_peer t e -> In e l) /\
  forall e x, connected_peer t e -> ~ In e l -> In x l -> N.lxor target (enr_id x) < N.lxor target (enr_id e).
