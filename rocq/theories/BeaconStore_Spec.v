(** Vocabulary for the beacon store properties. *)
From Verif Require Import Base Ssz_Model Header_Model ChainHead_Model BeaconStore_Model.

Section Spec.
  Variable boot_view : fork -> bytes -> option lc_header.
  Variable update_view : fork -> bytes -> bool.
  Variable fin_view : fork -> bytes -> option (lc_header * lc_header).
  Variable opt_view : fork -> bytes -> option (lc_header * N).
  Variable sums_view : bytes -> option (N * list summary).
  Variable header_root : lc_header -> bytes.
  Notation step := (step boot_view update_view fin_view opt_view sums_view header_root).

  (** What a history writes to the store, in order. *)
  Definition written (n : node) (o : op) : list (beacon_key * bytes) :=
    match o with
    | Finish i => match nth_error (waiting n) i with Some kv => [kv] | None => [] end
    | UserStore k v => [(k, v)]
    | _ => []
    end.
  Fixpoint writes (embedded : chain_head) (n : node) (ops : list op) : list (beacon_key * bytes) :=
    match ops with
    | [] => []
    | o :: r => written n o ++ writes embedded (step embedded n o) r
    end.

  (** [item] is the update that content [v], written for the range that starts at [start], gives for
      the period [p]. *)
  Definition gives_update (start count : N) (v : bytes) (p : N) (item : bytes) : Prop :=
    exists l j, decode_updates update_view v = Ok l /\ nth_error l j = Some item /\
      p = start + N.of_nat j /\ N.of_nat j < count.
End Spec.

(** A newly started node with an empty database. *)
Definition new_node (h : chain_head) : node := {| st := empty_store h; waiting := [] |}.

(** Histories in which content is handled one item at a time. *)
Inductive one_at_a_time : list op -> Prop :=
  | one_nil : one_at_a_time []
  | one_arrive e k v r : one_at_a_time r -> one_at_a_time (Arrive e k v :: Finish 0 :: r)
  | one_prune t r : one_at_a_time r -> one_at_a_time (Prune t :: r).
