(** Merkle roots, defined on the list of leaves alone. *)
From Verif Require Import Base.

Section Sha.
Context (sha : bytes -> bytes).

(** The root of the complete binary tree of depth [d] over the leaves, filled up with leaves
    of 32 zero bytes. *)
Fixpoint merkle_root (d : nat) (leaves : list bytes) : bytes :=
  match d with
  | O => nth 0 leaves (repeat 0 32)
  | S d' => sha (merkle_root d' (firstn (2 ^ d') leaves) ++ merkle_root d' (skipn (2 ^ d') leaves))
  end.

(** What is hashed when the root of that tree is computed, and when a proof is checked. *)
Fixpoint hashed_by_tree (d : nat) (leaves : list bytes) : list bytes :=
  match d with
  | O => []
  | S d' =>
      let l := firstn (2 ^ d') leaves in
      let r := skipn (2 ^ d') leaves in
      (merkle_root d' l ++ merkle_root d' r) :: hashed_by_tree d' l ++ hashed_by_tree d' r
  end.
Fixpoint hashed_by_proof (leaf : bytes) (branch : list bytes) (index : N) : list bytes :=
  match branch with
  | [] => []
  | h :: rest =>
      let x := if N.odd index then h ++ leaf else leaf ++ h in
      x :: hashed_by_proof (sha x) rest (N.div2 index)
  end.

(** Two different inputs with the same hash. *)
Definition collision (x y : bytes) : Prop := x <> y /\ sha x = sha y.
End Sha.

Definition len32 (x : bytes) : Prop := length x = 32%nat.
