(** Vocabulary for the distance properties. *)
From Verif Require Import Base.

(** A 32-byte identifier. *)
Definition id32 (x : bytes) : Prop := length x = 32%nat /\ bytes_ok x.

(** Lexicographic order on byte strings. *)
Fixpoint lex_lt (a b : bytes) : Prop :=
  match a, b with
  | x :: a', y :: b' => x < y \/ (x = y /\ lex_lt a' b')
  | [], _ :: _ => True
  | _, [] => False
  end.
