(** What was sent. *)
From Coq Require Import QArith.
From Verif Require Import Base Download_Model.

(** The body, if no piece is an error *)
Fixpoint body_of (l : list piece) : option bytes :=
  match l with [] => Some [] | p :: l => match p_data p, body_of l with Some c, Some b => Some (c ++ b) | _, _ => None end end.
(** [f] is made of the first pieces *)
Definition beginning (f : bytes) (l : list piece) : Prop := exists a b, l = a ++ b /\ body_of a = Some f.
