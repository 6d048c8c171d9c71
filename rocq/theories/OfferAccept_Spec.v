(** Vocabulary for the offer properties. *)
From Verif Require Import Base AcceptCodes_Model.

(** The elements of [l] whose code is "accepted", in order. *)
Fixpoint select_accepted {A} (codes : list accept_code) (l : list A) : list A :=
  match codes, l with
  | Accepted :: cs, x :: l' => x :: select_accepted cs l'
  | _ :: cs, _ :: l' => select_accepted cs l'
  | _, _ => []
  end.
