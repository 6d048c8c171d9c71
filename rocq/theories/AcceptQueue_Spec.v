(** Vocabulary for the accept queue properties, about recorded histories only. *)
From Verif Require Import Base AcceptQueue_Model.

Definition event := (op * out)%type.

(** The key was accepted from this peer. *)
Definition accepted (k : bytes) (p : enr) (e : event) : Prop :=
  exists now c, e = (Offer now c k p, OfferResult true).
(** The key was offered by this peer and refused because a transfer is in progress. *)
Definition refused (k : bytes) (p : enr) (e : event) : Prop :=
  exists now c, e = (Offer now c k p, OfferResult false).
(** The transfer of the key ended: it was completed or reported as failed. *)
Definition ends (k : bytes) (e : event) : Prop :=
  match fst e with Done k' => k' = k | Failed _ k' => k' = k | Offer _ _ _ _ => False end.

(** [h] ends with a transfer of [k] in progress that was accepted from [p] at time [t];
    [since] is what happened since it was accepted. *)
Definition in_progress (h : list event) (k : bytes) (p : enr) (t : N) (since : list event) : Prop :=
  exists before c, h = before ++ (Offer t c k p, OfferResult true) :: since /\
    (forall e, In e since -> ~ ends k e) /\ (forall e p', In e since -> ~ accepted k p' e).

(** Time of the most recent offer of [k] in a history (default [t]). *)
Fixpoint last_offer (k : bytes) (t : N) (h : list event) : N :=
  match h with
  | [] => t
  | (Offer now _ k' _, _) :: h' => last_offer k (if beqb k' k then now else t) h'
  | _ :: h' => last_offer k t h'
  end.

(** Some offer arrived 120 seconds or more after the then most recent offer of [k]: only
    then may the entry have been dropped because of its age. *)
Definition timed_out (k : bytes) (t : N) (since : list event) : Prop :=
  exists s1 now c k' p' r s2, since = s1 ++ (Offer now c k' p', r) :: s2 /\
    last_offer k t s1 + 120000 <= now.
