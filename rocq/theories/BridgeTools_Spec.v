(** Words for the property about the tools of the bridge. *)
From Verif Require Import Base AcceptCodes_Model BridgeTools_Model.

(** A time four seconds into a slot, in nanoseconds since genesis. *)
Definition update_time (t : N) : Prop := exists k, t = 12000000000 * k + 4000000000.
(** The first such time from [now] on, and the first after [now]. *)
Definition first_from (now t : N) : Prop := update_time t /\ now <= t /\ forall u, update_time u -> now <= u -> t <= u.
Definition first_after (now t : N) : Prop := update_time t /\ now < t /\ forall u, update_time u -> now < u -> t <= u.

(** The answers of one kind. *)
Definition accepts {P} (l : list (P * option accept_code)) : list P :=
  flat_map (fun x => match snd x with Some Accepted => [fst x] | _ => [] end) l.
Definition declines {P} (l : list (P * option accept_code)) : list (P * accept_code) :=
  flat_map (fun x => match snd x with Some Accepted => [] | Some c => [(fst x, c)] | None => [] end) l.
Definition failures {P} (l : list (P * option accept_code)) : list P :=
  flat_map (fun x => match snd x with None => [fst x] | _ => [] end) l.
(** What a report says about the answers. *)
Definition tells {P} (n : N) (l : list (P * option accept_code)) (r : @offer_report P) : Prop :=
  total r = n /\ accepted r = N.of_nat (length (accepts l)) /\ declined r = declines l /\ failed r = failures l.
