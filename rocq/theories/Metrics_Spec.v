(** Words for what a node reports. *)
From Coq Require Import ZArith.
From Verif Require Import Base Metrics_Model.

(** How many of [l] are such. *)
Definition count {A} (p : A -> bool) (l : list A) : N := N.of_nat (length (filter p l)).

(** The events of [l], one after the other, with others between them. *)
Inductive in_order {A} : list A -> list A -> Prop :=
| order_end l : in_order [] l
| order_take x l l' : in_order l l' -> in_order (x :: l) (x :: l')
| order_skip x l l' : in_order l l' -> in_order l (x :: l').

(** Transfers that have begun, by their direction *)
Definition begins_in (e : event) : bool := match e with Begin _ None => true | _ => false end.
Definition begins_out (e : event) : bool := match e with Begin _ (Some _) => true | _ => false end.
Definition begun_ids (l : list event) : list N := flat_map (fun e => match e with Begin id _ => [id] | _ => [] end) l.
(** Transfers that wait for the socket *)
Definition waits_in (x : N * phase) : bool := match snd x with ConnectingIn | Reading => true | _ => false end.
Definition waits_out (x : N * phase) : bool := match snd x with ConnectingOut _ | Writing _ | Closing => true | _ => false end.
(** What callers were told, and after which answer of the socket *)
Definition told_data (x : event * option answer) : bool := match x with (_, Some (Received _)) => true | _ => false end.
Definition told_no_stream (x : event * option answer) : bool := match x with (_, Some NoStream) => true | _ => false end.
Definition told_no_data (x : event * option answer) : bool := match x with (_, Some NoData) => true | _ => false end.
Definition told_sent (x : event * option answer) : bool := match x with (_, Some Sent) => true | _ => false end.
Definition told_unconnected (x : event * option answer) : bool := match x with (Connected _ _, Some NotSent) => true | _ => false end.
Definition told_unwritten (x : event * option answer) : bool := match x with (Wrote _ _, Some NotSent) => true | _ => false end.
Definition told_unclosed (x : event * option answer) : bool := match x with (Closed _ _, Some NotSent) => true | _ => false end.

(** Messages *)
Definition is_offer (r : request) : bool := match r with Offer | PopulatedOffer | PopulatedOfferWithResult => true | _ => false end.
Definition offer_sent (e : traffic) : bool := match e with Asks r => is_offer r | _ => false end.
Definition offer_received (e : traffic) : bool := match e with Asked r _ => is_offer r | _ => false end.
Definition accept_sent (e : traffic) : bool := match e with Asked _ (Some Accept) => true | _ => false end.
Definition accept_received (e : traffic) : bool := match e with Answered true (Some Accept) => true | _ => false end.
Definition found_valid (e : traffic) : bool := match e with Validated b => b | _ => false end.
Definition was_validated (e : traffic) : bool := match e with Validated _ => true | _ => false end.

Definition total (l : list Z) : Z := fold_right Z.add 0%Z l.

(** What must have happened for a caller to be told this *)
Definition explained (l : list event) (x : event * option answer) : Prop :=
  match x with
  | (_, None) => True
  | (e, Some (Received b)) => exists id, e = Read id (Some b) /\ in_order [Begin id None; Connected id true; e] l
  | (e, Some NoStream) => exists id, e = Connected id false /\ in_order [Begin id None; e] l
  | (e, Some NoData) => exists id, e = Read id None /\ in_order [Begin id None; Connected id true; e] l
  | (e, Some Sent) => exists id b, e = Closed id true /\ in_order [Begin id (Some b); Connected id true; Wrote id (Some (blen b)); e] l
  | (e, Some NotSent) => exists id b,
      e = Connected id false /\ in_order [Begin id (Some b); e] l \/
      (exists w, w <> Some (blen b) /\ e = Wrote id w /\ in_order [Begin id (Some b); Connected id true; e] l) \/
      e = Closed id false /\ in_order [Begin id (Some b); Connected id true; Wrote id (Some (blen b)); e] l
  end.

(** The transfer that an event is about *)
Definition about (e : event) : N := match e with Begin id _ | Connected id _ | Read id _ | Wrote id _ | Closed id _ => id end.

(** The slots that are heard of, and the updates *)
Definition slots_of (o : occurrence) : list N :=
  match o with
  | Update (ChainHead_Model.ProcessUpdate a f) | Update (ChainHead_Model.ProcessFinality a f) => [ChainHead_Model.hd_slot a; ChainHead_Model.hd_slot f]
  | Update (ChainHead_Model.ProcessOptimistic a) => [ChainHead_Model.hd_slot a]
  | Update (ChainHead_Model.UpdateSummaries _) => []
  | Tick c => [c]
  end.
Definition updates_of (l : list occurrence) : list ChainHead_Model.head_op := flat_map (fun o => match o with Update o => [o] | Tick _ => [] end) l.

(** The rows of the beacon store *)
Definition rows (s : BeaconStore_Model.bstore) : N :=
  blen (BeaconStore_Model.bootstraps s) + blen (BeaconStore_Model.updates s) + match BeaconStore_Model.sums_row s with Some _ => 1 | None => 0 end.

(** Each kind of message: what of the traffic is one that is sent, or one that is received and counted *)
Definition sends (k : label) (e : traffic) : bool :=
  match k, e with
  | LPing, Asks Ping | LFindNodes, Asks FindNodes | LFindContent, Asks FindContent
  | LOffer, Asks Offer | LOffer, Asks PopulatedOffer | LOffer, Asks PopulatedOfferWithResult
  | LPong, Asked _ (Some Pong) | LNodes, Asked _ (Some Nodes) | LContent, Asked _ (Some Content) | LAccept, Asked _ (Some Accept) => true
  | _, _ => false
  end.
Definition receives (k : label) (e : traffic) : bool :=
  match k, e with
  | LPing, Asked Ping _ | LFindNodes, Asked FindNodes _ | LFindContent, Asked FindContent _
  | LOffer, Asked Offer _ | LOffer, Asked PopulatedOffer _ | LOffer, Asked PopulatedOfferWithResult _
  | LPong, Answered true (Some Pong) | LNodes, Answered true (Some Nodes) | LContent, Answered true (Some Content) | LAccept, Answered true (Some Accept) => true
  | _, _ => false
  end.
