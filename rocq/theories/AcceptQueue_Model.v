(** The queue of content keys that are being transferred:
    /repo/crates/portalnet/src/accept_queue.rs. *)
From Verif Require Import Base.

(** A peer record.  [Enr] equality (enr crate) compares sequence number, node id and
    signature; the rest of the record is determined by the signature. *)
Record enr := mk_enr { enr_node : N; enr_seq : N; enr_sig : N }.
Definition enr_eqb (a b : enr) : bool :=
  (enr_seq a =? enr_seq b) && (enr_node a =? enr_node b) && (enr_sig a =? enr_sig b).

(** accept_queue.rs:8 [OFFER_QUEUE_TIMEOUT], in milliseconds. *)
Definition offer_queue_timeout : N := 120000.

(** accept_queue.rs:11-16 [SeenPeers] together with its key and the deadline kept by
    [HashMapDelay]. *)
Record entry := mk_entry { e_key : bytes; e_origin : enr; e_fallback : list enr; e_deadline : N }.

(** accept_queue.rs:28-46.  The map is a list without repeated keys; the order is only
    used for the arbitrary choice of an expired element. *)
Definition queue := list entry.
Definition queue_default : queue := [].

Definition lookup (k : bytes) (q : queue) : option entry := find (fun e => beqb (e_key e) k) q.
(** [HashMapDelay::remove]. *)
Definition remove (k : bytes) (q : queue) : queue := filter (fun e => negb (beqb (e_key e) k)) q.

(** accept_queue.rs:58: the map is polled exactly once ([now_or_never]), which removes at
    most one expired element.  Which one, when several are expired, is decided by the timer
    wheel: [choice] is arbitrary.  An element is expired when its deadline is reached; the
    timer has a granularity of a millisecond, which is the unit of time here. *)
Definition poll_expired (now : N) (choice : nat) (q : queue) : queue :=
  let expired := filter (fun e => e_deadline e <=? now) q in
  match nth_error expired (Nat.modulo choice (length expired)) with
  | Some e => remove (e_key e) q
  | None => q
  end.

(** accept_queue.rs:56-81 [add_key_to_queue] *)
Definition add_key_to_queue (now : N) (choice : nat) (k : bytes) (peer : enr) (q : queue) : queue * bool :=
  let q := poll_expired now choice q in
  match lookup k q with
  | Some e =>
      let fallback :=
        if enr_eqb (e_origin e) peer || existsb (enr_eqb peer) (e_fallback e)
        then e_fallback e else e_fallback e ++ [peer] in
      (mk_entry k (e_origin e) fallback (now + offer_queue_timeout) :: remove k q, false)
  | None => (mk_entry k peer [] (now + offer_queue_timeout) :: q, true)
  end.

(** accept_queue.rs:84-86 [remove_key] *)
Definition remove_key (k : bytes) (q : queue) : queue := remove k q.

(** accept_queue.rs:91-106 [process_failed_key]; shuffling and taking the first element is
    taking an arbitrary element: [choice]. *)
Definition process_failed_key (choice : nat) (k : bytes) (q : queue) : queue * option enr :=
  match lookup k q with
  | Some e => (remove k q, nth_error (e_fallback e) (Nat.modulo choice (length (e_fallback e))))
  | None => (q, None)
  end.

(** The queue as a state machine. *)
Inductive op :=
| Offer (now : N) (choice : nat) (k : bytes) (peer : enr)
| Done (k : bytes)
| Failed (choice : nat) (k : bytes).
Inductive out := OfferResult (accepted : bool) | DoneResult | FailedResult (peer : option enr).

Definition step (q : queue) (o : op) : queue * out :=
  match o with
  | Offer now c k p => let (q', b) := add_key_to_queue now c k p q in (q', OfferResult b)
  | Done k => (remove_key k q, DoneResult)
  | Failed c k => let (q', r) := process_failed_key c k q in (q', FailedResult r)
  end.

(** The recorded history of a run: every operation with its result. *)
Fixpoint history (q : queue) (ops : list op) : list (op * out) :=
  match ops with
  | [] => []
  | o :: rest => let (q', r) := step q o in (o, r) :: history q' rest
  end.
Fixpoint final (q : queue) (ops : list op) : queue :=
  match ops with
  | [] => q
  | o :: rest => final (fst (step q o)) rest
  end.
