(** Tools of the bridge: /repo/bin/portal-bridge/src/utils.rs, bridge/offer_report.rs [OfferReport] and the pace of
    bridge/beacon.rs:108-134, 484-560.

    Ids are numbers of 256 bits.  The random keys, the readings of the clock, the answers of peers and the order of a [HashMap]
    are arguments.  Times are numbers of nanoseconds since the genesis of the beacon chain; an [Interval] of tokio is modelled by
    what its documentation says. *)
From Verif Require Import Base Wire_Model AcceptCodes_Model.

Section Keys.
Context {K : Type}.
(** The first byte of an id *)
Definition first_byte (id : N) : N := id / 2 ^ 248.
(** utils.rs:33-38: the bytes that are aimed at *)
Fixpoint prefixes (step n : nat) (root : N) : list N :=
  match n with O => [] | S n => let p := (root + N.of_nat step) mod 256 in p :: prefixes step n p end.
(** utils.rs:40-46: draw until the first byte is the one aimed at; [None]: it goes on *)
Fixpoint draw (p : N) (draws : list (N * K)) : option (N * K * list (N * K)) :=
  match draws with
  | [] => None
  | (id, k) :: draws => if first_byte id =? p then Some ((id, k), draws) else draw p draws
  end.
Fixpoint draw_all (ps : list N) (draws : list (N * K)) : option (list (N * K)) :=
  match ps with
  | [] => Some []
  | p :: ps => match draw p draws with
               | Some (x, draws) => match draw_all ps draws with Some l => Some (x :: l) | None => None end
               | None => None
               end
  end.
(** utils.rs:18-47 [generate_spaced_private_keys]; [id_of]: the id of a key that is given, if it is one.  [u8::MAX / count] is
    computed in the loop only, so not for a count of 0. *)
Definition spaced_keys (id_of : K -> option N) (count : N) (root : option K) (draws : list (N * K)) : outcome (option (list (N * K))) :=
  let go (r : N * K) draws :=
    let n := N.to_nat (count - 1) in
    let step := N.to_nat (255 / count) in
    match draw_all (prefixes step n (first_byte (fst r))) draws with Some l => Some (r :: l) | None => None end in
  match root with
  | Some k => match id_of k with Some id => Ok (go (id, k) draws) | None => Panic end
  | None => match draws with r :: draws => Ok (go r draws) | [] => Ok None end
  end.
End Keys.

(** network_spec.rs:131-150 and utils.rs:54-70.  [now 0] is the reading in [current_slot], [now (S i)] that of the i-th round. *)
Definition second : N := 10 ^ 9.
Definition slot_length : N := 12 * second.
Definition current_slot (t : N) : N := t / second / 12.
Definition slot_time (slot : N) : N := slot_length * (slot mod 2 ^ 32).
Fixpoint wait_loop (fuel : nat) (now : nat -> N) (i : nat) (next : N) : option (nat * N) :=
  match fuel with
  | O => None
  | S fuel => if now i <=? next then Some (i, next - now i) else wait_loop fuel now (S i) (next + slot_length)
  end.
Definition until_next_update (fuel : nat) (now : nat -> N) : option (nat * N) :=
  wait_loop fuel now 1 (slot_time (current_slot (now 0%nat)) + 4 * second).

(** beacon.rs:116-134: [interval_at(start, 12 s)] with [MissedTickBehavior::Skip].  [late k] is how late the k-th tick comes.  A tick
    that is more than 5 ms late is followed by the next multiple of the period that is still to come. *)
Definition tolerance : N := 5 * 10 ^ 6.
Definition next_tick (due now : N) : N :=
  if due + tolerance <? now then now + slot_length - (now - due) mod slot_length else due + slot_length.
Fixpoint due (start : N) (late : nat -> N) (k : nat) : N :=
  match k with O => start | S k => next_tick (due start late k) (due start late k + late k) end.
Definition tick (start : N) (late : nat -> N) (k : nat) : N := due start late k + late k.

(** offer_report.rs:52-102 [OfferReport]: [None] is [OfferTrace::Failed].  What is printed: how many accepted, of how many, who declined
    why, who failed. *)
Section Report.
Context {P : Type}.
Record offer_report := { total : N; accepted : N; declined : list (P * accept_code); failed : list P }.
Definition new_report (n : N) : offer_report := {| total := n; accepted := 0; declined := []; failed := [] |}.
Definition update (r : offer_report) (peer : P) (answer : option accept_code) : offer_report * option offer_report :=
  let r := match answer with
           | Some Accepted => {| total := total r; accepted := accepted r + 1; declined := declined r; failed := failed r |}
           | Some c => {| total := total r; accepted := accepted r; declined := declined r ++ [(peer, c)]; failed := failed r |}
           | None => {| total := total r; accepted := accepted r; declined := declined r; failed := failed r ++ [peer] |}
           end in
  (r, if total r =? accepted r + N.of_nat (length (failed r)) + N.of_nat (length (declined r)) then Some r else None).
Fixpoint updates (r : offer_report) (l : list (P * option accept_code)) : offer_report * list (option offer_report) :=
  match l with
  | [] => (r, [])
  | (p, a) :: l => let (r, o) := update r p a in let (r, os) := updates r l in (r, o :: os)
  end.
(** offer_report.rs:104-126 [decline_reason_summary] before it is written as text: the groups in the order in which their codes came; the code has them in
    any order *)
Fixpoint add_to (c : accept_code) (p : P) (g : list (accept_code * list P)) : list (accept_code * list P) :=
  match g with
  | [] => [(c, [p])]
  | (d, l) :: g => if code_eqb c d then (d, l ++ [p]) :: g else (d, l) :: add_to c p g
  end.
Definition groups (l : list (P * accept_code)) : list (accept_code * list P) := fold_left (fun g '(p, c) => add_to c p g) l [].
End Report.
