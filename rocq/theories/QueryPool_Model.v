(** The pool of running lookups, /repo/crates/portalnet/src/find/query_pool.rs, and the choice
    of log distances, /repo/crates/portalnet/src/find/query_info.rs:98-126. *)
From Verif Require Import Base.
From Verif Require Import Distance_Model Query_Model.

Section Pool.
(** The lookups: any type with [poll] (which does not panic, C31) and an overall timeout. *)
Context {Q : Type} (qpoll : Q -> N -> Q * query_state) (overall_timeout : Q -> N).

(** query_pool.rs:41-45; the start of a lookup is kept in the lookup itself in the code
    ([Query::start], [Query::started]).  The information kept with a lookup is left out. *)
Record entry := { e_id : N; e_started : option N; e_query : Q }.
Record pool := { next_id : N; entries : list entry }.

(** query_pool.rs:93-99 [new] *)
Definition new_pool : pool := {| next_id := 0; entries := [] |}.
Definition remove_id (id : N) (l : list entry) : list entry := filter (fun e => negb (e_id e =? id)) l.
(** query_pool.rs:107-112 [add_query]; ids are machine words. *)
Definition add_query (p : pool) (q : Q) : pool * N :=
  ({| next_id := (next_id p + 1) mod 2 ^ 64;
      entries := {| e_id := next_id p; e_started := None; e_query := q |} :: remove_id (next_id p) (entries p) |},
   next_id p).
(** query_pool.rs:115-117 [get_mut] and a change of the lookup through it. *)
Definition change_query (p : pool) (id : N) (f : Q -> Q) : pool :=
  {| next_id := next_id p;
     entries := map (fun e => if e_id e =? id then {| e_id := e_id e; e_started := e_started e; e_query := f (e_query e) |} else e)
                    (entries p) |}.

Inductive pool_event := PContact (id peer : N) | PValidate (id peer : N) | PFinished (id : N) | PTimeout (id : N).
(** query_pool.rs:127-156: the loop of [poll] over the lookups, in the order of the list. *)
Fixpoint poll_loop (now : N) (l : list entry) : list entry * option pool_event :=
  match l with
  | [] => ([], None)
  | e :: r =>
      let started := match e_started e with Some s => s | None => now end in
      let (q', s) := qpoll (e_query e) now in
      let e' := {| e_id := e_id e; e_started := Some started; e_query := q' |} in
      match s with
      | QFinished => (e' :: r, Some (PFinished (e_id e)))
      | QValidating peer => (e' :: r, Some (PValidate (e_id e) peer))
      | QWaiting (Some peer) => (e' :: r, Some (PContact (e_id e) peer))
      | QWaiting None | QAtCapacity =>
          if overall_timeout q' <=? now - started then (e' :: r, Some (PTimeout (e_id e)))
          else let (r', x) := poll_loop now r in (e' :: r', x)
      end
  end.

(** query_pool.rs:60-84 [QueryPoolState] *)
Inductive pool_state :=
  | SIdle
  | SWaiting (request : option (N * N))
  | SValidating (id peer : N)
  | SFinished (id : N) (q : option Q)
  | STimeout (id : N) (q : option Q).
Definition query_of (id : N) (l : list entry) : option Q :=
  match filter (fun e => e_id e =? id) l with e :: _ => Some (e_query e) | [] => None end.
(** query_pool.rs:120-195 [poll].  [shuffled] is the order in which the map is traversed, an
    arbitrary permutation of the lookups. *)
Definition pool_poll (p : pool) (now : N) (shuffled : list entry) : pool * pool_state :=
  let (l, ev) := poll_loop now shuffled in
  let keep := {| next_id := next_id p; entries := l |} in
  let without id := {| next_id := next_id p; entries := remove_id id l |} in
  match ev with
  | Some (PContact id peer) => (keep, SWaiting (Some (id, peer)))
  | Some (PValidate id peer) => (keep, SValidating id peer)
  | Some (PFinished id) => (without id, SFinished id (query_of id l))
  | Some (PTimeout id) => (without id, STimeout id (query_of id l))
  | None => (keep, match l with [] => SIdle | _ => SWaiting None end)
  end.
End Pool.
Arguments entry : clear implicits.
Arguments pool : clear implicits.
Arguments pool_state : clear implicits.
Arguments new_pool {Q}.

(** query_info.rs:98-126 [findnode_log2distance].  Distances are 16-bit numbers in the code; they
    stay below 400 here.  The log distance of [discv5] keys is that of [Distance_Model.v].  The
    loop gets a bound on its number of iterations; it ends before (C37). *)
Fixpoint log_distances_loop (fuel : nat) (d size diff : N) (l : list N) : list N :=
  match fuel with
  | O => l
  | S fuel' =>
      if blen l <? size then
        let l := if d + diff <=? 256 then l ++ [d + diff] else l in
        let l := if blen l <? size then (if diff <=? d then l ++ [d - diff] else l) else l in
        log_distances_loop fuel' d size (diff + 1) l
      else l
  end.
Definition findnode_log2distance (target peer size : N) : outcome (option (list N)) :=
  if 127 <? size then Panic
  else
    match log2 (N.lxor peer target) with
    | None => Ok None
    | Some d =>
        let l := log_distances_loop 128 d size 1 [d] in
        (* slicing panics if the list is too short *)
        if blen l <? size then Panic else Ok (Some (firstn (N.to_nat size) l))
    end.
