(** Histories of one lookup of nodes. *)
From Verif Require Import Base Query_Model Query_Spec QueryPool_Model KBucket_Model NodeLookup_Model.

(** What an observer of the service writes down: which nodes were asked, with which record and for which distances; which nodes were
    to be contacted and were not; polls that led to nothing; and the answers *)
Inductive line := LAsked (n : N) (e : enr) (distances : list N) (now : N) | LSkipped (n : N) (now : N) | LIdle (now : N) (s : query_state) | LAnswer (source : N) (enrs : list enr).
(** The same in the vocabulary of lookups (Query_Spec) *)
Definition events (l : line) : list event :=
  match l with
  | LAsked n _ _ now => [EPoll now (QWaiting (Some n))]
  | LSkipped n now => [EPoll now (QWaiting (Some n)); EFailure n]
  | LIdle now s => [EPoll now s]
  | LAnswer source enrs => [ESuccess source (ClosestNodes (map enr_id enrs))]
  end.
Definition transcript (t : list line) : list event := flat_map events t.
(** The discovery and the routing table hold records under the ids of their nodes *)
Definition honest (w : surroundings) : Prop :=
  (forall n e, discovery w n = Some e -> enr_id e = n) /\ (forall n e, table_record w n = Some e -> enr_id e = n).
(** A lookup that runs.  The last rule is for the lookup that has just ended. *)
Inductive ran (local : N) (c : config) (per_peer target : N) (closest : list enr) : lookup -> list line -> Prop :=
| R_start lk : init_find_nodes_query c target closest = Some lk -> ran local c per_peer target closest lk []
| R_asked lk t w now lk' e ds : ran local c per_peer target closest lk t -> honest w ->
    poll_lookup per_peer w lk now = Ok (lk', Ask e ds) -> ran local c per_peer target closest lk' (t ++ [LAsked (enr_id e) e ds now])
| R_skipped lk t w now lk' n : ran local c per_peer target closest lk t -> honest w ->
    poll_lookup per_peer w lk now = Ok (lk', Skip n) -> ran local c per_peer target closest lk' (t ++ [LSkipped n now])
| R_idle lk t w now lk' s : ran local c per_peer target closest lk t -> honest w ->
    poll_lookup per_peer w lk now = Ok (lk', Nothing s) -> ran local c per_peer target closest lk' (t ++ [LIdle now s])
| R_answer lk t source enrs lk' : ran local c per_peer target closest lk t ->
    advance_lookup local lk source enrs = Ok lk' -> ran local c per_peer target closest lk' (t ++ [LAnswer source enrs]).
(** All the records that the lookup was told, in order *)
Definition told (closest : list enr) (t : list line) : list enr :=
  closest ++ flat_map (fun l => match l with LAnswer _ enrs => enrs | _ => [] end) t.
(** The first record of a node in a list *)
Definition first_record (n : N) (l : list enr) (e : enr) : Prop :=
  exists a b, l = a ++ e :: b /\ enr_id e = n /\ ~ In n (map enr_id a).
