(** How a node joins the network and keeps its routing table filled: /repo/crates/portalnet/src/overlay/service/manager.rs, bootnodes.rs.

    The table and the queue of pings are those of KBucket_Model, random ids those of Hex_Model, lookups those of NodeLookup_Model.
    Random numbers are arguments: for each bucket the bytes drawn and the choice for the first one.  A lookup is represented by its
    target and the nodes it starts with. *)
From Verif Require Import Base.
From Verif Require Import Hex_Model Distance_Model KBucket_Model Args_Model.

(** bootnodes.rs:88-95 [Bootnodes] and 97-119 [to_enrs]; [default_of]: the lists of bootnodes.rs:25-85 *)
Inductive bootnodes := Default | NoBootnodes | Custom (l : list enr).
Definition to_enrs (default_of : network -> list enr) (b : bootnodes) (n : network) : list enr :=
  match b with Default => default_of n | NoBootnodes => [] | Custom l => l end.

(** manager.rs:76 *)
Definition expected_non_empty : nat := 17.
Section Join.
(** the local node id, and [query_num_results] *)
Context (local limit : N).
(** find_nodes.rs:209-225: the lookup, unless there are no nodes to start with *)
Definition start_lookup (t : table) (target : N) : list (N * list enr) :=
  match closest target limit t with [] => [] | l => [(target, l)] end.
(** node_id.rs:9-18 *)
Definition random_id (idx : N) (draw : bytes * N) : N := be_num (generate_random_node_id idx (be_bytes 32 local) (fst draw) (snd draw)).
(** manager.rs:227-232: the targets of the lookups at the start *)
Definition initial_targets (draw : N -> bytes * N) : list N :=
  local :: map (fun i => random_id (N.of_nat i) (draw (N.of_nat i))) (seq (255 - expected_non_empty) expected_non_empty).
(** manager.rs:176-219 with [set_connected = false] *)
Definition add_bootnodes (st : service) (l : list (enr * fate)) : service :=
  fold_left (fun st x => add_bootnode local st (fst x) false (snd x)) l st.
(** manager.rs:222-233 [initialize_routing_table] *)
Definition initialize_routing_table (st : service) (l : list (enr * fate)) (draw : N -> bytes * N) : service * list (N * list enr) :=
  let st := add_bootnodes st l in (st, flat_map (start_lookup (tbl st)) (initial_targets draw)).
(** manager.rs:321-343 [bucket_refresh_lookup]; [bucket] was drawn from [256 - 17 .. 256] *)
Definition bucket_refresh_lookup (st : service) (bucket : N) (draw : bytes * N) : list (N * list enr) :=
  if bucket <? 256 then start_lookup (tbl st) (random_id bucket draw) else [].
End Join.
