(** Lookups of nodes as the service runs them: /repo/crates/portalnet/src/overlay/service/find_nodes.rs, manager.rs.

    One lookup in the pool (which of them is polled is said in QueryPool_Model).  The search itself is that of Query_Model.
    What the service knows otherwise at a poll is an argument: the records of the discovery and of the routing table, and those
    of the other lookups in the two pools, before and after this one in the order of the maps. *)
From Verif Require Import Base Query_Model QueryPool_Model KBucket_Model.

Record surroundings := {
  discovery : N -> option enr; table_record : N -> option enr; earlier : list (list enr); later : list (list enr);
  timed_out : bool }.
(** query_info.rs:15-25 [QueryInfo] with the query; [distances_per_peer]: QueryType::FindNode, distances_to_request *)
Record lookup := { lk_query : query; lk_untrusted : list enr }.
Section Lookup.
(** the local node id, the settings of queries, the number of distances to ask for *)
Context (local : N) (c : config) (per_peer : N).

(** find_nodes.rs:209-263 [init_find_nodes_query]; [None]: the callback gets no records, and there is no lookup.
    [closest]: what the routing table returns (KBucket_Model) *)
Definition init_find_nodes_query (target : N) (closest : list enr) : option lookup :=
  match closest with
  | [] => None
  | _ => Some {| lk_query := new_query c target (map enr_id closest); lk_untrusted := closest |}
  end.
Definition has_id (n : N) (e : enr) : bool := enr_id e =? n.
(** manager.rs:812-848 [find_enr] *)
Definition find_enr (w : surroundings) (lk : lookup) (n : N) : option enr :=
  match discovery w n with
  | Some e => Some e
  | None =>
      match table_record w n with
      | Some e => Some e
      | None => find (has_id n) (concat (earlier w ++ [lk_untrusted lk] ++ later w))
      end
  end.
(** [SmallVec::swap_remove] at the first record of [n]: the last one takes its place *)
Fixpoint replace_first (n : N) (last : enr) (l : list enr) : list enr :=
  match l with [] => [] | e :: l => if has_id n e then last :: l else e :: replace_first n last l end.
Definition swap_remove (n : N) (l : list enr) : list enr := removelast (replace_first n (List.last l {| enr_id := 0; enr_seq := 0; enr_rest := [] |}) l).
(** find_nodes.rs:130-153: the records of the nodes found *)
Fixpoint collect (w : surroundings) (lk : lookup) (untrusted : list enr) (ids : list N) : list enr :=
  match ids with
  | [] => []
  | n :: ids =>
      match find (has_id n) untrusted with
      | Some e => e :: collect w lk (swap_remove n untrusted) ids
      | None => match find_enr w lk n with
                | Some e => e :: collect w lk untrusted ids
                | None => collect w lk untrusted ids
                end
      end
  end.
(** find_nodes.rs:128-165: what the callback gets.  The lookup is no longer in the pool when [find_enr] is called *)
Definition found (w : surroundings) (lk : lookup) : list enr :=
  collect w {| lk_query := lk_query lk; lk_untrusted := [] |} (lk_untrusted lk) (into_result (lk_query lk)).

(** What a poll of the lookup leads to: a node is asked; a node to be contacted is not asked; nothing; the end with these records *)
Inductive effect := Ask (e : enr) (distances : list N) | Skip (n : N) | Nothing (s : query_state) | Reply (l : list enr).
Definition failing (q : query) (n : N) (u : list enr) : outcome (lookup * effect) :=
  omap (fun q' => ({| lk_query := q'; lk_untrusted := u |}, Skip n)) (on_failure q n).
(** manager.rs:385-433 [query_event_poll] for this pool and find_nodes.rs:97-177 [handle_find_nodes_query_event];
    query_info.rs:64-83 [rpc_request] *)
Definition poll_lookup (w : surroundings) (lk : lookup) (now : N) : outcome (lookup * effect) :=
  obind (poll (lk_query lk) now) (fun x =>
    let (q, s) := x in
    let lk' := {| lk_query := q; lk_untrusted := lk_untrusted lk |} in
    match s with
    | QWaiting (Some n) =>
        obind (findnode_log2distance (q_target q) n per_peer) (fun ds =>
          match ds with
          | None => failing q n (lk_untrusted lk)
          | Some ds => match find_enr w lk' n with
                       | Some e => Ok (lk', Ask e ds)
                       | None => failing q n (lk_untrusted lk)
                       end
          end)
    | QFinished => Ok (lk', Reply (found w lk'))
    | _ => if timed_out w then Ok (lk', Reply (found w lk')) else Ok (lk', Nothing s)
    end).
(** find_nodes.rs:191-201: the record is added unless there is one of the same node, and that is not the local node *)
Definition add_untrusted (l : list enr) (e : enr) : list enr :=
  if existsb (fun x => (enr_id x =? enr_id e) && negb (enr_id x =? local)) l then l else l ++ [e].
(** find_nodes.rs:182-207 [advance_find_node_query] *)
Definition advance_lookup (lk : lookup) (source : N) (enrs : list enr) : outcome lookup :=
  omap (fun q => {| lk_query := q; lk_untrusted := fold_left add_untrusted enrs (lk_untrusted lk) |})
       (on_success (lk_query lk) source (map enr_id enrs)).
End Lookup.
