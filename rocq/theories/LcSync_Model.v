(** What the light client asks for while it syncs and advances, in which order: /repo/crates/light-client/src/consensus/consensus_client.rs:118-219 and
    node.rs:54-72.  The source (a provider or the portal network, LcRpc_Model) is an argument: what it answers to a question after all questions before, with the slot
    of the clock when the answer is checked; [None] is an error.  What is done with the answers is in LightClient_Model. *)
From Verif Require Import Base Merkle_Model Header_Model LightClient_Model.

Inductive asked := AChain | ABootstrap (root : bytes) | AUpdates (start count : N) | AFinality | AOptimistic.
Record source := {
  portal : bool;                                                    (* [name()] is "portal" *)
  slot_now : list asked -> N;                                       (* [expected_current_slot()] *)
  on_chain : list asked -> bool;                                    (* [check_rpc] *)
  on_bootstrap : list asked -> bytes -> option (N * bootstrap_data);
  on_updates : list asked -> N -> N -> option (list (N * update));
  on_finality : list asked -> option (N * update);
  on_optimistic : list asked -> option (N * update) }.

(** consensus_client.rs:130-136 *)
Fixpoint ask_periods (s : source) (h : list asked) (ps : list N) : list asked * option (list (N * update)) :=
  match ps with
  | [] => (h, Some [])
  | p :: ps =>
      match on_updates s h p 1 with
      | None => (h ++ [AUpdates p 1], None)
      | Some l => let (h, o) := ask_periods s (h ++ [AUpdates p 1]) ps in (h, option_map (app l) o)
      end
  end.
(** The range [a..b] without its end *)
Definition range (a b : N) : list N := map (fun i => a + N.of_nat i) (seq 0 (N.to_nat (b - a))).
(** consensus_client.rs:121-144 *)
Definition ask_updates (s : source) (h : list asked) (first : N) : list asked * option (list (N * update)) :=
  if portal s then ask_periods s h (range first (period (slot_now s h)))
  else (h ++ [AUpdates first 128], on_updates s h first 128).

Section Crypto.
Context (sha : bytes -> bytes) {key : Type} (parse_key : bytes -> option key) (aggregate_verify : list key -> bytes -> bytes -> bool).
Notation process := (process sha parse_key aggregate_verify).
Notation process_all := (process_all sha parse_key aggregate_verify).
Definition result : Type := list asked * (client * outcome unit).
(** The operator [?] *)
Definition on_ok (r : result) (k : list asked -> client -> result) : result :=
  match snd (snd r) with Ok _ => k (fst r) (fst (snd r)) | _ => r end.
(** consensus_client.rs:151-163, 174-190 *)
Definition ask_latest (cf : config) (s : source) (h : list asked) (c : client) : result :=
  on_ok (h ++ [AFinality], match on_finality s h with Some x => process cf c x | None => (c, Ok tt) end) (fun h c =>
  (h ++ [AOptimistic], match on_optimistic s h with Some x => process cf c x | None => (c, Err) end)).
(** consensus_client.rs:118-171 [sync] with 211-256 [bootstrap] *)
Definition sync_with (cf : config) (s : source) (h : list asked) (c : client) : result :=
  on_ok (h ++ [ABootstrap (initial_checkpoint c)],
         match on_bootstrap s h (initial_checkpoint c) with Some (now, b) => bootstrap sha cf c now b | None => (c, Err) end) (fun h c =>
  let (h, o) := ask_updates s h (period (b_slot (finalized (lc_store c)))) in
  on_ok (h, match o with Some l => process_all cf c l | None => (c, Err) end) (fun h c => ask_latest cf s h c)).
(** consensus_client.rs:173-209 [advance] *)
Definition advance_with (cf : config) (s : source) (h : list asked) (c : client) : result :=
  on_ok (ask_latest cf s h c) (fun h c =>
  match next_known (lc_store c) with
  | Some _ => (h, (c, Ok tt))
  | None =>
      let p := period (b_slot (finalized (lc_store c))) in
      (h ++ [AUpdates p 1],
       match on_updates s h p 1 with
       | None => (c, Err)
       | Some [x] => match process cf c x with
                     | (c', Ok _) => (c', Ok tt)
                     | (_, Err) => (c, Ok tt)
                     | (_, Panic) => (c, Panic)
                     end
       | Some _ => (c, Ok tt)
       end)
  end).
(** node.rs:54-64 [sync]; [check_rpc] of the portal network asks nothing, but it is in the list all the same *)
Definition node_sync (cf : config) (s : source) (h : list asked) (c : client) : result :=
  if on_chain s h then sync_with cf s (h ++ [AChain]) c else (h ++ [AChain], (c, Err)).
(** A start that succeeds and the advances after it, each with what the source answers then *)
Fixpoint advances (cf : config) (ss : list source) (h : list asked) (c : client) : list asked * client :=
  match ss with
  | [] => (h, c)
  | s :: ss => let r := advance_with cf s h c in advances cf ss (fst r) (fst (snd r))
  end.
End Crypto.
