(** What the light client is to ask for. *)
From Verif Require Import Base Merkle_Spec Header_Spec LightClient_Model LightClient_Spec LcSync_Model.

(** The source has given this update, or this bootstrap for the root, at some time *)
Definition answered (s : source) (now : N) (u : update) : Prop :=
  exists h, (exists p n l, on_updates s h p n = Some l /\ In (now, u) l) \/ on_finality s h = Some (now, u) \/ on_optimistic s h = Some (now, u).
Definition booted (s : source) (root : bytes) (b : bootstrap_data) : Prop := exists h now, on_bootstrap s h root = Some (now, b).
(** All that is fetched comes from the source *)
Definition came_from (s : source) (root : bytes) (f : fetched) : Prop :=
  (forall now u, fetched_in f now u -> answered s now u) /\ (forall b, booted_by f b -> booted s root b).
(** Answers of the Rust types *)
Definition source_typed (s : source) : Prop :=
  (forall now u, answered s now u -> update_typed u) /\
  (forall r b, booted s r b -> header_typed (bs_header b) /\ committee_typed (bs_committee b) /\ Forall len32 (bs_branch b)).
(** The periods from [a] on, before [b], in order *)
Definition periods_between (a b : N) (ps : list N) : Prop := StronglySorted N.lt ps /\ forall p, In p ps <-> a <= p < b.
(** The questions of a sync: the network is asked for each period from that of the checkpoint until now, a provider for all at once. *)
Definition questions (s : source) (root : bytes) (ps : list N) (first : N) : list asked :=
  ABootstrap root :: (if portal s then map (fun p => AUpdates p 1) ps else [AUpdates first 128]) ++ [AFinality; AOptimistic].
