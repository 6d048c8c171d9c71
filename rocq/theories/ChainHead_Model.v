(** What the node takes to be the head of the beacon chain:
    /repo/crates/validation/src/chain_head/mod.rs and store.rs.

    The store is behind a lock and every public function takes the lock once, so calls from
    different tasks are a sequence of [step]s. *)
From Verif Require Import Base Header_Model.

(** A light client header: its slot and everything else in it. *)
Record lc_header := { hd_slot : N; hd_rest : bytes }.

(** store.rs:13-18 [ChainHeadStore] *)
Record chain_head := { latest : lc_header; finalized : lc_header; summaries : list summary }.

(** store.rs:34-40 *)
Definition update_latest_if_newer (s : chain_head) (h : lc_header) : chain_head :=
  if hd_slot (latest s) <? hd_slot h then {| latest := h; finalized := finalized s; summaries := summaries s |} else s.
(** store.rs:42-48 *)
Definition update_finalized_if_newer (s : chain_head) (h : lc_header) : chain_head :=
  if hd_slot (finalized s) <? hd_slot h then {| latest := latest s; finalized := h; summaries := summaries s |} else s.
(** store.rs:57-64 *)
Definition update_summaries_if_newer (s : chain_head) (l : list summary) : chain_head :=
  if blen (summaries s) <? blen l then {| latest := latest s; finalized := finalized s; summaries := l |} else s.
(** store.rs:50-55 [historical_summary] *)
Definition historical_summary (s : chain_head) (slot : N) : option summary :=
  match historical_summary_index slot with
  | None => None
  | Some i => nth_error (summaries s) (N.to_nat i)
  end.

(** mod.rs:66-97: the four ways to change it. *)
Inductive head_op :=
  | ProcessUpdate (attested final : lc_header)
  | ProcessOptimistic (attested : lc_header)
  | ProcessFinality (attested final : lc_header)
  | UpdateSummaries (l : list summary).
Definition head_step (s : chain_head) (o : head_op) : chain_head :=
  match o with
  | ProcessUpdate a f | ProcessFinality a f => update_finalized_if_newer (update_latest_if_newer s a) f
  | ProcessOptimistic a => update_latest_if_newer s a
  | UpdateSummaries l => update_summaries_if_newer s l
  end.
Definition head_run (s : chain_head) (ops : list head_op) : chain_head := fold_left head_step ops s.

(** mod.rs:35-44 [new_pectra_defaults]: both headers are the embedded one. *)
Definition new_head (h : lc_header) (l : list summary) : chain_head := {| latest := h; finalized := h; summaries := l |}.
