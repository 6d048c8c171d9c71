(** From the light client to the head of the chain:
    /repo/crates/light-client/src/consensus/consensus_client.rs (what is published), watch.rs (the three
    channels), /repo/crates/subnetworks/beacon/src/sync.rs (the start of the light client) and network.rs
    (the task that reads the channels and tells the head of the chain).

    A channel keeps the last value only, and whether the reader has seen it (tokio's [watch]).  The
    client and the reader run at the same time: what happens is any list of [op]s.  The calls of
    [process] in one [advance] (LightClient_Model) are separate [Arrive]s, so that the reader may run
    between them.  Of a light client header only its beacon header is public (chain_head/mod.rs:46-54);
    [rest] is what of it stands beside the slot.  Not modelled: the ticks for metrics. *)
From Verif Require Import Base Header_Model LightClient_Model.
From Verif Require ChainHead_Model.

(** watch.rs:7-24: one channel for each kind of update *)
Inductive kind := Full | Finality | Optimistic.
Definition kind_of (u : update) : kind :=
  match u with FullUpdate _ _ _ _ _ _ _ _ => Full | FinalityUpdate _ _ _ _ _ _ => Finality | OptimisticUpdate _ _ _ _ => Optimistic end.
Definition kind_eqb (a b : kind) : bool :=
  match a, b with Full, Full => true | Finality, Finality => true | Optimistic, Optimistic => true | _, _ => false end.
(** [tokio::sync::watch]: the last value, and whether it was sent after the reader last looked *)
Record channel := { value : option update; changed : bool }.
(** The light client with its channels and the head of the chain.  [said] is no part of the program: it lists all
    that was published since the reader subscribed. *)
Record node := { n_client : client; chan : kind -> channel; n_head : ChainHead_Model.chain_head; said : list update }.
Definition set_chan (f : kind -> channel) (k : kind) (c : channel) : kind -> channel := fun j => if kind_eqb j k then c else f j.

Section Follow.
Context (sha : bytes -> bytes) {key : Type} (parse_key : bytes -> option key) (aggregate_verify : list key -> bytes -> bytes -> bool).
Context (rest : bheader -> bytes) (cf : config).

(** A header as the head of the chain keeps it. *)
Definition kept (h : bheader) : ChainHead_Model.lc_header := {| ChainHead_Model.hd_slot := b_slot h; ChainHead_Model.hd_rest := rest h |}.

(** consensus_client.rs:378-408 and 428-438: the conditions under which an update is published *)
Definition moved (u : update) (old new : store) : bool :=
  match kind_of u with
  | Optimistic => b_slot (optimistic old) <? b_slot (optimistic new)
  | _ => (b_slot (optimistic old) <? b_slot (optimistic new)) || (b_slot (finalized old) <? b_slot (finalized new))
  end.
(** An update arrives at the client: it is checked, applied and published (consensus_client.rs:146-163, 174-209).  An error or a
    panic leaves everything as it is. *)
Definition arrive (n : node) (x : N * update) : node :=
  match process sha parse_key aggregate_verify cf (n_client n) x with
  | (c, Ok _) =>
      if moved (snd x) (lc_store (n_client n)) (lc_store c)
      then {| n_client := c; chan := set_chan (chan n) (kind_of (snd x)) {| value := Some (snd x); changed := true |};
              n_head := n_head n; said := said n ++ [snd x] |}
      else {| n_client := c; chan := chan n; n_head := n_head n; said := said n |}
  | (_, _) => n
  end.
(** network.rs:119-142 with chain_head/mod.rs:66-91 *)
Definition tell (h : ChainHead_Model.chain_head) (u : update) : ChainHead_Model.chain_head :=
  ChainHead_Model.head_step h
    (match u with
     | FullUpdate a _ _ f _ _ _ _ => ChainHead_Model.ProcessUpdate (kept a) (kept f)
     | FinalityUpdate a f _ _ _ _ => ChainHead_Model.ProcessFinality (kept a) (kept f)
     | OptimisticUpdate a _ _ _ => ChainHead_Model.ProcessOptimistic (kept a)
     end).
(** network.rs:116-142: a branch of the [select] is taken only if its channel has changed; the [expect] of the value *)
Definition handle (n : node) (k : kind) : outcome node :=
  if changed (chan n k) then
    match value (chan n k) with
    | None => Panic
    | Some u => Ok {| n_client := n_client n; chan := set_chan (chan n) k {| value := Some u; changed := false |};
                      n_head := tell (n_head n) u; said := said n |}
    end
  else Ok n.
(** The storage of the beacon subnetwork may bring historical summaries at any time (subnetworks/beacon/src/storage.rs:503-525). *)
Inductive op := Arrive (x : N * update) | Handle (k : kind) | Summaries (l : list summary).
Definition step (n : node) (o : op) : outcome node :=
  match o with
  | Arrive x => Ok (arrive n x)
  | Handle k => handle n k
  | Summaries l => Ok {| n_client := n_client n; chan := chan n; n_head := ChainHead_Model.head_step (n_head n) (ChainHead_Model.UpdateSummaries l); said := said n |}
  end.
Fixpoint run (n : node) (ops : list op) : outcome node :=
  match ops with [] => Ok n | o :: r => obind (step n o) (fun n => run n r) end.
(** network.rs:103 with watch.rs:27-33: a new reader takes what is in the channels as seen *)
Definition subscribe (c : client) (values : kind -> option update) (h : ChainHead_Model.chain_head) : node :=
  {| n_client := c; chan := fun k => {| value := values k; changed := false |}; n_head := h; said := [] |}.
End Follow.

(** sync.rs:45-66: up to [n] attempts, with a pause after each that fails; the state of the client is kept between them.  [try i c] is
    the i-th call of [start] (client.rs): the client after it, and whether it succeeded. *)
Fixpoint attempts {client : Type} (try : nat -> client -> client * bool) (n i : nat) (c : client) : option client * nat :=
  match n with
  | O => (None, i)
  | S n => let (c', ok) := try i c in if ok then (Some c', i) else attempts try n (S i) c'
  end.
Definition start {client : Type} (try : nat -> client -> client * bool) (c : client) : option client * nat := attempts try 10 0 c.
