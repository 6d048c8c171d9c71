(** Vocabulary for the bridge of the beacon subnetwork. *)
From Verif Require Import Base Ssz_Model Merkle_Model Header_Model ChainHead_Model BeaconStore_Model BeaconBridge_Model.

Section Spec.
Context {peer : Type}.
Context (sha : bytes -> bytes) (enc_sums : N -> list summary -> list bytes -> bytes).
Notation world := (world peer).
Notation op := (op peer).
Notation offering := (offering peer).
Notation bridge := (bridge peer).

(** What was answered in the steps of an execution *)
Definition answered (ops : list op) (w : world) : Prop := exists i, In (Step i w) ops.
(** A value is what the client gave for a key; for a bootstrap, the client had named its root as
    the finalised one; an update is for the period on the clock. *)
Definition given (ops : list op) (k : beacon_key) (v : bytes) : Prop :=
  match k with
  | KBootstrap r => (exists w, answered ops w /\ w_block_root w = Some r) /\
      exists w b, answered ops w /\ w_boot w r = Some b /\ v = join_fork Electra (boot_ssz b)
  | KUpdates p count => count = 1 /\ (exists w, answered ops w /\ w_slot w / 8192 = p) /\
      exists w u rest, answered ops w /\ w_updates w p 1 = Some (u :: rest) /\ upd_slot u / 8192 = p /\
        v = encode_var_list [join_fork Electra (upd_ssz u)]
  | KFinality n => exists w u, answered ops w /\ w_fin w = Some u /\ hd_slot (fin_header u) = n /\ v = join_fork Electra (fin_ssz u)
  | KOptimistic n => exists w u, answered ops w /\ w_opt w = Some u /\ opt_slot u = n /\ v = join_fork Electra (opt_ssz u)
  | KSummaries e => exists w b, answered ops w /\ w_state w = Some b /\ st_slot b / 32 = e /\
      v = join_fork Electra (enc_sums e (st_summaries b) (summaries_branch sha b))
  end.

(** The keys of each type that were offered, in this order *)
Definition slots_offered (l : list offering) : list N := flat_map (fun o => match o_key o with KFinality n => [n] | _ => [] end) l.
Definition periods_offered (l : list offering) : list N := flat_map (fun o => match o_key o with KUpdates p _ => [p] | _ => [] end) l.
Definition roots_offered (l : list offering) : list bytes := flat_map (fun o => match o_key o with KBootstrap r => [r] | _ => [] end) l.
Definition epochs_offered (l : list offering) : list N := flat_map (fun o => match o_key o with KSummaries e => [e] | _ => [] end) l.
Definition no_repeat {A} (l : list A) : Prop := forall a x y b, l = a ++ x :: y :: b -> x <> y.

(** Tasks by type: finality updates and updates; bootstraps and summaries before they begin to
    load something new; and those that load it *)
Definition finality_task (t : task) : bool := match t with FinLoad | FinCompare _ | FinKeep _ => true | _ => false end.
Definition update_task (t : task) : bool := match t with UpdStart | UpdLoad _ | UpdKeep _ => true | _ => false end.
Definition bootstrap_deciding (t : task) : bool := match t with BootStart | BootAsk | BootCompare _ | BootMark _ | BootFailed => true | _ => false end.
Definition bootstrap_loading (t : task) : bool := match t with BootLoad _ | BootKeep _ | BootDone => true | _ => false end.
Definition summaries_deciding (t : task) : bool := match t with SumStart | SumAsk | SumCompare _ | SumMark _ => true | _ => false end.
Definition summaries_loading (t : task) : bool := match t with SumLoad _ | SumKeep _ | SumDone => true | _ => false end.
(** The census always selects peers. *)
Definition census_works (ops : list op) : Prop := forall w k, answered ops w -> w_peers w k <> None.
(** At every tick the tasks of a type that were started before have ended or passed a point. *)
Definition apart (is : task -> bool) (ops : list op) : Prop :=
  forall before after, ops = before ++ Tick :: after -> existsb is (tasks (run sha enc_sums start before)) = false.

(** The answers of the client are what they are when they are read back (SSZ). *)
Context (boot_view : fork -> bytes -> option lc_header) (update_view : fork -> bytes -> bool).
Context (fin_view : fork -> bytes -> option (lc_header * lc_header)) (opt_view : fork -> bytes -> option (lc_header * N)).
Context (sums_view : bytes -> option (N * list summary)).
Definition readable (w : world) : Prop :=
  (forall r b, w_boot w r = Some b -> boot_view Electra (boot_ssz b) = Some (boot_header b)) /\
  (forall p n l u, w_updates w p n = Some l -> In u l -> update_view Electra (upd_ssz u) = true /\ blen (upd_ssz u) < 2 ^ 31) /\
  (forall u, w_fin w = Some u -> exists a, fin_view Electra (fin_ssz u) = Some (a, fin_header u)) /\
  (forall u, w_opt w = Some u -> exists a, opt_view Electra (opt_ssz u) = Some (a, opt_slot u)) /\
  (forall b, w_state w = Some b -> let e := st_slot b / 32 in
     sums_view (enc_sums e (st_summaries b) (summaries_branch sha b)) = Some (e, st_summaries b)).
End Spec.
