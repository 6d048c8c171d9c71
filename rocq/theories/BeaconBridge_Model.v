(** The bridge of the beacon subnetwork: /repo/bin/portal-bridge/src/bridge/beacon.rs.

    Every twelve seconds five tasks are started, one for each type of content.  They share the
    last period, slot and roots that were served and two flags, each behind a lock that is held
    for one access.  A task is modelled as the point it has reached: between two points there is
    one access to what is shared or one request, so every interleaving of the tasks of one or of
    several ticks is an execution.  What the consensus client, the clock and the census answer
    is part of each step.  A task that panics ends; the others go on (tokio).  Offering the
    content to the peers that were selected, the report and the metrics are not modelled. *)
From Verif Require Import Base Ssz_Model Merkle_Model Header_Model ChainHead_Model BeaconStore_Model.

(** What the consensus client answers: the parts that are looked at, and the encoding (SSZ). *)
Record boot := { boot_header : lc_header; boot_ssz : bytes }.
Record upd := { upd_slot : N; upd_ssz : bytes }.             (* the slot of the finalised header *)
Record opt := { opt_slot : N; opt_ssz : bytes }.             (* the signature slot *)
Record fin := { fin_header : lc_header; fin_ssz : bytes }.   (* the finalised header *)
(** consensus/beacon_state.rs:243-287: the roots of the fields are the leaves of the proof. *)
Record bstate := { st_slot : N; st_summaries : list summary; st_fields : list bytes }.

Section Bridge.
Context {peer : Type}.
(** Hashing for the Merkle proof, and the encoding of an epoch with summaries and a proof. *)
Variable sha : bytes -> bytes.
Variable enc_sums : N -> list summary -> list bytes -> bytes.

(** What is outside of the bridge, at the moment of a step: the slot on the clock, the answers of
    the client ([None]: an error), and the peers the census selects ([None]: an error). *)
Record world := {
  w_slot : N;
  w_block_root : option bytes;
  w_boot : bytes -> option boot;
  w_updates : N -> N -> option (list upd);
  w_opt : option opt;
  w_fin : option fin;
  w_state_root : option bytes;
  w_state : option bstate;
  w_peers : beacon_key -> option (list peer);
}.

(** beacon.rs:43-70, 111-114: what the tasks share *)
Record shared := {
  period : N;
  boot_root : bytes; boot_busy : bool;
  fin_slot : N;
  state_root : bytes; state_busy : bool;
}.
Definition fresh : shared :=
  {| period := 0; boot_root := repeat 0 32; boot_busy := false; fin_slot := 0; state_root := repeat 0 32; state_busy := false |}.
Definition set_period (s : shared) (p : N) : shared :=
  {| period := p; boot_root := boot_root s; boot_busy := boot_busy s; fin_slot := fin_slot s; state_root := state_root s; state_busy := state_busy s |}.
Definition set_boot (s : shared) (r : bytes) (b : bool) : shared :=
  {| period := period s; boot_root := r; boot_busy := b; fin_slot := fin_slot s; state_root := state_root s; state_busy := state_busy s |}.
Definition set_fin (s : shared) (n : N) : shared :=
  {| period := period s; boot_root := boot_root s; boot_busy := boot_busy s; fin_slot := n; state_root := state_root s; state_busy := state_busy s |}.
Definition set_state (s : shared) (r : bytes) (b : bool) : shared :=
  {| period := period s; boot_root := boot_root s; boot_busy := boot_busy s; fin_slot := fin_slot s; state_root := r; state_busy := b |}.

(** Where a task is: what it does next. *)
Inductive task :=
  | BootStart                    (* beacon.rs:260 reads the flag *)
  | BootAsk                      (* 266 requests the finalised root *)
  | BootCompare (root : bytes)   (* 272 reads the stored root *)
  | BootMark (root : bytes)      (* 277 sets the flag *)
  | BootLoad (root : bytes)      (* 282 after the delay, requests the bootstrap, 297 offers it *)
  | BootKeep (root : bytes)      (* 298 stores the root *)
  | BootDone                     (* 299 clears the flag *)
  | BootFailed                   (* 166 clears the flag *)
  | UpdStart                     (* 311 reads the clock and the period *)
  | UpdLoad (p : N)              (* 327 requests the update, 359 offers it *)
  | UpdKeep (p : N)              (* 360 stores the period *)
  | OptLoad                      (* 371 requests the update and offers it *)
  | FinLoad                      (* 391 requests the update *)
  | FinCompare (u : fin)         (* 398 reads the slot, 418 offers the update *)
  | FinKeep (n : N)              (* 419 stores the slot *)
  | SumStart                     (* 431 reads the flag *)
  | SumAsk                       (* 437 requests the finalised state root *)
  | SumCompare (root : bytes)    (* 440 reads the stored root *)
  | SumMark (root : bytes)       (* 452 sets the flag *)
  | SumLoad (root : bytes)       (* 453 requests the state, 477 offers the summaries *)
  | SumKeep (root : bytes)       (* 478 stores the root *)
  | SumDone.                     (* 479 clears the flag *)

(** Content that was offered, and to whom *)
Record offering := { o_key : beacon_key; o_value : bytes; o_peers : list peer }.
(** beacon.rs:485-577 [spawn_offer_tasks] *)
Definition spawn_offer_tasks (w : world) (k : beacon_key) (v : bytes) : list offering :=
  match w_peers w k with
  | Some ps => [{| o_key := k; o_value := v; o_peers := ps |}]
  | None => []
  end.

(** beacon.rs:253-302 with 155-169 [serve_light_client_bootstrap]; the value is the bootstrap the
    client returns, and the key the root that was asked for. *)
Definition step_boot (w : world) (s : shared) (t : task) : shared * option task * list offering :=
  match t with
  | BootStart => (s, if boot_busy s then None else Some BootAsk, [])
  | BootAsk => (s, Some (match w_block_root w with Some r => BootCompare r | None => BootFailed end), [])
  | BootCompare r => (s, if beqb r (boot_root s) then None else Some (BootMark r), [])
  | BootMark r => (set_boot s (boot_root s) true, Some (BootLoad r), [])
  | BootLoad r =>
      match w_boot w r with
      | Some b => (s, Some (BootKeep r), spawn_offer_tasks w (KBootstrap r) (join_fork Electra (boot_ssz b)))
      | None => (s, Some BootFailed, [])
      end
  | BootKeep r => (set_boot s r (boot_busy s), Some BootDone, [])
  | _ => (set_boot s (boot_root s) false, None, [])
  end.
(** beacon.rs:304-363 [serve_light_client_update]; an empty answer makes the task panic. *)
Definition step_upd (w : world) (s : shared) (t : task) : shared * option task * list offering :=
  match t with
  | UpdStart =>
      let p := w_slot w / 8192 in
      (s, if period s <? p then Some (UpdLoad p) else None, [])
  | UpdLoad p =>
      match w_updates w p 1 with
      | Some (u :: _) =>
          if upd_slot u / 8192 =? p
          then (s, Some (UpdKeep p), spawn_offer_tasks w (KUpdates p 1) (encode_var_list [join_fork Electra (upd_ssz u)]))
          else (s, None, [])
      | _ => (s, None, [])
      end
  | UpdKeep p => (set_period s p, None, [])
  | _ => (s, None, [])
  end.
(** beacon.rs:365-382 [serve_light_client_optimistic_update] *)
Definition step_opt (w : world) (s : shared) : shared * option task * list offering :=
  match w_opt w with
  | Some u => (s, None, spawn_offer_tasks w (KOptimistic (opt_slot u)) (join_fork Electra (opt_ssz u)))
  | None => (s, None, [])
  end.
(** beacon.rs:384-422 [serve_light_client_finality_update] *)
Definition step_fin (w : world) (s : shared) (t : task) : shared * option task * list offering :=
  match t with
  | FinLoad => (s, option_map FinCompare (w_fin w), [])
  | FinCompare u =>
      let n := hd_slot (fin_header u) in
      if fin_slot s <? n
      then (s, Some (FinKeep n), spawn_offer_tasks w (KFinality n) (join_fork Electra (fin_ssz u)))
      else (s, None, [])
  | FinKeep n => (set_fin s n, None, [])
  | _ => (s, None, [])
  end.
(** consensus/beacon_state.rs:243-287 [build_historical_summaries_proof] *)
Definition summaries_branch (b : bstate) : list bytes := build_merkle_proof sha (st_fields b) 27.
(** beacon.rs:424-482 [serve_historical_summaries_with_proof]: after an error nothing clears the
    flag (237-248). *)
Definition step_sum (w : world) (s : shared) (t : task) : shared * option task * list offering :=
  match t with
  | SumStart => (s, if state_busy s then None else Some SumAsk, [])
  | SumAsk => (s, option_map SumCompare (w_state_root w), [])
  | SumCompare r => (s, if beqb r (state_root s) then None else Some (SumMark r), [])
  | SumMark r => (set_state s (state_root s) true, Some (SumLoad r), [])
  | SumLoad r =>
      match w_state w with
      | Some b =>
          let epoch := st_slot b / 32 in
          (s, Some (SumKeep r), spawn_offer_tasks w (KSummaries epoch)
                                  (join_fork Electra (enc_sums epoch (st_summaries b) (summaries_branch b))))
      | None => (s, None, [])
      end
  | SumKeep r => (set_state s r (state_busy s), Some SumDone, [])
  | _ => (set_state s (state_root s) false, None, [])
  end.
(** One step of a task *)
Definition step_task (w : world) (s : shared) (t : task) : shared * option task * list offering :=
  match t with
  | BootStart | BootAsk | BootCompare _ | BootMark _ | BootLoad _ | BootKeep _ | BootDone | BootFailed => step_boot w s t
  | UpdStart | UpdLoad _ | UpdKeep _ => step_upd w s t
  | OptLoad => step_opt w s
  | FinLoad | FinCompare _ | FinKeep _ => step_fin w s t
  | SumStart | SumAsk | SumCompare _ | SumMark _ | SumLoad _ | SumKeep _ | SumDone => step_sum w s t
  end.

(** The bridge: what is shared, the tasks that have not ended, and what was offered *)
Record bridge := { sh : shared; tasks : list task; log : list offering }.
Definition start : bridge := {| sh := fresh; tasks := []; log := [] |}.
(** beacon.rs:128-138, 141-250: a tick starts five tasks; any task may make the next step. *)
Inductive op := Tick | Step (i : nat) (w : world).
Definition serve_latest : list task := [BootStart; UpdStart; FinLoad; OptLoad; SumStart].
Definition step (b : bridge) (o : op) : bridge :=
  match o with
  | Tick => {| sh := sh b; tasks := tasks b ++ serve_latest; log := log b |}
  | Step i w =>
      match nth_error (tasks b) i with
      | None => b
      | Some t =>
          let '(s, next, offers) := step_task w (sh b) t in
          {| sh := s; tasks := firstn i (tasks b) ++ match next with Some t' => [t'] | None => [] end ++ skipn (S i) (tasks b);
             log := log b ++ offers |}
      end
  end.
Definition run (b : bridge) (ops : list op) : bridge := fold_left step ops b.
End Bridge.
Arguments world : clear implicits.
Arguments bridge : clear implicits.
Arguments op : clear implicits.
Arguments offering : clear implicits.
