(** The supply of blocks of trin-execution and its loop over them:
    /repo/bin/trin-execution/src/e2hs/{manager,types,utils}.rs and execution.rs.

    What a download of a file returns is an argument, and may be different every time.  So is whether
    the EVM accepts a block, the bundle of changes it has collected when they are committed, whether
    the limits for a commit are reached, and when a stop signal arrives.  A download runs in the
    background; here it happens when its result is awaited.  Block numbers do not reach [u64::MAX].
    The writes of a block are those of ExecDb_Model; the EVM rejects a block before them. *)
From Verif Require Import Base ExecDb_Model ExecDb_Spec.

(** /repo/crates/e2store/src/e2hs.rs:47 *)
Definition BLOCKS_PER_E2HS : N := 8192.
(** /repo/crates/e2store/src/e2hs.rs:226-228 *)
Definition index_from_block_number (n : N) : N := n / BLOCKS_PER_E2HS.

Section Run.
(** Transactions, uncles and withdrawals. *)
Context {body : Type}.
(** types.rs:35-41 [ProcessedBlock] *)
Definition block : Type := header * body.
(** types.rs:43-46 [ProcessedE2HS] *)
Record processed := mk_processed { p_blocks : list block; p_index : N }.
(** types.rs:49-51 *)
Definition contains_block (p : processed) (n : N) : bool := p_index p =? index_from_block_number n.
(** types.rs:53-56; the difference is of [usize]. *)
Definition get_block (p : processed) (n : N) : outcome block :=
  let first := p_index p * BLOCKS_PER_E2HS in
  if n <? first then Panic else of_option (nth_error (p_blocks p) (N.to_nat (n - first))).
(** utils.rs:13-46 [process_e2hs_file], from the tuples on.  [blocks[0]] panics. *)
Definition process_e2hs_file (blocks : list block) : outcome processed :=
  match blocks with
  | [] => Panic
  | b :: _ => Ok (mk_processed blocks (h_number (fst b) / BLOCKS_PER_E2HS))
  end.

(** manager.rs:17-23 [E2HSManager]; the handle of the next file by its index. *)
Record manager := mk_manager { m_next_block : N; m_current : option processed; m_next : option N }.
(** manager.rs:26-55 [new] with 131-142 *)
Definition manager_new (n : N) : manager := mk_manager n None (Some (index_from_block_number n)).
(** What awaiting a handle returns: a panic of the task is an error. *)
Definition await (files : N -> outcome (list block)) (i : N) : outcome processed :=
  match obind (files i) process_e2hs_file with Ok p => Ok p | _ => Err end.
(** manager.rs:106-129 [get_next_processed_e2hs] *)
Definition get_next_processed_e2hs (files : N -> outcome (list block)) (m : manager) : manager * outcome processed :=
  match m_next m with
  | None => (m, Err)
  | Some i =>
      match await files i with
      | Ok p => (mk_manager (m_next_block m) (m_current m) (Some (p_index p + 1)), Ok p)
      | _ => (mk_manager (m_next_block m) (m_current m) None, Err)
      end
  end.
(** manager.rs:78-103 [get_next_block] *)
Definition get_next_block (files : N -> outcome (list block)) (m : manager) : manager * outcome block :=
  let found m p :=
    if contains_block p (m_next_block m) then
      match get_block p (m_next_block m) with
      | Ok b => (mk_manager (m_next_block m + 1) (m_current m) (m_next m), Ok b)
      | e => (m, e)
      end
    else (m, Err) in
  let fetch :=
    match get_next_processed_e2hs files m with
    | (m, Ok p) => found (mk_manager (m_next_block m) (Some p) (m_next m)) p
    | (m, _) => (m, Err)
    end in
  match m_current m with
  | Some p => if contains_block p (m_next_block m) then found m p else fetch
  | None => fetch
  end.
(** manager.rs:61-76 [last_fetched_block] *)
Definition last_fetched_block (m : manager) : outcome block :=
  match m_current m with
  | None => Err
  | Some p => if m_next_block m =? 0 then Err else get_block p (m_next_block m - 1)
  end.

(** ** The loop *)
Context (keccak : bytes -> bytes) (root_of : kv -> bytes) (alloc : list (bytes * N)).
(** execution.rs:24-30 [TrinExecution] *)
Record node := mk_node { n_db : state; n_manager : manager }.
(** What the outside decides in one round of the loop. *)
Record round := mk_round {
  r_files : N -> outcome (list block);
  r_accepts : bool;          (* the EVM accepts the block *)
  r_stop : bool;             (* the stop signal is there *)
  r_should_commit : bool;    (* block_executor.rs:269-274 [should_commit] *)
  r_bundle : bundle }.       (* what was collected since the last commit *)

(** execution.rs:78-126: the loop, with what it does to the database; [None]: it still runs. *)
Fixpoint rounds (last_block : N) (rs : list round) (n : node) : node * list event * option (outcome unit) :=
  match rs with
  | [] => (n, [], None)
  | r :: rs =>
      match get_next_block (r_files r) (n_manager n) with
      | (m, Ok (h, _)) =>
          if r_accepts r then
            match execute_block keccak alloc h (n_db n) with
            | (d, Ok _) =>
                let (d', o) := commit keccak root_of h (r_bundle r) d in
                if (h_number h =? last_block) || r_stop r
                then (mk_node d' m, [Executed h; Committed h (r_bundle r)], Some o)
                else if r_should_commit r && negb ((2200000 <=? h_number h) && (h_number h <? 2700000)) then
                  match o with
                  | Ok _ => let '(n', tr, o) := rounds last_block rs (mk_node d' m) in
                            (n', Executed h :: Committed h (r_bundle r) :: tr, o)
                  | e => (mk_node d' m, [Executed h; Committed h (r_bundle r)], Some e)
                  end
                else let '(n', tr, o) := rounds last_block rs (mk_node d m) in (n', Executed h :: tr, o)
            | (d, e) => (mk_node d m, [Executed h], Some e)
            end
          else (mk_node (n_db n) m, [], Some Err)
      | (m, Err) => (mk_node (n_db n) m, [], Some Err)
      | (m, Panic) => (mk_node (n_db n) m, [], Some Panic)
      end
  end.
(** execution.rs:63-127 [process_range_of_blocks] *)
Definition process_range_of_blocks (last_block : N) (rs : list round) (n : node) : node * list event * option (outcome unit) :=
  if last_block <? next_block (mem_pos (n_db n)) then (n, [], Some Err) else rounds last_block rs n.
(** execution.rs:58-61 [process_next_block] *)
Definition process_next_block (rs : list round) (n : node) : node * list event * option (outcome unit) :=
  process_range_of_blocks (next_block (mem_pos (n_db n))) (map (fun r => mk_round (r_files r) (r_accepts r) false (r_should_commit r) (r_bundle r)) rs) n.
(** execution.rs:33-52 [TrinExecution::new] on what is on disk. *)
Definition open_node (disk : state) : outcome node :=
  omap (fun s => mk_node s (manager_new (next_block (mem_pos s)))) (start keccak disk).
End Run.
Arguments block : clear implicits.
Arguments processed : clear implicits.
Arguments manager : clear implicits.
Arguments node : clear implicits.
Arguments round : clear implicits.
