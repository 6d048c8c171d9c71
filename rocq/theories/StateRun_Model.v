(** The runs of the state bridge: /repo/bin/portal-bridge/src/bridge/state.rs:131-258 and the beginning of
    [gossip_trie_diff] and [gossip_whole_state_snapshot]; which run a mode stands for is in Args_Model, the
    contents that are offered for a trie are in the models of the bridges.

    On top of trin-execution (ExecRun_Model, ExecSnap_Model).  The directory of a run over blocks is new;
    that of a snapshot is the one of trin-execution.  What the downloads return and whether an offer fails
    are arguments.  The cache of contracts and storage changes is the list of what was executed and
    committed since it was cleared.  Reports and the clock are left out.  The number of a snapshot is below
    [u64::MAX]. *)
From Verif Require Import Base ExecDb_Model ExecDb_Spec ExecRun_Model EraFiles_Model ExecSnap_Model.

Section StateRun.
Context {body : Type} (keccak : bytes -> bytes) (root_of : kv -> bytes) (alloc : list (bytes * N)).

(** What [gossip_trie_diff] is called with: the block it takes from the manager, the root of the state trie
    and its changes (state.rs:260-277), and the cache (state.rs:307-325). *)
Record item := mk_item { i_block : block body; i_root : bytes; i_diff : list event; i_cache : list event }.

(** state.rs:154-173: the loop.  One element per round of it: what happens during the execution and whether
    the offers succeed.  [None]: it still runs. *)
Fixpoint gossip_blocks (end_block : N) (env : list (list (round body) * bool)) (n : node body) (cache : list event)
  : list item * option (outcome unit) :=
  if next_block (mem_pos (n_db n)) <=? end_block then
    match env with
    | [] => ([], None)
    | (rs, offered) :: env =>
        match process_next_block keccak root_of alloc rs n with
        | (n', tr, Some (Ok _)) =>
            match last_fetched_block (n_manager n') with
            | Ok b =>
                let it := mk_item b (root_of (trie (n_db n'))) tr (cache ++ tr) in
                if offered then let (l, o) := gossip_blocks end_block env n' [] in (it :: l, o)
                else ([it], Some Err)
            | Err => ([], Some Err)
            | Panic => ([], Some Panic)
            end
        | (_, _, o) => ([], o)
        end
    end
  else ([], Some (Ok tt)).
(** [process_range_of_blocks] with no stop signal. *)
Definition unstopped (rs : list (round body)) : list (round body) :=
  map (fun r => mk_round (r_files r) (r_accepts r) false (r_should_commit r) (r_bundle r)) rs.
(** state.rs:131-180 [launch_state] *)
Definition launch_state (start_block end_block : N) (before : list (round body)) (env : list (list (round body) * bool))
  : list item * option (outcome unit) :=
  match open_node keccak (blank keccak) with
  | Ok n =>
      if 0 <? start_block then
        match process_range_of_blocks keccak root_of alloc (start_block - 1) (unstopped before) n with
        | (n', _, Some (Ok _)) => gossip_blocks end_block env n' []
        | (_, _, o) => ([], o)
        end
      else gossip_blocks end_block env n []
  | Err => ([], Some Err)
  | Panic => ([], Some Panic)
  end.

(** execution_position.rs: [initialize_from_db] then [next_block_number] *)
Definition position (disk : state) : N := match disk_pos disk with Some p => next_block p | None => 0 end.
(** What the servers return: the numbers of the snapshots that are listed; the file, if it could be had and
    begins with a header; the files of blocks. *)
Record servers := mk_servers {
  listed : outcome (list N);
  file : outcome (header * list snap_item * outcome unit);
  blocks : N -> outcome (list (block body)) }.
(** state.rs:238-257 and 350-361: number, hash of the block and the trie whose nodes are offered.  Errors of
    the database are panics. *)
Definition gossip_snapshot (disk : state) : state * outcome (N * bytes * kv) :=
  if position disk =? 0 then (disk, Err) else
  match start keccak disk with
  | Ok s =>
      let number := position disk - 1 in
      match block_hash keccak s number with
      | Ok hash => (s, Ok (number, hash, trie s))
      | _ => (s, Panic)
      end
  | _ => (disk, Panic)
  end.
(** state.rs:182-257 [launch_snapshot]: what is on disk afterwards, and what is offered. *)
Definition launch_snapshot (snapshot_block : N) (w : servers) (disk : state) : state * outcome (N * bytes * kv) :=
  if snapshot_block =? 0 then (disk, Err)
  else if position disk =? snapshot_block + 1 then gossip_snapshot disk
  else
    let disk := blank keccak in
    match listed w with
    | Ok l =>
        if existsb (N.eqb snapshot_block) l then
          match file w with
          | Ok (h, items, z) =>
              match importer keccak root_of (blocks w) disk h items z with
              | (disk, Ok _) => gossip_snapshot disk
              | (disk, Err) => (disk, Err)
              | (disk, Panic) => (disk, Panic)
              end
          | Err => (disk, Err)
          | Panic => (disk, Panic)
          end
        else (disk, Err)
    | Err => (disk, Err)
    | Panic => (disk, Panic)
    end.
End StateRun.
Arguments item : clear implicits.
Arguments servers : clear implicits.
