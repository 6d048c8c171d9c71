(** The light client of the beacon chain: /repo/crates/light-client/src/consensus/consensus_client.rs,
    types.rs and utils.rs, config/client_config.rs.

    Arguments: [sha] is SHA-256; [parse_key] is [PublicKey::from_bytes_unchecked]; [aggregate_verify]
    is [AggregateSignature::from_bytes] followed by [fast_aggregate_verify] (utils.rs:16-22).
    Not modelled: the requests to the network ([rpc]), whose results are arguments; logging; the
    channels on which accepted updates are published. *)
From Verif Require Import Base Merkle_Model Header_Model.

(** ethportal-api consensus/header.rs:11-21 *)
Record bheader := { b_slot : N; proposer : N; parent_root : bytes; state_root : bytes; body_root : bytes }.
(** consensus/sync_committee.rs:11-15 (512 keys of 48 bytes by its type) *)
Record committee := { pubkeys : list bytes; aggregate_pubkey : bytes }.
(** types.rs:19-28; [bits] and [signature] are the parts of the sync aggregate (512 bits by its type) *)
Record generic := {
  attested : bheader;
  bits : list bool;
  signature : bytes;
  signature_slot : N;
  next_committee : option committee;
  next_branch : option (list bytes);
  final : option bheader;
  final_branch : option (list bytes);
}.
(** The three kinds of updates that arrive (light_client/update.rs, finality_update.rs, optimistic_update.rs). *)
Inductive update :=
| FullUpdate (a : bheader) (c : committee) (cb : list bytes) (f : bheader) (fb : list bytes) (bs : list bool) (sig : bytes) (slot : N)
| FinalityUpdate (a : bheader) (f : bheader) (fb : list bytes) (bs : list bool) (sig : bytes) (slot : N)
| OptimisticUpdate (a : bheader) (bs : list bool) (sig : bytes) (slot : N).
(** types.rs:30-70 *)
Definition to_generic (u : update) : generic :=
  match u with
  | FullUpdate a c cb f fb bs sig slot =>
      {| attested := a; bits := bs; signature := sig; signature_slot := slot; next_committee := Some c; next_branch := Some cb;
         final := Some f; final_branch := Some fb |}
  | FinalityUpdate a f fb bs sig slot =>
      {| attested := a; bits := bs; signature := sig; signature_slot := slot; next_committee := None; next_branch := None;
         final := Some f; final_branch := Some fb |}
  | OptimisticUpdate a bs sig slot =>
      {| attested := a; bits := bs; signature := sig; signature_slot := slot; next_committee := None; next_branch := None;
         final := None; final_branch := None |}
  end.

(** light_client/store.rs:7-14 *)
Record store := {
  finalized : bheader;
  current_committee : committee;
  next_known : option committee;
  optimistic : bheader;
  previous_max : N;
  current_max : N;
}.
(** client_config.rs, config/types.rs, networks.rs *)
Record config := {
  genesis_root : bytes;
  genesis_time : N;
  fork_epochs : list (N * bytes);      (* epoch and version of the forks after genesis, the latest first *)
  genesis_version : bytes;
  strict_age : bool;
  max_age : N;
}.
(** consensus_client.rs:38-45 *)
Record client := { lc_store : store; initial_checkpoint : bytes; last_checkpoint : option bytes }.

(** utils.rs:11-14 *)
Definition period (slot : N) : N := slot / 32 / 256.
(** client_config.rs:64-80: the chain of comparisons, from the latest fork to the first *)
Fixpoint pick_version (forks : list (N * bytes)) (genesis : bytes) (epoch : N) : bytes :=
  match forks with
  | [] => genesis
  | (e, v) :: r => if e <=? epoch then v else pick_version r genesis epoch
  end.
Definition fork_version (cf : config) (slot : N) : bytes := pick_version (fork_epochs cf) (genesis_version cf) (slot / 32).
(** consensus_client.rs:641-650 *)
Definition get_bits (l : list bool) : N := blen (filter (fun b => b) l).
(** consensus_client.rs:457-463 *)
Definition is_some {A} (o : option A) : bool := match o with Some _ => true | None => false end.
Definition has_finality_update (g : generic) : bool := is_some (final g) && is_some (final_branch g).
Definition has_sync_update (g : generic) : bool := is_some (next_committee g) && is_some (next_branch g).
(** consensus_client.rs:465-470 *)
Definition safety_threshold (s : store) : N := N.max (current_max s) (previous_max s) / 2.

Section Crypto.
Context (sha : bytes -> bytes) {key : Type} (parse_key : bytes -> option key) (aggregate_verify : list key -> bytes -> bytes -> bool).

Definition pad32 (b : bytes) : bytes := b ++ repeat 0 (32 - length b).
(** [tree_hash_root], derived: header.rs:8-10 *)
Definition header_chunks (h : bheader) : list bytes :=
  [le_bytes 32 (b_slot h); le_bytes 32 (proposer h); parent_root h; state_root h; body_root h].
Definition header_root (h : bheader) : bytes := container_root sha (header_chunks h).
(** derived: pubkey.rs:13-16, sync_committee.rs:11-15 *)
Definition pubkey_chunks (k : bytes) : list bytes := [firstn 32 k; pad32 (skipn 32 k)].
Definition pubkey_root (k : bytes) : bytes := container_root sha (pubkey_chunks k).
Definition committee_root (c : committee) : bytes :=
  container_root sha [container_root sha (map pubkey_root (pubkeys c)); pubkey_root (aggregate_pubkey c)].

(** utils.rs:24-38; the length of the branch is fixed by its type *)
Definition is_proof_valid (a : bheader) (leaf : bytes) (branch : list bytes) (depth : nat) (index : N) : bool :=
  verify_merkle_proof sha leaf branch depth index (state_root a).
(** consensus_client.rs:674-708 *)
Definition is_finality_proof_valid (a f : bheader) (branch : list bytes) : bool := is_proof_valid a (header_root f) branch 7 41.
Definition is_next_committee_proof_valid (a : bheader) (c : committee) (branch : list bytes) : bool := is_proof_valid a (committee_root c) branch 6 23.
Definition is_current_committee_proof_valid (a : bheader) (c : committee) (branch : list bytes) : bool := is_proof_valid a (committee_root c) branch 6 22.

(** utils.rs:40-62, light-client/src/utils.rs:9-24, consensus_client.rs:615-623 *)
Definition compute_fork_data_root (version genesis : bytes) : bytes := container_root sha [pad32 version; genesis].
Definition compute_domain (version genesis : bytes) : bytes := [7; 0; 0; 0] ++ firstn 28 (compute_fork_data_root version genesis).
Definition compute_signing_root (object domain : bytes) : bytes := container_root sha [object; domain].
Definition compute_committee_sign_root (genesis header version : bytes) : bytes := compute_signing_root header (compute_domain version genesis).

(** consensus_client.rs:625-639: a key that cannot be parsed, and a bit past the last key, panic *)
Fixpoint participating_keys (keys : list bytes) (bs : list bool) : outcome (list key) :=
  match bs with
  | [] => Ok []
  | b :: br =>
      match b, keys with
      | false, _ => participating_keys (tl keys) br
      | true, [] => Panic
      | true, k :: kr =>
          match parse_key k with
          | None => Panic
          | Some p => obind (participating_keys kr br) (fun ps => Ok (p :: ps))
          end
      end
  end.
(** consensus_client.rs:652-672 *)
Definition verify_sync_committee_signature (keys : list key) (a : bheader) (sig genesis version : bytes) : bool :=
  aggregate_verify keys (compute_committee_sign_root genesis (header_root a) version) sig.

(** consensus_client.rs:528-613 [verify_generic_update] *)
Definition ensure (b : bool) (k : outcome unit) : outcome unit := if b then k else Err.
Definition verify_generic_update (s : store) (g : generic) (expected_slot : N) (genesis version : bytes) : outcome unit :=
  ensure (0 <? get_bits (bits g)) (
  let final_slot := match final g with Some f => b_slot f | None => 0 end in
  ensure ((signature_slot g <=? expected_slot) && (b_slot (attested g) <? signature_slot g) && (final_slot <=? b_slot (attested g))) (
  let store_period := period (b_slot (finalized s)) in
  let sig_period := period (signature_slot g) in
  ensure (if is_some (next_known s) then (sig_period =? store_period) || (sig_period =? store_period + 1) else sig_period =? store_period) (
  let has_next := negb (is_some (next_known s)) && is_some (next_committee g) && (period (b_slot (attested g)) =? store_period) in
  ensure ((b_slot (finalized s) <? b_slot (attested g)) || has_next) (
  ensure (match final g, final_branch g with Some f, Some b => is_finality_proof_valid (attested g) f b | _, _ => true end) (
  ensure (match next_committee g, next_branch g with Some c, Some b => is_next_committee_proof_valid (attested g) c b | _, _ => true end) (
  match (if sig_period =? store_period then Some (current_committee s) else next_known s) with
  | None => Panic
  | Some c =>
      obind (participating_keys (pubkeys c) (bits g)) (fun keys =>
      ensure (verify_sync_committee_signature keys (attested g) (signature g) genesis version) (Ok tt))
  end)))))).

(** consensus_client.rs:296-376 [apply_generic_update] *)
Definition apply_generic_update (c : client) (g : generic) : client :=
  let s := lc_store c in
  let n := get_bits (bits g) in
  let s1 := {| finalized := finalized s; current_committee := current_committee s; next_known := next_known s; optimistic := optimistic s;
               previous_max := previous_max s; current_max := N.max (current_max s) n |} in
  let s2 :=
    if (safety_threshold s1 <? n) && (b_slot (optimistic s1) <? b_slot (attested g))
    then {| finalized := finalized s1; current_committee := current_committee s1; next_known := next_known s1; optimistic := attested g;
            previous_max := previous_max s1; current_max := current_max s1 |}
    else s1 in
  let attested_period := period (b_slot (attested g)) in
  let final_slot := match final g with Some f => b_slot f | None => 0 end in
  let final_period := period final_slot in
  let has_next := negb (is_some (next_known s2)) && has_sync_update g && has_finality_update g && (final_period =? attested_period) in
  let majority := 512 * 2 <=? n * 3 in
  let newer := b_slot (finalized s2) <? final_slot in
  if majority && (newer || has_next) then
    let store_period := period (b_slot (finalized s2)) in
    let s3 :=
      match next_known s2 with
      | None => {| finalized := finalized s2; current_committee := current_committee s2; next_known := next_committee g; optimistic := optimistic s2;
                   previous_max := previous_max s2; current_max := current_max s2 |}
      | Some nc =>
          if final_period =? store_period + 1
          then {| finalized := finalized s2; current_committee := nc; next_known := next_committee g; optimistic := optimistic s2;
                  previous_max := current_max s2; current_max := 0 |}
          else s2
      end in
    match final g with
    | Some f =>
        if b_slot (finalized s3) <? b_slot f then
          {| lc_store := {| finalized := f; current_committee := current_committee s3; next_known := next_known s3;
                            optimistic := if b_slot (optimistic s3) <? b_slot f then f else optimistic s3;
                            previous_max := previous_max s3; current_max := current_max s3 |};
             initial_checkpoint := initial_checkpoint c;
             last_checkpoint := if b_slot f mod 32 =? 0 then Some (header_root f) else last_checkpoint c |}
        else {| lc_store := s3; initial_checkpoint := initial_checkpoint c; last_checkpoint := last_checkpoint c |}
    | None => {| lc_store := s3; initial_checkpoint := initial_checkpoint c; last_checkpoint := last_checkpoint c |}
    end
  else {| lc_store := s2; initial_checkpoint := initial_checkpoint c; last_checkpoint := last_checkpoint c |}.

(** consensus_client.rs:258-292 [verify_update], [verify_finality_update], [verify_optimistic_update]; [now] is the slot
    of the clock (rpc/portal_rpc.rs:193-199) *)
Definition verify (cf : config) (s : store) (now : N) (u : update) : outcome unit :=
  verify_generic_update s (to_generic u) now (genesis_root cf) (fork_version cf (signature_slot (to_generic u))).
(** An update that is verified and then applied, as in lines 146-149, 153-154, 162-163. *)
Definition process (cf : config) (c : client) (x : N * update) : client * outcome unit :=
  match verify cf (lc_store c) (fst x) (snd x) with
  | Ok _ => (apply_generic_update c (to_generic (snd x)), Ok tt)
  | Err => (c, Err)
  | Panic => (c, Panic)
  end.
(** The operator [?] *)
Definition and_then (r : client * outcome unit) (k : client -> client * outcome unit) : client * outcome unit :=
  match snd r with Ok _ => k (fst r) | Err => (fst r, Err) | Panic => (fst r, Panic) end.

(** light_client/bootstrap.rs *)
Record bootstrap_data := { bs_header : bheader; bs_committee : committee; bs_branch : list bytes }.
(** consensus_client.rs:511-523: with the arithmetic of a release build *)
Definition slot_timestamp (cf : config) (slot : N) : N := (slot * 12 + genesis_time cf) mod 2 ^ 64.
Definition is_valid_checkpoint (cf : config) (now slot : N) : bool :=
  (slot_timestamp cf now + 2 ^ 64 - slot_timestamp cf slot) mod 2 ^ 64 <? max_age cf.
(** consensus_client.rs:211-256 *)
Definition bootstrap (cf : config) (c : client) (now : N) (b : bootstrap_data) : client * outcome unit :=
  if negb (is_valid_checkpoint cf now (b_slot (bs_header b))) && strict_age cf then (c, Err)
  else if negb (beqb (header_root (bs_header b)) (initial_checkpoint c)) then (c, Err)
  else if negb (is_current_committee_proof_valid (bs_header b) (bs_committee b) (bs_branch b)) then (c, Err)
  else ({| lc_store := {| finalized := bs_header b; current_committee := bs_committee b; next_known := None; optimistic := bs_header b;
                          previous_max := 0; current_max := 0 |};
           initial_checkpoint := initial_checkpoint c; last_checkpoint := last_checkpoint c |}, Ok tt).

(** consensus_client.rs:146-149: the loop over the updates *)
Fixpoint process_all (cf : config) (c : client) (l : list (N * update)) : client * outcome unit :=
  match l with
  | [] => (c, Ok tt)
  | x :: r => and_then (process cf c x) (fun c => process_all cf c r)
  end.
(** What is fetched from the network: [None] is an error.  Each update comes with the slot of the clock when it
    is checked. *)
Record fetched := {
  f_bootstrap : option (N * bootstrap_data);
  f_now : N;                                         (* slot when the range of periods is computed *)
  f_updates : N -> option (list (N * update));       (* the updates of a period *)
  f_finality : option (N * update);
  f_optimistic : option (N * update);
}.
Fixpoint fetch_all (fetch : N -> option (list (N * update))) (ps : list N) : option (list (N * update)) :=
  match ps with
  | [] => Some []
  | p :: r => match fetch p with
              | None => None
              | Some l => match fetch_all fetch r with None => None | Some l' => Some (l ++ l') end
              end
  end.
(** consensus_client.rs:151-163 and 174-190 *)
Definition latest_updates (cf : config) (c : client) (f : fetched) : client * outcome unit :=
  and_then (match f_finality f with Some x => process cf c x | None => (c, Ok tt) end) (fun c =>
  match f_optimistic f with Some x => process cf c x | None => (c, Err) end).
(** consensus_client.rs:118-171 [sync] over the portal network *)
Definition sync (cf : config) (c : client) (f : fetched) : client * outcome unit :=
  match f_bootstrap f with
  | None => (c, Err)
  | Some (now, b) =>
      and_then (bootstrap cf c now b) (fun c =>
      let first := period (b_slot (finalized (lc_store c))) in
      let periods := map (fun i => first + N.of_nat i) (seq 0 (N.to_nat (period (f_now f) - first))) in
      match fetch_all (f_updates f) periods with
      | None => (c, Err)
      | Some l => and_then (process_all cf c l) (fun c => latest_updates cf c f)
      end)
  end.
(** consensus_client.rs:173-209 [advance]: an update of the committee that is not valid is ignored *)
Definition advance (cf : config) (c : client) (f : fetched) : client * outcome unit :=
  and_then (latest_updates cf c f) (fun c =>
  match next_known (lc_store c) with
  | Some _ => (c, Ok tt)
  | None =>
      match f_updates f (period (b_slot (finalized (lc_store c)))) with
      | None => (c, Err)
      | Some [x] => match process cf c x with
                    | (c', Ok _) => (c', Ok tt)
                    | (_, Err) => (c, Ok tt)
                    | (_, Panic) => (c, Panic)
                    end
      | Some _ => (c, Ok tt)
      end
  end).

(** The client over its life: client.rs:310-363 calls [sync] until it succeeds, then [advance] for every slot. *)
Inductive lc_op := Sync (f : fetched) | Advance (f : fetched).
Definition lc_step (cf : config) (c : client) (o : lc_op) : client :=
  match o with Sync f => fst (sync cf c f) | Advance f => fst (advance cf c f) end.
Definition lc_run (cf : config) (c : client) (ops : list lc_op) : client := fold_left (lc_step cf) ops c.

(** node.rs:109-119 [check_head_age] *)
Definition check_head_age (c : client) (now : N) : outcome unit :=
  if now <? b_slot (optimistic (lc_store c)) then Panic      (* subtraction overflow; wraps in a release build *)
  else if 10 <? now - b_slot (optimistic (lc_store c)) then Err else Ok tt.
End Crypto.
