(** Properties C11 to C17: the id-indexed content store. *)
From Verif Require Import Base Distance_Model Distance_Spec Sort_Model Store_Model Store_Spec Store_Proofs Store_Proofs2.
From Coq Require Import Sorting.Permutation.

(** C11: inserting.  Content farther than the radius is refused and changes nothing.  All
    other content is accepted: afterwards every id has either no value (it was pruned) or the
    value it has in the table with the content added, where an id already present keeps its
    value.  Nothing is pruned if it all fits. *)
Theorem C11_insert :
  forall content_id, (forall k, id32 (content_id k)) ->
  forall ties durs key value s, reachable content_id s ->
  let (s', res) := insert content_id ties durs key value s in
  match res with
  | None => radius s < distance (node_id (cfg s)) (content_id key) /\ s' = s
  | Some dropped =>
      distance (node_id (cfg s)) (content_id key) <= radius s /\
      (forall id, lookup id s' = None \/ lookup id s' = with_content content_id key value s id) /\
      (usage_with content_id key value s <= capacity (cfg s) ->
         dropped = [] /\ radius s' = radius s /\ forall id, lookup id s' = with_content content_id key value s id)
  end.
Proof. exact insert_refines. Qed.
Print Assumptions C11_insert.

(** C11: deleting removes that id and nothing else. *)
Theorem C11_delete :
  forall content_id, (forall k, id32 (content_id k)) ->
  forall id s, reachable content_id s ->
  exists s', delete id s = Some s' /\ radius s' = radius s /\
    forall id', lookup id' s' = if beqb id' id then None else lookup id' s.
Proof. exact delete_refines. Qed.
Print Assumptions C11_delete.

(** C11: whatever a lookup finds, after any history with restarts and crashes, was inserted
    under a key with that id and was not deleted since. *)
Theorem C11_lookup_history :
  forall content_id, (forall k, id32 (content_id k)) ->
  forall c ties durs s0 ops s id value,
    config_ok c -> fst (create c ties durs []) = Ok s0 -> Forall op_ok ops -> run content_id s0 ops = Some s ->
    lookup id s = Some value ->
    exists pre o post key, ops = pre ++ o :: post /\ content_id key = id /\
      ((exists t d, o = OInsert t d key value) \/ exists t d n c t' d', o = OCrash t d key value n c t' d') /\
      ~ In (ODelete id) post.
Proof. exact empty_lookup_history. Qed.
Print Assumptions C11_lookup_history.

(** C11: the key found under an id has that id. *)
Theorem C11_lookup_key :
  forall content_id, (forall k, id32 (content_id k)) ->
  forall s id, reachable content_id s ->
  match lookup_key id s with
  | Some key => content_id key = id /\ lookup id s <> None
  | None => lookup id s = None
  end.
Proof. exact lookup_key_ok. Qed.
Print Assumptions C11_lookup_key.

(** C11: the answer to "should we store it" agrees with what an insert would do. *)
Theorem C11_should_we_store :
  forall content_id affected key s ties durs value,
  match should_we_store content_id affected key s with
  | NotWithinRadius => affected = true /\ snd (insert content_id ties durs key value s) = None
  | AlreadyStored => lookup (content_id key) s <> None
  | DoStore => lookup (content_id key) s = None /\ (affected = true -> snd (insert content_id ties durs key value s) <> None)
  end.
Proof. exact should_we_store_ok. Qed.
Print Assumptions C11_should_we_store.

(** C12: the usage counters are exact if no content was inserted while it was present since
    the store was last opened, whatever happened before. *)
Theorem C12_usage_exact :
  forall content_id, (forall k, id32 (content_id k)) ->
  forall s, reachable_once content_id s ->
  entry_count (stats s) = blen (rows s) /\ total_size (stats s) = entries_size (rows s).
Proof. exact usage_exact. Qed.
Print Assumptions C12_usage_exact.

(** C12: in every history they are at least the true numbers. *)
Theorem C12_usage_not_below :
  forall content_id, (forall k, id32 (content_id k)) ->
  forall s, reachable content_id s ->
  blen (rows s) <= entry_count (stats s) /\ entries_size (rows s) <= total_size (stats s).
Proof. exact usage_over. Qed.
Print Assumptions C12_usage_not_below.

(** C13: in every history the reported and the true usage are within the capacity; with
    capacity zero nothing is stored and the radius is zero. *)
Theorem C13_within_capacity :
  forall content_id, (forall k, id32 (content_id k)) ->
  forall s, reachable content_id s ->
  disk_usage (cfg s) (stats s) <= capacity (cfg s) /\ real_usage s <= capacity (cfg s) /\
  (capacity (cfg s) = 0 -> rows s = [] /\ radius s = 0).
Proof. exact within_capacity. Qed.
Print Assumptions C13_within_capacity.

(** C14: what an insert removes is at least as far, by the first four bytes of the distance,
    as everything that stays, and what is reported as dropped was removed. *)
Theorem C14_removes_farthest :
  forall content_id, (forall k, id32 (content_id k)) ->
  forall s ties durs key value s' dropped, reachable content_id s ->
  insert content_id ties durs key value s = (s', Some dropped) ->
  exists removed,
    Permutation (rows s ++ (if lookup (content_id key) s then [] else [new_row content_id (cfg s) key value])) (removed ++ rows s') /\
    (forall a b, In a removed -> In b (rows s') -> prefix (entry_distance s b) <= prefix (entry_distance s a)) /\
    (forall x, In x dropped -> In x (map (fun r => (r_key r, r_value r)) removed)).
Proof.
  intros cid Hc s ties durs k v s' dropped R E.
  destruct (prune_farthest cid Hc False s ties durs k v s' dropped (reachable_inv cid Hc s R) ltac:(intros []) E) as (rem & A & B & C & _).
  exists rem. auto.
Qed.
Print Assumptions C14_removes_farthest.

(** C14: without inserting content that is present, the report is exact. *)
Theorem C14_reports_dropped :
  forall content_id, (forall k, id32 (content_id k)) ->
  forall s ties durs key value s' dropped, reachable_once content_id s -> lookup (content_id key) s = None ->
  insert content_id ties durs key value s = (s', Some dropped) ->
  exists removed,
    Permutation (rows s ++ [new_row content_id (cfg s) key value]) (removed ++ rows s') /\
    (forall a b, In a removed -> In b (rows s') -> prefix (entry_distance s b) <= prefix (entry_distance s a)) /\
    Permutation dropped (map (fun r => (r_key r, r_value r)) removed).
Proof.
  intros cid Hc s ties durs k v s' dropped R L E.
  destruct (prune_farthest cid Hc True s ties durs k v s' dropped (reachable_once_inv cid Hc s R) (fun _ => L) E) as (rem & A & B & C & D).
  rewrite L in A. exists rem. auto.
Qed.
Print Assumptions C14_reports_dropped.

(** C15: as long as the configured maximum does not change, in every history the radius is at
    most that maximum and no stored entry is beyond it, by the first four bytes. *)
Theorem C15_radius_covers_store :
  forall content_id, (forall k, id32 (content_id k)) ->
  forall m s, reachable_radius content_id m s ->
  radius s <= m /\ forall r, In r (rows s) -> prefix (entry_distance s r) <= prefix (radius s).
Proof. exact radius_covers. Qed.
Print Assumptions C15_radius_covers_store.

(** C15: after an insert that made the store too large, the radius is the distance of one of
    the farthest entries kept (at most the maximum); if nothing is kept it is the maximum. *)
Theorem C15_radius_after_prune :
  forall content_id, (forall k, id32 (content_id k)) ->
  forall s ties durs key value s' dropped, reachable content_id s ->
  insert content_id ties durs key value s = (s', Some dropped) -> capacity (cfg s) < usage_with content_id key value s ->
  radius s' = match rows s' with
              | [] => if capacity (cfg s) =? 0 then 0 else max_radius (cfg s)
              | _ => radius s'
              end /\
  (rows s' <> [] -> exists r, In r (rows s') /\ radius s' = N.min (entry_distance s r) (max_radius (cfg s)) /\
     forall r', In r' (rows s') -> prefix (entry_distance s r') <= prefix (entry_distance s r)).
Proof. exact radius_after_prune. Qed.
Print Assumptions C15_radius_after_prune.

(** C16: opening the database of a store again, with any configuration: what is removed is
    farthest; nothing is removed if it fits; it opens if the first four bytes of the node id
    are the same (or nothing is left), with exact counters; and it is refused otherwise. *)
Theorem C16_reopen :
  forall content_id, (forall k, id32 (content_id k)) ->
  forall s c ties durs, reachable content_id s -> config_ok c ->
  let (res, db') := create c ties durs (rows s) in
  (exists removed, Permutation (rows s) (removed ++ db') /\
     forall a b, In a removed -> In b db' -> prefix (entry_distance s b) <= prefix (entry_distance s a)) /\
  (entries_size (rows s) + extra c * blen (rows s) <= capacity c -> db' = rows s) /\
  ((db' = [] \/ prefix (be_num (node_id c)) = prefix (be_num (node_id (cfg s)))) ->
     exists s', res = Ok s' /\ cfg s' = c /\ rows s' = db' /\
       entry_count (stats s') = blen db' /\ total_size (stats s') = entries_size db') /\
  (db' <> [] -> prefix (be_num (node_id c)) <> prefix (be_num (node_id (cfg s))) -> res = Err).
Proof. exact reopen. Qed.
Print Assumptions C16_reopen.

(** C16: dying at any point of an insert leaves a database with the old content, with or
    without the new, less some of the farthest; it opens again and keeps all that fits. *)
Theorem C16_crash_reopen :
  forall content_id, (forall k, id32 (content_id k)) ->
  forall s ties durs key value n c ties' durs', reachable content_id s -> config_ok c -> node_id c = node_id (cfg s) ->
  let db := crashed_rows content_id ties durs key value n s in
  (exists removed,
     (Permutation (rows s) (removed ++ db) \/ Permutation (new_row content_id (cfg s) key value :: rows s) (removed ++ db)) /\
     forall a b, In a removed -> In b db -> prefix (entry_distance s b) <= prefix (entry_distance s a)) /\
  exists s', fst (create c ties' durs' db) = Ok s' /\
    (entries_size db + extra c * blen db <= capacity c -> rows s' = db).
Proof. exact crash_reopen. Qed.
Print Assumptions C16_crash_reopen.

(** C17: the pages of a listing, put together, are all keys in strictly increasing order. *)
Theorem C17_pages :
  forall content_id, (forall k, id32 (content_id k)) ->
  forall s n m, reachable content_id s -> 0 < n -> N.of_nat m * n < 2 ^ 63 -> n < 2 ^ 63 -> blen (rows s) <= N.of_nat m * n ->
  exists pages,
    map (fun i => paginate (N.of_nat i * n) n s) (seq 0 m) = map (fun page => Ok (page, entry_count (stats s))) pages /\
    Forall (fun page => blen page <= n) pages /\
    lex_sorted (concat pages) /\
    (forall k, In k (concat pages) <-> lookup_key (content_id k) s = Some k) /\
    blen (concat pages) = blen (rows s).
Proof. exact pages_all. Qed.
Print Assumptions C17_pages.

(** * Concrete stores *)
(** Keys of 32 bytes are their own ids. *)
Definition ex_id (k : bytes) : bytes := if (blen k =? 32) && bytes_okb k then k else repeat 0 32.
Lemma ex_id_ok k : id32 (ex_id k).
Proof.
  unfold ex_id. destruct ((blen k =? 32) && bytes_okb k) eqn:E.
  - apply andb_prop in E as [E1 E2]. apply N.eqb_eq in E1. split; [unfold blen in E1; lia|apply bytes_okb_spec, E2].
  - split; [reflexivity|]. apply bytes_okb_spec. reflexivity.
Qed.
Definition ex_key (a b : N) : bytes := a :: repeat 0 30 ++ [b].
Definition ex_config (cap : N) : config := mk_config (repeat 0 32) cap (2 ^ 256 - 1) 0.
Definition ex_ties (n : nat) (r : row) : N := be_num (r_id r).
Definition ex_durs (n : nat) : duration := Optimal.
Definition ex_open (cap : N) : store := mk_store (ex_config cap) [] (2 ^ 256 - 1) 100 (mk_usage 0 0).
Definition ex_insert (a b size : N) : op := OInsert ex_ties ex_durs (ex_key a b) (repeat 7 (N.to_nat size)).
Definition ex_run (cap : N) (ops : list op) : store :=
  match run ex_id (ex_open cap) ops with Some s => s | None => ex_open cap end.

Lemma ex_config_ok cap : config_ok (ex_config cap).
Proof. split; [split; [reflexivity|apply bytes_okb_spec; reflexivity]|reflexivity]. Qed.
Lemma ex_reachable cap ops s : cap <> 0 -> Forall op_ok ops -> run ex_id (ex_open cap) ops = Some s -> reachable ex_id s.
Proof.
  intros H F R. exists (ex_config cap), ex_ties, ex_durs, (ex_open cap), ops.
  split; [apply ex_config_ok|]. split; [|split; assumption].
  assert (A : should_prune (ex_config cap) (sql_usage []) = false) by (apply N.ltb_ge, N.le_0_l).
  assert (B : above_target (ex_config cap) (sql_usage []) = false) by (apply N.ltb_ge, N.le_0_l).
  unfold create. cbn [stats]. rewrite A, B.
  apply N.eqb_neq in H. cbn [capacity ex_config]. rewrite H. reflexivity.
Qed.

(** C12 fails when content is inserted again: the store of this history has one entry of
    size 164 but reports two entries of total size 328. *)
Theorem C12_repeated_insert_refuted :
  exists content_id s, (forall k, id32 (content_id k)) /\ reachable content_id s /\
    entry_count (stats s) <> blen (rows s) /\ total_size (stats s) <> entries_size (rows s).
Proof.
  exists ex_id, (ex_run 1000 [ex_insert 1 0 100; ex_insert 1 0 100]). split; [apply ex_id_ok|]. split.
  - apply (ex_reachable 1000 [ex_insert 1 0 100; ex_insert 1 0 100]); [discriminate|repeat constructor|]. vm_compute. reflexivity.
  - vm_compute. split; discriminate.
Qed.
Print Assumptions C12_repeated_insert_refuted.

(** C14 fails after repeated inserts: here the two entries would fit exactly into the
    capacity, but the insert removes both and reports nothing. *)
Definition ex_drifted : store := ex_run 1000 (repeat (ex_insert 1 0 36) 10).
Theorem C14_unreported_refuted :
  exists content_id s ties durs key value id, (forall k, id32 (content_id k)) /\ reachable content_id s /\
    real_usage s + blen (content_id key) + blen key + blen value <= capacity (cfg s) /\
    lookup id s <> None /\
    let (s', res) := insert content_id ties durs key value s in
    res = Some [] /\ lookup id s' = None /\ lookup (content_id key) s' = None.
Proof.
  exists ex_id, ex_drifted, ex_ties, ex_durs, (ex_key 2 0), (repeat 7 836), (ex_key 1 0).
  split; [apply ex_id_ok|]. split.
  - apply (ex_reachable 1000 (repeat (ex_insert 1 0 36) 10)); [discriminate|repeat constructor|]. vm_compute. reflexivity.
  - split; [vm_compute; discriminate|]. split; [vm_compute; discriminate|]. vm_compute. auto.
Qed.
Print Assumptions C14_unreported_refuted.

(** C15 fails beyond the first four bytes: an entry that is farther than the radius. *)
Definition ex_tied (n : nat) (r : row) : N := be_num (r_id r).
Theorem C15_exact_radius_refuted :
  exists content_id m s, (forall k, id32 (content_id k)) /\ reachable_radius content_id m s /\
    exists r, In r (rows s) /\ radius s < entry_distance s r.
Proof.
  exists ex_id, (2 ^ 256 - 1), (ex_run 1000 [ex_insert 1 0 200; ex_insert 1 1 200; ex_insert 2 0 500]).
  split; [apply ex_id_ok|]. split.
  - exists (ex_config 1000), ex_ties, ex_durs, (ex_open 1000), [ex_insert 1 0 200; ex_insert 1 1 200; ex_insert 2 0 500].
    split; [apply ex_config_ok|]. split; [reflexivity|]. split; [vm_compute; reflexivity|].
    split; [repeat constructor|]. split; [repeat constructor|]. vm_compute. reflexivity.
  - exists (new_row ex_id (ex_config 1000) (ex_key 1 1) (repeat 7 200)). vm_compute. auto.
Qed.
Print Assumptions C15_exact_radius_refuted.

(** C16: opening with another node id and a smaller capacity is refused, but only after
    content was removed from the database. *)
Definition ex_other : config := mk_config (9 :: repeat 0 31) 600 (2 ^ 256 - 1) 0.
Theorem C16_refused_but_pruned_refuted :
  exists content_id s c ties durs, (forall k, id32 (content_id k)) /\ reachable content_id s /\ config_ok c /\
    fst (create c ties durs (rows s)) = Err /\ (length (snd (create c ties durs (rows s))) < length (rows s))%nat.
Proof.
  exists ex_id, (ex_run 1000 [ex_insert 1 0 200; ex_insert 2 0 500]), ex_other, ex_ties, ex_durs.
  split; [apply ex_id_ok|]. split.
  - apply (ex_reachable 1000 [ex_insert 1 0 200; ex_insert 2 0 500]); [discriminate|repeat constructor|]. vm_compute. reflexivity.
  - split; [split; [split; [reflexivity|apply bytes_okb_spec; reflexivity]|reflexivity]|]. vm_compute. auto.
Qed.
Print Assumptions C16_refused_but_pruned_refuted.

(** A history with pruning: the third insert drops the farthest entry and sets the radius,
    after which farther content is refused. *)
Definition ex_full : store := ex_run 1000 [ex_insert 1 0 200; ex_insert 3 0 200; ex_insert 2 0 500].
Example store_examples :
  reachable ex_id ex_full /\ reachable_once ex_id ex_full /\
  map r_id (rows ex_full) = [ex_key 1 0; ex_key 2 0] /\
  radius ex_full = 2 * 2 ^ 248 /\
  snd (insert ex_id ex_ties ex_durs (ex_key 2 1) [1] ex_full) = None /\
  snd (insert ex_id ex_ties ex_durs (ex_key 0 1) (repeat 1 500) ex_full) = Some [(ex_key 2 0, repeat 7 500)] /\
  paginate 1 5 ex_full = Ok ([ex_key 2 0], 2) /\
  fst (create (ex_config 500) ex_ties ex_durs (rows ex_full)) =
    Ok (mk_store (ex_config 500) [new_row ex_id (ex_config 500) (ex_key 1 0) (repeat 7 200)] (2 ^ 248) 100 (mk_usage 1 264)).
Proof.
  assert (R : run ex_id (ex_open 1000) [ex_insert 1 0 200; ex_insert 3 0 200; ex_insert 2 0 500] = Some ex_full) by (vm_compute; reflexivity).
  split; [apply (ex_reachable 1000 [ex_insert 1 0 200; ex_insert 3 0 200; ex_insert 2 0 500]); [discriminate|repeat constructor|exact R]|].
  split; [|vm_compute; repeat split].
  exists (ex_config 1000), ex_ties, ex_durs, [], (ex_open 1000), [ex_insert 1 0 200; ex_insert 3 0 200; ex_insert 2 0 500].
  split; [apply ex_config_ok|]. split; [vm_compute; reflexivity|]. split; [repeat constructor|]. split.
  - exists (ex_config 1000), ex_ties, ex_durs, (ex_open 1000), []. split; [apply ex_config_ok|].
    split; [vm_compute; reflexivity|]. split; [constructor|]. exists (ex_open 1000). split; reflexivity.
  - split; [|exact R]. vm_compute. auto.
Qed.
