(** Further lemmas about the content store: usage, capacity, pruning reports, reopening and
    pagination. *)
From Verif Require Import Base Distance_Model Distance_Spec Distance_Proofs Sort_Model F64_Model
  Store_Model Store_Spec Store_Proofs.
From Coq Require Import Sorting.Permutation Sorting.Sorted.

Section I.
Context (content_id : bytes -> bytes) (Hcid : forall k, id32 (content_id k)).

Theorem usage_exact s : reachable_once content_id s ->
  entry_count (stats s) = blen (rows s) /\ total_size (stats s) = entries_size (rows s).
Proof.
  intros R. apply reachable_once_inv in R; auto. destruct R as [_ _ Ro (k & t & E1 & E2 & E3 & E4) _ _ _ _].
  rewrite (real_sum content_id (cfg s)) by exact Ro.
  specialize (E4 I). specialize (E3 E4). lia.
Qed.
Theorem usage_over s : reachable content_id s ->
  blen (rows s) <= entry_count (stats s) /\ entries_size (rows s) <= total_size (stats s).
Proof.
  intros R. apply reachable_inv in R; auto. destruct R as [_ _ Ro (k & t & E1 & E2 & E3 & E4) _ _ _ _].
  rewrite (real_sum content_id (cfg s)) by exact Ro. lia.
Qed.

Theorem within_capacity s : reachable content_id s ->
  disk_usage (cfg s) (stats s) <= capacity (cfg s) /\ real_usage s <= capacity (cfg s) /\
  (capacity (cfg s) = 0 -> rows s = [] /\ radius s = 0).
Proof.
  intros R. pose proof (usage_over s R) as [U1 U2]. apply reachable_inv in R; auto.
  assert (C : disk_usage (cfg s) (stats s) <= capacity (cfg s)) by (apply N.ltb_ge; apply (i_cap _ _ _ R)).
  split; [exact C|]. split.
  - unfold real_usage, disk_usage in *. pose proof (N.mul_le_mono_r _ _ (extra (cfg s)) U1). rewrite (N.mul_comm (extra (cfg s))). lia.
  - intros Z. split; [eapply (zero_rows content_id Hcid); eauto|apply (i_zero _ _ _ R Z)].
Qed.

(** ** Pruning *)
Lemma insert_rows c k v l : sql_insert (new_row content_id c k v) l =
  l ++ (if find_row (content_id k) l then [] else [new_row content_id c k v]).
Proof. unfold sql_insert. cbn [new_row r_id]. destruct (find_row _ _); [rewrite app_nil_r|]; reflexivity. Qed.

Lemma reachable_insert s ties durs k v : reachable content_id s -> reachable content_id (fst (insert content_id ties durs k v s)).
Proof.
  intros (c & t & d & s0 & ops & A & B & C & D). exists c, t, d, s0, (ops ++ [OInsert ties durs k v]).
  split; [exact A|]. split; [exact B|]. split.
  - apply Forall_app. split; [exact C|repeat constructor].
  - clear B C. revert s0 D. induction ops as [|o ops IH]; intros s0 D; cbn [run app] in *.
    + injection D as ->. reflexivity.
    + destruct (step content_id s0 o); [apply IH, D|discriminate].
Qed.

Definition short_entry (s : store) (r : row) : Prop := r_short r = prefix (entry_distance s r).
Lemma row_prefix c r : config_ok c -> row_ok content_id c r -> r_short r = prefix (distance (node_id c) (r_id r)).
Proof.
  intros [Hn _] (A & B & _). rewrite B. unfold dist, prefix. apply big_endian_u32_div. apply distance_bound; [exact Hn|]. rewrite A. apply Hcid.
Qed.

Theorem prune_farthest (ex : Prop) s ties durs k v s' dropped :
  inv content_id ex s -> fresh_or content_id ex s k -> insert content_id ties durs k v s = (s', Some dropped) ->
  exists removed,
    Permutation (rows s ++ (if lookup (content_id k) s then [] else [new_row content_id (cfg s) k v])) (removed ++ rows s') /\
    (forall a b, In a removed -> In b (rows s') -> prefix (entry_distance s b) <= prefix (entry_distance s a)) /\
    (forall x, In x dropped -> In x (map (fun r => (r_key r, r_value r)) removed)) /\
    (ex -> Permutation dropped (map (fun r => (r_key r, r_value r)) removed)).
Proof.
  intros R Fr E. pose proof E as E'. apply (insert_full content_id Hcid ex) in E; auto.
  destruct E as (E1 & E2 & E3 & (r1 & r2 & P & F & D & X) & _). exists (r1 ++ r2).
  assert (Ro : Forall (row_ok content_id (cfg s)) (sql_insert (new_row content_id (cfg s) k v) (rows s)))
    by (apply sql_insert_ok; [apply new_row_ok|apply R]).
  assert (P' := P). rewrite insert_rows in P. split; [|split; [|split]].
  - unfold lookup. destruct (find_row (content_id k) (rows s)); exact P.
  - intros a b Ha Hb. specialize (F a b Ha Hb). rewrite Forall_forall in Ro.
    rewrite (row_prefix (cfg s) a), (row_prefix (cfg s) b) in F; try apply R.
    + exact F.
    + apply Ro. eapply Permutation_in; [symmetry; exact P'|]. apply in_or_app. right. exact Hb.
    + apply Ro. eapply Permutation_in; [symmetry; exact P'|]. apply in_or_app. left. exact Ha.
  - intros x. rewrite D. rewrite map_app. intros Hx. apply in_or_app. left. exact Hx.
  - intros Hex. rewrite (X Hex), app_nil_r, D. reflexivity.
Qed.

(** ** The radius *)
Theorem radius_covers m s : reachable_radius content_id m s ->
  radius s <= m /\ forall r, In r (rows s) -> prefix (entry_distance s r) <= prefix (radius s).
Proof.
  intros R. apply reachable_covered in R as [I [Cm Cv]]; auto. split; [rewrite <- Cm; apply I|].
  intros r Hr. rewrite Forall_forall in Cv. destruct (Cv r Hr) as [C _].
  assert (Ro : row_ok content_id (cfg s) r) by (pose proof (i_rows _ _ _ I) as F; rewrite Forall_forall in F; apply F, Hr).
  rewrite (row_prefix (cfg s) r) in C; [|apply I|exact Ro]. unfold entry_distance.
  rewrite big_endian_u32_div in C; [exact C|]. eapply N.le_lt_trans; [apply I|]. apply I.
Qed.

Theorem radius_after_prune s ties durs k v s' dropped : reachable content_id s ->
  insert content_id ties durs k v s = (s', Some dropped) -> capacity (cfg s) < usage_with content_id k v s ->
  radius s' = match rows s' with
              | [] => if capacity (cfg s) =? 0 then 0 else max_radius (cfg s)
              | _ => radius s'
              end /\
  (rows s' <> [] -> exists r, In r (rows s') /\ radius s' = N.min (entry_distance s r) (max_radius (cfg s)) /\
     forall r', In r' (rows s') -> prefix (entry_distance s r') <= prefix (entry_distance s r)).
Proof.
  intros R E LU. pose proof E as E'. apply reachable_inv in R; auto.
  pose proof (insert_inv content_id Hcid False ties durs k v s R ltac:(intros [])) as I'. rewrite E in I'. cbn [fst] in I'.
  apply (insert_full content_id Hcid False) in E; auto; [|intros []].
  destruct E as (_ & Ec & _ & _ & _ & E6). specialize (E6 LU).
  unfold radius_to_farthest in E6. split.
  - destruct (rows s') eqn:Rw; [|reflexivity]. rewrite E6. reflexivity.
  - intros Ne. destruct (sql_farthest (ties O) (rows s')) as [r|] eqn:F; [|apply farthest_none in F; contradiction].
    apply farthest_spec in F as [F1 F2]. exists r. split; [exact F1|]. split; [exact E6|].
    intros r' Hr'. specialize (F2 r' Hr'). pose proof (i_rows _ _ _ I') as Ro. rewrite Forall_forall in Ro.
    rewrite (row_prefix (cfg s') r), (row_prefix (cfg s') r') in F2; try apply I'; auto.
    rewrite Ec in F2. exact F2.
Qed.

(** ** Opening *)
Lemma top_eq n n' id : id32 n -> id32 n' -> id32 id ->
  (big_endian_u32 (distance n id) = big_endian_u32 (distance n' id) <-> prefix (be_num n) = prefix (be_num n')).
Proof.
  intros A B C. rewrite !short_xor by assumption. unfold prefix. split; [|intros ->; reflexivity].
  intros Hx. apply (f_equal (fun z => N.lxor z (be_num id / 2 ^ 224))) in Hx.
  rewrite !N.lxor_assoc, N.lxor_nilpotent, !N.lxor_0_r in Hx. exact Hx.
Qed.

Lemma db_reopen s c ties durs (db : list row) : inv content_id False s -> config_ok c ->
  NoDup (ids db) -> Forall (row_ok content_id (cfg s)) db ->
  let (res, db') := create c ties durs db in
  (exists removed, Permutation db (removed ++ db') /\
     forall a b, In a removed -> In b db' -> prefix (entry_distance s b) <= prefix (entry_distance s a)) /\
  (entries_size db + extra c * blen db <= capacity c -> db' = db) /\
  ((db' = [] \/ prefix (be_num (node_id c)) = prefix (be_num (node_id (cfg s)))) ->
     exists s', res = Ok s' /\ cfg s' = c /\ rows s' = db' /\
       entry_count (stats s') = blen db' /\ total_size (stats s') = entries_size db') /\
  (db' <> [] -> prefix (be_num (node_id c)) <> prefix (be_num (node_id (cfg s))) -> res = Err).
Proof.
  intros R Hc Nd Ro0. destruct (create c ties durs db) as [res db'] eqn:E.
  apply (create_spec content_id Hcid) in E; [|exact Hc|split; [exact Nd|exists (cfg s); split; [apply R|exact Ro0]]].
  destruct E as ((rem & P & F) & S & M). pose proof Ro0 as Ro. rewrite Forall_forall in Ro.
  assert (Hin : forall x, In x db' -> In x db) by (intros x Hx; eapply Permutation_in; [symmetry; exact P|apply in_or_app; right; exact Hx]).
  assert (Hir : forall x, In x rem -> In x db) by (intros x Hx; eapply Permutation_in; [symmetry; exact P|apply in_or_app; left; exact Hx]).
  assert (Top : forall r, In r db' ->
     (r_short r = big_endian_u32 (dist c (r_id r)) <-> prefix (be_num (node_id (cfg s))) = prefix (be_num (node_id c)))).
  { intros r Hr. destruct (Ro r (Hin r Hr)) as (A & B & _). rewrite B, A. unfold dist.
    apply top_eq; [apply R|apply Hc|apply Hcid]. }
  split; [|split; [|split]].
  - exists rem. split; [exact P|]. intros a b Ha Hb. specialize (F a b Ha Hb).
    rewrite (row_prefix (cfg s) a), (row_prefix (cfg s) b) in F; try apply R; auto.
  - intros L. apply S. rewrite (real_sum content_id (cfg s)) in L by exact Ro0. rewrite N.mul_comm. exact L.
  - intros Hor. destruct res as [s'| |].
    + destruct M as (I & Rw & Cf). exists s'. repeat split; auto; destruct I as [_ _ Ro' (k & t & E1 & E2 & E3 & E4) _ _ _ _];
        specialize (E4 Logic.I); specialize (E3 E4); rewrite <- Rw, ?(real_sum content_id (cfg s')) by exact Ro'; lia.
    + destruct M as (r & M1 & M2). exfalso. destruct Hor as [->|Hor]; [cbn in M1; discriminate|].
      apply farthest_spec in M1 as [M1 _]. apply M2, Top; congruence.
    + destruct M.
  - intros Ne Nt. destruct res as [s'| |]; [|reflexivity|destruct M]. exfalso.
    destruct M as (I & Rw & Cf). destruct db' as [|r db']; [contradiction|]. apply Nt. symmetry. apply (Top r (or_introl eq_refl)).
    pose proof (i_rows _ _ _ I) as Ro'. rewrite Rw, Cf in Ro'. inversion Ro' as [|? ? (_ & B & _) _]; subst. exact B.
Qed.

Theorem reopen s c ties durs : reachable content_id s -> config_ok c ->
  let (res, db') := create c ties durs (rows s) in
  (exists removed, Permutation (rows s) (removed ++ db') /\
     forall a b, In a removed -> In b db' -> prefix (entry_distance s b) <= prefix (entry_distance s a)) /\
  (entries_size (rows s) + extra c * blen (rows s) <= capacity c -> db' = rows s) /\
  ((db' = [] \/ prefix (be_num (node_id c)) = prefix (be_num (node_id (cfg s)))) ->
     exists s', res = Ok s' /\ cfg s' = c /\ rows s' = db' /\
       entry_count (stats s') = blen db' /\ total_size (stats s') = entries_size db') /\
  (db' <> [] -> prefix (be_num (node_id c)) <> prefix (be_num (node_id (cfg s))) -> res = Err).
Proof. intros R Hc. apply reachable_inv in R; auto. apply (db_reopen s); auto; apply R. Qed.

(** The database after a crash is what the table was before plus the new content, minus
    some of the farthest; it opens again. *)
Theorem crash_reopen s ties durs k v n c ties' durs' : reachable content_id s -> config_ok c -> node_id c = node_id (cfg s) ->
  let db := crashed_rows content_id ties durs k v n s in
  (exists removed,
     (Permutation (rows s) (removed ++ db) \/ Permutation (new_row content_id (cfg s) k v :: rows s) (removed ++ db)) /\
     forall a b, In a removed -> In b db -> prefix (entry_distance s b) <= prefix (entry_distance s a)) /\
  exists s', fst (create c ties' durs' db) = Ok s' /\
    (entries_size db + extra c * blen db <= capacity c -> rows s' = db).
Proof.
  intros R Hc En db. apply reachable_inv in R; auto.
  pose proof (crashed_db content_id False ties durs k v n s R) as Hdb. fold db in Hdb. destruct Hdb as [Nd Rok].
  assert (X : exists removed l, (l = rows s \/ (l = sql_insert (new_row content_id (cfg s) k v) (rows s))) /\ Permutation l (removed ++ db) /\
     forall a b, In a removed -> In b db -> r_short b <= r_short a).
  { unfold db, crashed_rows. set (r := new_row content_id (cfg s) k v).
    destruct (radius s <? dist (cfg s) (r_id r)).
    - exists [], (rows s). split; [left; reflexivity|]. split; [reflexivity|]. intros a b [].
    - destruct (prune_loop n _ _ _ _ _) as [l b] eqn:L. cbn [fst].
      apply (prune_loop_spec (cfg s) ties durs False) in L; cbn [l_rows l_mpc l_stats l_dropped] in *.
      + destruct L as (_ & _ & _ & _ & (r1 & r2 & L5 & L6 & _) & _). exists (r1 ++ r2), (sql_insert r (rows s)).
        split; [right; reflexivity|]. split; [exact L5|exact L6].
      + apply sql_insert_ids, R.
      + apply insert_stats; [|intros []]. destruct (i_stats _ _ _ R) as (k' & t & X). exists k', t. intuition.
      + apply R. }
  destruct X as (rem & l & Hl & P & F).
  assert (Rl : Forall (row_ok content_id (cfg s)) l).
  { destruct Hl as [->| ->]; [apply R|]. apply sql_insert_ok; [apply new_row_ok|apply R]. }
  pose proof (forall_perm_sub _ _ _ _ Rl P) as Rdb. split.
  - exists rem. split.
    + destruct Hl as [-> | ->]; [left; exact P|]. rewrite insert_rows in P. destruct (find_row _ _).
      * left. rewrite app_nil_r in P. exact P.
      * right. rewrite Permutation_app_comm in P. exact P.
    + intros a b Ha Hb. specialize (F a b Ha Hb). rewrite Forall_forall in Rl, Rdb.
      rewrite (row_prefix (cfg s) a), (row_prefix (cfg s) b) in F; try apply R; auto. apply Rl.
      eapply Permutation_in; [symmetry; exact P|]. apply in_or_app. left. exact Ha.
  - pose proof (db_reopen s c ties' durs' db R Hc Nd Rdb) as H. destruct (create c ties' durs' db) as [res db'].
    destruct H as (_ & H2 & H3 & _). destruct H3 as (s' & -> & _ & Rw & _); [right; congruence|].
    exists s'. split; [reflexivity|]. intros L. rewrite Rw. apply H2, L.
Qed.

(** ** Overlay's question *)
Lemma has_content_lookup id s : has_content id s = true <-> lookup id s <> None.
Proof.
  unfold has_content, lookup, find_row. rewrite existsb_exists. split.
  - intros (x & Hx & E). destruct (find (fun r => beqb (r_id r) id) (rows s)) eqn:F; [discriminate|].
    exfalso. pose proof (find_none _ _ F x Hx) as X. cbv beta in X, E. rewrite E in X. discriminate.
  - destruct (find (fun r => beqb (r_id r) id) (rows s)) as [r|] eqn:F; [|cbn; congruence]. intros _.
    apply find_some in F. exists r. exact F.
Qed.
Theorem should_we_store_ok affected k s ties durs v :
  match should_we_store content_id affected k s with
  | NotWithinRadius => affected = true /\ snd (insert content_id ties durs k v s) = None
  | AlreadyStored => lookup (content_id k) s <> None
  | DoStore => lookup (content_id k) s = None /\ (affected = true -> snd (insert content_id ties durs k v s) <> None)
  end.
Proof.
  unfold should_we_store, insert. cbn [new_row r_id]. destruct affected; cbn [andb].
  - destruct (radius s <? dist (cfg s) (content_id k)); [split; reflexivity|].
    destruct (has_content (content_id k) s) eqn:H; [apply has_content_lookup, H|]. split.
    + destruct (lookup (content_id k) s) eqn:L; [|reflexivity]. exfalso.
      assert (X : lookup (content_id k) s <> None) by congruence. apply has_content_lookup in X. congruence.
    + intros _. destruct (should_prune _ _); [destruct (prune _ _ _)|]; discriminate.
  - destruct (has_content (content_id k) s) eqn:H; [apply has_content_lookup, H|]. split.
    + destruct (lookup (content_id k) s) eqn:L; [|reflexivity]. exfalso.
      assert (X : lookup (content_id k) s <> None) by congruence. apply has_content_lookup in X. congruence.
    + discriminate.
Qed.

Theorem lookup_key_ok s id : reachable content_id s ->
  match lookup_key id s with
  | Some k => content_id k = id /\ lookup id s <> None
  | None => lookup id s = None
  end.
Proof.
  intros R. apply reachable_inv in R; auto. unfold lookup_key, lookup. destruct (find_row id (rows s)) as [r|] eqn:F; [|reflexivity].
  cbn. apply find_row_some in F as [F1 <-]. pose proof (i_rows _ _ _ R) as Ro. rewrite Forall_forall in Ro.
  split; [symmetry; apply Ro, F1|discriminate].
Qed.

Theorem empty_lookup_history c ties durs s0 ops s id v :
  config_ok c -> fst (create c ties durs []) = Ok s0 -> Forall op_ok ops -> run content_id s0 ops = Some s ->
  lookup id s = Some v ->
  exists pre o post k, ops = pre ++ o :: post /\ content_id k = id /\
    ((exists t d, o = OInsert t d k v) \/ exists t d n c t' d', o = OCrash t d k v n c t' d') /\
    ~ In (ODelete id) post.
Proof.
  intros Hc C F R L. pose proof C as C'. apply (create_inv content_id Hcid False) in C; [|exact Hc|exact (db_ok_nil content_id c Hc)].
  eapply (lookup_history content_id Hcid); eauto.
  destruct (create c ties durs []) as [res db'] eqn:E. cbn in C'. subst res.
  apply (create_spec content_id Hcid) in E; [|exact Hc|exact (db_ok_nil content_id c Hc)].
  destruct E as ((rem & P & _) & _ & (_ & Rw & _)). apply Permutation_nil in P. apply app_eq_nil in P as [_ ->].
  unfold lookup. rewrite Rw. reflexivity.
Qed.

(** ** Pagination *)
Lemma blob_le_lex a : forall b, blob_le a b = true -> a = b \/ lex_lt a b.
Proof.
  induction a as [|x a IH]; intros [|y b]; cbn; auto; try discriminate.
  intros H. destruct (N.ltb_spec x y) as [L|L]; [right; left; exact L|]. cbn in H.
  apply andb_prop in H as [H1 H2]. apply N.eqb_eq in H1. subst y. destruct (IH b H2) as [->|X]; auto.
Qed.
Lemma blob_le_total a : forall b, blob_le a b = true \/ blob_le b a = true.
Proof.
  induction a as [|x a IH]; intros [|y b]; cbn; auto.
  destruct (N.ltb_spec x y) as [L|L]; [left; reflexivity|]. destruct (N.ltb_spec y x) as [L2|L2]; [right; reflexivity|].
  assert (x = y) by lia. subst y. rewrite N.eqb_refl. cbn. apply IH.
Qed.
Lemma blob_le_trans a : forall b c, blob_le a b = true -> blob_le b c = true -> blob_le a c = true.
Proof.
  induction a as [|x a IH]; intros [|y b] [|z c]; cbn; auto; try discriminate.
  intros H1 H2. apply Bool.orb_true_iff in H1, H2. rewrite Bool.orb_true_iff, Bool.andb_true_iff in *.
  rewrite !N.ltb_lt, !N.eqb_eq in *. destruct H1 as [H1|[H1 H1']], H2 as [H2|[H2 H2']]; subst; try (left; lia); auto.
  right. split; [reflexivity|]. eapply IH; eassumption.
Qed.

Lemma firstn_add {A} n m (l : list A) : firstn (n + m) l = firstn n l ++ firstn m (skipn n l).
Proof.
  revert l. induction n as [|n IH]; intros l; [reflexivity|]. destruct l as [|x l]; [cbn; rewrite firstn_nil; reflexivity|].
  cbn [Nat.add firstn skipn app]. f_equal. apply IH.
Qed.
Lemma concat_pages {A} n m (l : list A) :
  concat (map (fun i => firstn n (skipn (i * n) l)) (seq 0 m)) = firstn (m * n) l.
Proof.
  induction m as [|m IH]; [reflexivity|]. rewrite seq_S, map_app, concat_app, IH. cbn [map concat Nat.add].
  rewrite app_nil_r. replace (S m * n)%nat with (m * n + n)%nat by lia. symmetry. apply firstn_add.
Qed.

Lemma keys_nodup s : inv content_id False s -> NoDup (map r_key (rows s)).
Proof.
  intros I. pose proof (i_nd _ _ _ I) as Nd. pose proof (i_rows _ _ _ I) as Ro. unfold ids in Nd.
  assert (E : map r_id (rows s) = map content_id (map r_key (rows s))).
  { rewrite map_map. apply map_ext_in. intros r Hr. rewrite Forall_forall in Ro. apply Ro, Hr. }
  rewrite E in Nd. eapply NoDup_map_inv. exact Nd.
Qed.

Theorem pages_all s n m : reachable content_id s -> 0 < n -> N.of_nat m * n < 2 ^ 63 -> n < 2 ^ 63 -> blen (rows s) <= N.of_nat m * n ->
  exists pages,
    map (fun i => paginate (N.of_nat i * n) n s) (seq 0 m) = map (fun page => Ok (page, entry_count (stats s))) pages /\
    Forall (fun page => blen page <= n) pages /\
    lex_sorted (concat pages) /\
    (forall k, In k (concat pages) <-> lookup_key (content_id k) s = Some k) /\
    blen (concat pages) = blen (rows s).
Proof.
  intros R Hn Hb Hnb Hl. apply reachable_inv in R; auto.
  set (ks := sort_by blob_le (map r_key (rows s))).
  exists (map (fun i => firstn (N.to_nat n) (skipn (i * N.to_nat n) ks)) (seq 0 m)).
  assert (C : concat (map (fun i => firstn (N.to_nat n) (skipn (i * N.to_nat n) ks)) (seq 0 m)) = ks).
  { rewrite concat_pages. apply firstn_all2. unfold ks. rewrite sort_by_length, map_length. unfold blen in Hl. lia. }
  rewrite C. split; [|split; [|split; [|split]]].
  - rewrite map_map. apply map_ext_in. intros i Hi. apply in_seq in Hi. unfold paginate.
    assert (X : N.of_nat i * n < 2 ^ 63).
    { eapply N.le_lt_trans; [|exact Hb]. apply N.mul_le_mono_r. lia. }
    destruct (N.leb_spec (2 ^ 63) (N.of_nat i * n)); [lia|]. destruct (N.leb_spec (2 ^ 63) n); [lia|]. cbn [orb].
    do 4 f_equal. lia.
  - apply Forall_map, Forall_forall. intros i _. unfold blen. pose proof (firstn_le_length (N.to_nat n) (skipn (i * N.to_nat n) ks)). lia.
  - pose proof (sort_by_sorted blob_le blob_le_total blob_le_trans (map r_key (rows s))) as Hs. fold ks in Hs.
    assert (Nd : NoDup ks) by (eapply Permutation_NoDup; [apply sort_by_perm|apply keys_nodup, R]).
    unfold lex_sorted. clear C. clearbody ks. induction Hs as [|x l Hs IH Hf]; [constructor|].
    inversion Nd as [|? ? N1 N2]; subst. constructor; [apply IH, N2|]. rewrite Forall_forall in *. intros y Hy.
    destruct (blob_le_lex x y (Hf y Hy)) as [->|X]; [contradiction|exact X].
  - intros k. unfold ks. rewrite sort_by_In, in_map_iff. unfold lookup_key. pose proof (i_rows _ _ _ R) as Ro. rewrite Forall_forall in Ro. split.
    + intros (r & <- & Hr). pose proof (Ro r Hr) as (A & _). rewrite <- A. rewrite (find_row_in r) by (try apply R; exact Hr). reflexivity.
    + destruct (find_row (content_id k) (rows s)) as [r|] eqn:F; [|discriminate]. cbn. intros [= <-]. exists r.
      apply find_row_some in F as [F _]. split; [reflexivity|exact F].
  - unfold ks, blen. rewrite sort_by_length, map_length. reflexivity.
Qed.
End I.
