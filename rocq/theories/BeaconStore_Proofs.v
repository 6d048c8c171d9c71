From Verif Require Import Base Ssz_Model Ssz_Proofs Header_Model ChainHead_Model ChainHead_Spec ChainHead_Props BeaconStore_Model BeaconStore_Spec.

Lemma periods_nth start count i p : nth_error (periods start count) i = Some p ->
  p = start + N.of_nat i /\ start + N.of_nat i < (start + count) mod 2 ^ 64.
Proof.
  unfold periods. generalize ((start + count) mod 2 ^ 64). intros stop H. rewrite nth_error_map in H.
  destruct (nth_error (seq 0 (N.to_nat (stop - start))) i) as [j|] eqn:E; [|discriminate].
  assert (L : (i < length (seq 0 (N.to_nat (stop - start))))%nat) by (apply nth_error_Some; congruence).
  rewrite seq_length in L.
  apply (nth_error_nth _ _ 0%nat) in E. rewrite seq_nth in E by assumption. cbn in E. subst j.
  injection H as <-. lia.
Qed.
Lemma periods_len start count : length (periods start count) = N.to_nat ((start + count) mod 2 ^ 64 - start).
Proof. unfold periods. now rewrite map_length, seq_length. Qed.
Lemma periods_len_exact start count : start + count < 2 ^ 64 -> length (periods start count) = N.to_nat count.
Proof. intros H. rewrite periods_len, N.mod_small by assumption. lia. Qed.
Lemma periods_nodup start count : NoDup (periods start count).
Proof.
  unfold periods. apply FinFun.Injective_map_NoDup; [|apply seq_NoDup].
  intros a b H. lia.
Qed.
Lemma mod_le a b : b <> 0 -> a mod b <= a.
Proof. intros H. apply N.mod_le. exact H. Qed.

Lemma fork_digest_len f : length (fork_digest f) = 4%nat.
Proof. now destruct f. Qed.
Lemma fork_of_digest_ok f : fork_of_digest (fork_digest f) = Some f.
Proof. now destruct f. Qed.
Lemma fork_of_digest_inv d f : fork_of_digest d = Some f -> d = fork_digest f.
Proof.
  unfold fork_of_digest. intros H.
  repeat match type of H with (if ?c then _ else _) = _ =>
    let E := fresh "E" in destruct c eqn:E; [apply beqb_spec in E; injection H as <-; exact E|clear E] end.
  discriminate.
Qed.

Lemma insert_boot_find s root v slot r :
  find_boot (insert_boot s root v slot) r =
  match find_boot s r with Some x => Some x | None => if beqb root r then Some (v, slot) else None end.
Proof.
  unfold insert_boot. destruct (find_boot s root) as [x|] eqn:E.
  - destruct (find_boot s r) eqn:F; [reflexivity|]. destruct (beqb root r) eqn:B; [|reflexivity].
    apply beqb_spec in B. subst. congruence.
  - unfold find_boot in *. cbn [bootstraps].
    induction (bootstraps s) as [|a l IH]; cbn [find app].
    + cbn [fst]. destruct (beqb root r); reflexivity.
    + cbn [find] in E. destruct (beqb (fst a) r) eqn:A; [reflexivity|].
      destruct (beqb (fst a) root); [discriminate|]. apply IH. exact E.
Qed.
Lemma insert_update_find s p v q :
  find_update (insert_update s p v) q =
  match find_update s q with Some x => Some x | None => if sql_int p && (p =? q) then Some v else None end.
Proof.
  unfold insert_update. destruct (sql_int p) eqn:S; cbn [negb andb].
  2:{ now destruct (find_update s q). }
  destruct (find_update s p) as [x|] eqn:E.
  - destruct (find_update s q) eqn:F; [reflexivity|]. destruct (p =? q) eqn:B; [|reflexivity].
    apply N.eqb_eq in B. subst. congruence.
  - unfold find_update in *. cbn [updates].
    induction (updates s) as [|a l IH]; cbn [find app].
    + cbn [fst]. destruct (p =? q); reflexivity.
    + cbn [find] in E. destruct (fst a =? q) eqn:A; [reflexivity|].
      destruct (fst a =? p); [discriminate|]. apply IH. exact E.
Qed.
Lemma insert_update_other s p v : bootstraps (insert_update s p v) = bootstraps s /\ sums_row (insert_update s p v) = sums_row s /\
  opt_cache (insert_update s p v) = opt_cache s /\ fin_cache (insert_update s p v) = fin_cache s /\ head (insert_update s p v) = head s.
Proof. unfold insert_update. destruct (negb _); [tauto|]. destruct (find_update s p); cbn; tauto. Qed.
Lemma insert_boot_other s r v n : updates (insert_boot s r v n) = updates s /\ sums_row (insert_boot s r v n) = sums_row s /\
  opt_cache (insert_boot s r v n) = opt_cache s /\ fin_cache (insert_boot s r v n) = fin_cache s /\ head (insert_boot s r v n) = head s.
Proof. unfold insert_boot. destruct (find_boot s r); cbn; tauto. Qed.

Definition ins (s : bstore) (pv : N * bytes) : bstore := insert_update s (fst pv) (snd pv).
Lemma ins_all_other l : forall s, bootstraps (fold_left ins l s) = bootstraps s /\ sums_row (fold_left ins l s) = sums_row s /\
  opt_cache (fold_left ins l s) = opt_cache s /\ fin_cache (fold_left ins l s) = fin_cache s /\ head (fold_left ins l s) = head s.
Proof.
  induction l as [|[p v] l IH]; intros s; [cbn; tauto|]. cbn [fold_left].
  destruct (IH (ins s (p, v))) as (A & B & C & D & E).
  destruct (insert_update_other s p v) as (A' & B' & C' & D' & E').
  unfold ins in *. cbn [fst snd] in *. rewrite A, B, C, D, E. tauto.
Qed.
(** A period that is stored keeps its value; a new one gets the first value given for it. *)
Lemma ins_all_keep l : forall s q v, find_update s q = Some v -> find_update (fold_left ins l s) q = Some v.
Proof.
  induction l as [|[p w] l IH]; intros s q v H; [exact H|]. cbn [fold_left]. apply IH.
  unfold ins. rewrite insert_update_find, H. reflexivity.
Qed.
Lemma ins_all_new l : forall s q v, NoDup (map fst l) -> In (q, v) l -> sql_int q = true -> find_update s q = None ->
  find_update (fold_left ins l s) q = Some v.
Proof.
  induction l as [|[p w] l IH]; intros s q v Nd I Q F; [destruct I|]. cbn [fold_left].
  inversion Nd; subst. destruct I as [[= -> ->]|I].
  - apply ins_all_keep. unfold ins. cbn [fst snd]. rewrite insert_update_find, F, Q, N.eqb_refl. reflexivity.
  - apply IH; auto. unfold ins. cbn [fst snd]. rewrite insert_update_find, F.
    destruct (p =? q) eqn:E; [|now rewrite andb_false_r]. apply N.eqb_eq in E. subst.
    destruct H1. apply in_map_iff. exists (q, v). auto.
Qed.
Lemma ins_all_inv l : forall s q v, find_update (fold_left ins l s) q = Some v ->
  find_update s q = Some v \/ In (q, v) l.
Proof.
  induction l as [|[p w] l IH]; intros s q v H; [auto|]. cbn [fold_left] in H.
  destruct (IH _ _ _ H) as [K|K]; [|right; right; exact K].
  unfold ins in K. cbn [fst snd] in K. rewrite insert_update_find in K.
  destruct (find_update s q) as [x|] eqn:E; [left; congruence|]. right. left.
  destruct (sql_int p && (p =? q)) eqn:B; [|discriminate]. injection K as <-.
  apply andb_prop in B. destruct B as [_ B]. apply N.eqb_eq in B. now subst.
Qed.
Lemma combine_nth_error {A B} (l : list A) (m : list B) x y : In (x, y) (combine l m) ->
  exists i, nth_error l i = Some x /\ nth_error m i = Some y.
Proof.
  revert m. induction l as [|a l IH]; intros [|b m] H; try destruct H.
  - injection H as -> ->. now exists 0%nat.
  - destruct (IH _ H) as [i Hi]. now exists (S i).
Qed.
Lemma combine_in {A B} (l : list A) (m : list B) i x y : nth_error l i = Some x -> nth_error m i = Some y -> In (x, y) (combine l m).
Proof.
  revert m i. induction l as [|a l IH]; intros [|b m] [|i] H K; try discriminate.
  - injection H as ->. injection K as ->. now left.
  - right. eapply IH; eauto.
Qed.
Lemma map_fst_combine {A B} (l : list A) (m : list B) : exists n, map fst (combine l m) = firstn n l.
Proof.
  revert m. induction l as [|a l IH]; intros [|b m]; try (exists 0%nat; reflexivity).
  destruct (IH m) as [n E]. exists (S n). cbn [combine map fst firstn]. now rewrite E.
Qed.
Lemma nodup_firstn {A} n (l : list A) : NoDup l -> NoDup (firstn n l).
Proof.
  revert n. induction l as [|a l IH]; intros [|n] H; try constructor; inversion H; subst.
  - intros I. apply H2. rewrite <- (firstn_skipn n l). apply in_or_app. now left.
  - auto.
Qed.

Lemma find_boot_filter f s r x :
  (forall row, In row (bootstraps s) -> fst row = r -> snd row = x -> f row = true) ->
  NoDup (map fst (bootstraps s)) ->
  find_boot s r = Some x ->
  option_map snd (find (fun y => beqb (fst y) r) (filter f (bootstraps s))) = Some x.
Proof.
  unfold find_boot. induction (bootstraps s) as [|a l IH]; intros F Nd H; [discriminate|].
  cbn [find filter map] in *. inversion Nd; subst. destruct (beqb (fst a) r) eqn:E.
  - apply beqb_spec in E. injection H as H. rewrite (F a (or_introl eq_refl) E H). cbn [find].
    rewrite E, beqb_refl. cbn. congruence.
  - destruct (f a); cbn [find]; rewrite ?E; apply IH; auto; intros row I; apply F; now right.
Qed.
Lemma find_boot_filter_inv f s r x :
  NoDup (map fst (bootstraps s)) ->
  option_map snd (find (fun y => beqb (fst y) r) (filter f (bootstraps s))) = Some x -> find_boot s r = Some x.
Proof.
  unfold find_boot. induction (bootstraps s) as [|a l IH]; intros Nd H; [discriminate|].
  cbn [find filter map] in *. inversion Nd; subst. destruct (beqb (fst a) r) eqn:E.
  - destruct (f a) eqn:F; cbn [find] in H; [rewrite E in H; exact H|].
    destruct (find (fun y => beqb (fst y) r) (filter f l)) as [y|] eqn:G; [|discriminate].
    apply find_some in G. destruct G as [G1 G2]. apply filter_In in G1. apply beqb_spec in G2. apply beqb_spec in E.
    destruct H2. rewrite E, <- G2. apply in_map. tauto.
  - destruct (f a); cbn [find] in H; rewrite ?E in H; auto.
Qed.

Section Proofs.
  Variable boot_view : fork -> bytes -> option lc_header.
  Variable update_view : fork -> bytes -> bool.
  Variable fin_view : fork -> bytes -> option (lc_header * lc_header).
  Variable opt_view : fork -> bytes -> option (lc_header * N).
  Variable sums_view : bytes -> option (N * list summary).
  Variable header_root : lc_header -> bytes.
  Notation step := (step boot_view update_view fin_view opt_view sums_view header_root).
  Notation run := (run boot_view update_view fin_view opt_view sums_view header_root).
  Notation put := (put boot_view update_view fin_view opt_view sums_view header_root).
  Notation get := (get update_view).
  Notation writes := (writes boot_view update_view fin_view opt_view sums_view header_root).
  Notation written := written.
  Notation validate := (validate boot_view update_view fin_view opt_view sums_view).

  Lemma run_snoc e n ops o : run e n (ops ++ [o]) = step e (run e n ops) o.
  Proof. unfold BeaconStore_Model.run. rewrite fold_left_app. reflexivity. Qed.
  Lemma run_app e n a b : run e n (a ++ b) = run e (run e n a) b.
  Proof. unfold BeaconStore_Model.run. now rewrite fold_left_app. Qed.
  Lemma writes_app e n a b : writes e n (a ++ b) = writes e n a ++ writes e (run e n a) b.
  Proof.
    revert n. induction a as [|o a IH]; intros n; [reflexivity|].
    cbn [app BeaconStore_Spec.writes]. rewrite IH, app_assoc. reflexivity.
  Qed.
  Lemma writes_snoc e n a o : writes e n (a ++ [o]) = writes e n a ++ written (run e n a) o.
  Proof. rewrite writes_app. cbn [BeaconStore_Spec.writes]. now rewrite app_nil_r. Qed.

  (** How a step changes the store. *)
  Inductive effect (embedded : chain_head) (s : bstore) : list (beacon_key * bytes) -> bstore -> Prop :=
    | ESame : effect embedded s [] s
    | EPut k v : effect embedded s [(k, v)] (fst (put s k v))
    | EPrune t : effect embedded s [] (prune s t)
    | ERestart s' : restart sums_view embedded s = Ok s' -> effect embedded s [] s'.
  Lemma step_effect e n o : effect e (st n) (written n o) (st (step e n o)).
  Proof.
    destruct o as [en k v|i|k v|t|]; cbn [BeaconStore_Model.step BeaconStore_Spec.written].
    - destruct (validate en k v) as [[]| |]; cbn [st]; try apply ESame.
      destruct (fst _) as [[]| |]; cbn [st]; apply ESame.
    - destruct (nth_error (waiting n) i) as [[k v]|]; cbn [st]; [apply EPut|apply ESame].
    - apply EPut.
    - apply EPrune.
    - destruct (restart sums_view e (st n)) as [s'| |] eqn:E; cbn [st]; [apply ERestart; exact E|apply ESame..].
  Qed.

  Lemma restart_parts e s s' : restart sums_view e s = Ok s' ->
    bootstraps s' = bootstraps s /\ updates s' = updates s /\ sums_row s' = sums_row s /\ opt_cache s' = None /\ fin_cache s' = None /\
    exists hops, head s' = head_run e hops.
  Proof.
    unfold restart. destruct (sums_row s) as [[ep v]|].
    - destruct (decode_sums sums_view v) as [[f [x l]]| |]; try discriminate. intros [= <-]. cbn.
      do 5 (split; [reflexivity|]). now exists [UpdateSummaries l].
    - intros [= <-]. cbn. do 5 (split; [reflexivity|]). now exists [].
  Qed.

  (** What a put does to each part. *)
  Lemma put_boots s k v : bootstraps (fst (put s k v)) = bootstraps s \/
    exists key f h, k = KBootstrap key /\ decode_boot boot_view v = Ok (f, h) /\ sql_int (hd_slot h) = true /\
      find_boot s (header_root h) = None /\
      bootstraps (fst (put s k v)) = bootstraps s ++ [(header_root h, (v, hd_slot h))].
  Proof.
    destruct k as [key|start count|slot|sig|epoch]; cbn [BeaconStore_Model.put].
    - destruct (decode_boot boot_view v) as [[f h]| |] eqn:D; [|left; reflexivity..].
      destruct (sql_int (hd_slot h)) eqn:S; [|left; reflexivity]. cbn [fst]. unfold insert_boot.
      destruct (find_boot s (header_root h)) eqn:F; [left; reflexivity|]. right. exists key, f, h. auto.
    - destruct (decode_updates update_view v) as [l| |]; [|left; reflexivity..]. cbn [fst]. left. apply (ins_all_other (combine (periods start count) l) s).
    - destruct (decode_fin fin_view v) as [[f [a h]]| |]; left; reflexivity.
    - destruct (decode_opt opt_view v) as [[f [a h]]| |]; left; reflexivity.
    - destruct (decode_sums sums_view v) as [[f [a h]]| |]; try (left; reflexivity). cbv zeta. destruct (sql_int epoch); left; reflexivity.
  Qed.
  Lemma put_boot_nodup s k v : NoDup (map fst (bootstraps s)) -> NoDup (map fst (bootstraps (fst (put s k v)))).
  Proof.
    intros H. destruct (put_boots s k v) as [->|(key & f & h & -> & _ & _ & F & ->)]; [exact H|].
    rewrite map_app. cbn [map fst].
    assert (X : ~ In (header_root h) (map fst (bootstraps s))).
    { intros I. apply in_map_iff in I. destruct I as ([r x] & E & I). cbn in E. subst r. unfold find_boot in F.
      destruct (find (fun r => beqb (fst r) (header_root h)) (bootstraps s)) eqn:G; [discriminate|].
      apply (List.find_none _ _ G) in I. cbn in I. rewrite beqb_refl in I. discriminate. }
    revert H X. clear. induction (map fst (bootstraps s)) as [|a l IH]; intros H X; cbn [app].
    - constructor; [intros []|constructor].
    - inversion H; subst. constructor.
      + rewrite in_app_iff. cbn [In]. intros [I|[I|[]]]; [auto|]. apply X. left. auto.
      + apply IH; auto. intros I. apply X. now right.
  Qed.
  Lemma filter_nodup f (l : list (bytes * (bytes * N))) : NoDup (map fst l) -> NoDup (map fst (filter f l)).
  Proof.
    induction l as [|a l IH]; intros H; [constructor|]. cbn [map filter] in *. inversion H; subst.
    destruct (f a); [|auto]. cbn [map]. constructor; [|auto]. intros I. apply H2.
    apply in_map_iff in I. destruct I as (x & E & I). apply filter_In in I. rewrite <- E. apply in_map. tauto.
  Qed.
  Lemma effect_nodup e s w s' : effect e s w s' -> NoDup (map fst (bootstraps s)) -> NoDup (map fst (bootstraps s')).
  Proof.
    intros E H. destruct E.
    - exact H.
    - now apply put_boot_nodup.
    - cbn. now apply filter_nodup.
    - destruct (restart_parts _ _ _ H0) as (-> & _). exact H.
  Qed.
  Lemma run_nodup e n ops : NoDup (map fst (bootstraps (st n))) -> NoDup (map fst (bootstraps (st (run e n ops)))).
  Proof.
    intros H. induction ops as [|o ops IH] using rev_ind; [exact H|]. rewrite run_snoc.
    eapply effect_nodup; [apply step_effect|exact IH].
  Qed.

  Lemma put_find_boot s k v r x : find_boot (fst (put s k v)) r = Some x ->
    find_boot s r = Some x \/
    exists key f h, k = KBootstrap key /\ decode_boot boot_view v = Ok (f, h) /\ sql_int (hd_slot h) = true /\ header_root h = r /\ x = (v, hd_slot h).
  Proof.
    intros H. destruct (put_boots s k v) as [E|(key & f & h & K & D & S & F & E)].
    - left. unfold find_boot in *. rewrite E in H. exact H.
    - pose proof (insert_boot_find s (header_root h) v (hd_slot h) r) as G.
      unfold insert_boot in G. rewrite F in G. unfold find_boot at 1 in G. cbn [bootstraps] in G. rewrite <- E in G.
      fold (find_boot (fst (put s k v)) r) in G. rewrite H in G.
      destruct (find_boot s r) as [y|] eqn:R; [left; congruence|]. right.
      destruct (beqb (header_root h) r) eqn:B; [|discriminate]. apply beqb_spec in B. injection G as ->.
      exists key, f, h. auto.
  Qed.
  Lemma put_find_boot_keep s k v r x : find_boot s r = Some x -> find_boot (fst (put s k v)) r = Some x.
  Proof.
    intros H. destruct (put_boots s k v) as [E|(key & f & h & K & D & S & F & E)].
    - unfold find_boot in *. rewrite E. exact H.
    - pose proof (insert_boot_find s (header_root h) v (hd_slot h) r) as G.
      unfold insert_boot in G. rewrite F in G. unfold find_boot at 1 in G. cbn [bootstraps] in G. rewrite <- E in G.
      fold (find_boot (fst (put s k v)) r) in G. rewrite H in G. exact G.
  Qed.

  Lemma put_updates s k v : updates (fst (put s k v)) = updates s \/
    exists start count l, k = KUpdates start count /\ decode_updates update_view v = Ok l /\
      fst (put s k v) = fold_left ins (combine (periods start count) l) s.
  Proof.
    destruct k as [key|start count|slot|sig|epoch]; cbn [BeaconStore_Model.put].
    - destruct (decode_boot boot_view v) as [[f h]| |] eqn:D; [|left; reflexivity..].
      destruct (sql_int (hd_slot h)) eqn:S; [|left; reflexivity]. left. apply insert_boot_other.
    - destruct (decode_updates update_view v) as [l| |] eqn:D; [|left; reflexivity..]. right. exists start, count, l. auto.
    - destruct (decode_fin fin_view v) as [[f [a h]]| |]; left; reflexivity.
    - destruct (decode_opt opt_view v) as [[f [a h]]| |]; left; reflexivity.
    - destruct (decode_sums sums_view v) as [[f [a h]]| |]; try (left; reflexivity). cbv zeta. destruct (sql_int epoch); left; reflexivity.
  Qed.
  Lemma put_find_update_keep s k v p x : find_update s p = Some x -> find_update (fst (put s k v)) p = Some x.
  Proof.
    intros H. destruct (put_updates s k v) as [E|(start & count & l & -> & D & E)].
    - unfold find_update in *. rewrite E. exact H.
    - rewrite E. now apply ins_all_keep.
  Qed.
  Lemma put_find_update s k v p x : find_update (fst (put s k v)) p = Some x ->
    find_update s p = Some x \/
    exists start count, k = KUpdates start count /\ gives_update update_view start count v p x.
  Proof.
    intros H. destruct (put_updates s k v) as [E|(start & count & l & -> & D & E)].
    - left. unfold find_update in *. rewrite E in H. exact H.
    - rewrite E in H. destruct (ins_all_inv _ _ _ _ H) as [K|K]; [auto|]. right. exists start, count. split; [reflexivity|].
      destruct (combine_nth_error _ _ _ _ K) as (i & A & B). destruct (periods_nth _ _ _ _ A) as [-> L].
      exists l, i. split; [exact D|]. split; [exact B|]. split; [reflexivity|].
      pose proof (mod_le (start + count) (2 ^ 64)) as M. assert (2 ^ 64 <> 0) by (vm_compute; discriminate). specialize (M H0).
      set (w := (start + count) mod 2 ^ 64) in *. clearbody w. lia.
  Qed.

  Lemma put_fin s k v : fin_cache (fst (put s k v)) = fin_cache s \/
    exists slot f a h, k = KFinality slot /\ decode_fin fin_view v = Ok (f, (a, h)) /\ fin_cache (fst (put s k v)) = Some (v, (f, hd_slot h)).
  Proof.
    destruct k as [key|start count|slot|sig|epoch]; cbn [BeaconStore_Model.put].
    - destruct (decode_boot boot_view v) as [[f h]| |] eqn:D; [|left; reflexivity..].
      destruct (sql_int (hd_slot h)) eqn:S; [|left; reflexivity]. left. apply insert_boot_other.
    - destruct (decode_updates update_view v) as [l| |] eqn:D; [|left; reflexivity..]. left. apply (ins_all_other (combine (periods start count) l) s).
    - destruct (decode_fin fin_view v) as [[f [a h]]| |] eqn:D; try (left; reflexivity). right. exists slot, f, a, h. auto.
    - destruct (decode_opt opt_view v) as [[f [a h]]| |]; left; reflexivity.
    - destruct (decode_sums sums_view v) as [[f [a h]]| |]; try (left; reflexivity). cbv zeta. destruct (sql_int epoch); left; reflexivity.
  Qed.
  Lemma put_opt s k v : opt_cache (fst (put s k v)) = opt_cache s \/
    exists sl f a sig, k = KOptimistic sl /\ decode_opt opt_view v = Ok (f, (a, sig)) /\ opt_cache (fst (put s k v)) = Some (v, sig).
  Proof.
    destruct k as [key|start count|slot|sig|epoch]; cbn [BeaconStore_Model.put].
    - destruct (decode_boot boot_view v) as [[f h]| |] eqn:D; [|left; reflexivity..].
      destruct (sql_int (hd_slot h)) eqn:S; [|left; reflexivity]. left. apply insert_boot_other.
    - destruct (decode_updates update_view v) as [l| |] eqn:D; [|left; reflexivity..]. left. apply (ins_all_other (combine (periods start count) l) s).
    - destruct (decode_fin fin_view v) as [[f [a h]]| |]; left; reflexivity.
    - destruct (decode_opt opt_view v) as [[f [a n]]| |] eqn:D; try (left; reflexivity). right. exists sig, f, a, n. auto.
    - destruct (decode_sums sums_view v) as [[f [a h]]| |]; try (left; reflexivity). cbv zeta. destruct (sql_int epoch); left; reflexivity.
  Qed.
  Lemma put_sums s k v : sums_row (fst (put s k v)) = sums_row s \/
    exists epoch f n l, k = KSummaries epoch /\ decode_sums sums_view v = Ok (f, (n, l)) /\ sql_int epoch = true /\ sums_row (fst (put s k v)) = Some (epoch, v).
  Proof.
    destruct k as [key|start count|slot|sig|epoch]; cbn [BeaconStore_Model.put].
    - destruct (decode_boot boot_view v) as [[f h]| |] eqn:D; [|left; reflexivity..].
      destruct (sql_int (hd_slot h)) eqn:S; [|left; reflexivity]. left. apply insert_boot_other.
    - destruct (decode_updates update_view v) as [l| |] eqn:D; [|left; reflexivity..]. left. apply (ins_all_other (combine (periods start count) l) s).
    - destruct (decode_fin fin_view v) as [[f [a h]]| |]; left; reflexivity.
    - destruct (decode_opt opt_view v) as [[f [a n]]| |]; left; reflexivity.
    - destruct (decode_sums sums_view v) as [[f [a h]]| |] eqn:D; try (left; reflexivity). cbv zeta.
      destruct (sql_int epoch) eqn:S; [|left; reflexivity]. right. exists epoch, f, a, h. auto.
  Qed.
  Lemma put_head s k v : exists hops, head (fst (put s k v)) = head_run (head s) hops.
  Proof.
    destruct k as [key|start count|slot|sig|epoch]; cbn [BeaconStore_Model.put].
    - destruct (decode_boot boot_view v) as [[f h]| |] eqn:D; [|exists []; reflexivity..].
      destruct (sql_int (hd_slot h)) eqn:S; [|exists []; reflexivity]. exists []. apply insert_boot_other.
    - destruct (decode_updates update_view v) as [l| |] eqn:D; [|exists []; reflexivity..]. exists []. apply (ins_all_other (combine (periods start count) l) s).
    - destruct (decode_fin fin_view v) as [[f [a h]]| |]; try (exists []; reflexivity). now exists [ProcessFinality a h].
    - destruct (decode_opt opt_view v) as [[f [a n]]| |]; try (exists []; reflexivity). now exists [ProcessOptimistic a].
    - destruct (decode_sums sums_view v) as [[f [a h]]| |]; try (exists []; reflexivity). cbv zeta.
      exists [UpdateSummaries h]. destruct (sql_int epoch); reflexivity.
  Qed.

  Lemma get_updates_inv s start count b : get s (KUpdates start count) = Ok (Some b) ->
    exists items, b = encode_var_list items /\ length items = length (periods start count) /\ (length items <= 128)%nat /\
      forall i item, nth_error items i = Some item -> find_update s (start + N.of_nat i) = Some item /\ decode_update update_view item = Ok tt.
  Proof.
    cbn [BeaconStore_Model.get]. intros H.
    assert (C : forall ps l, collect update_view s ps = Ok (Some l) ->
      length l = length ps /\ forall i item, nth_error l i = Some item -> exists p, nth_error ps i = Some p /\ find_update s p = Some item /\ decode_update update_view item = Ok tt).
    { induction ps as [|p ps IH]; intros l E; cbn [collect] in E.
      - injection E as <-. split; [reflexivity|]. intros [|i] item X; discriminate.
      - destruct (negb (sql_int p)); [discriminate|]. destruct (find_update s p) as [v|] eqn:F; [|discriminate].
        destruct (decode_update update_view v) as [[]| |] eqn:D; try discriminate. cbn [obind] in E.
        destruct (collect update_view s ps) as [[l'|]| |] eqn:G; try discriminate. cbn in E. injection E as <-.
        destruct (IH _ eq_refl) as [L X]. split; [cbn [length]; now rewrite L|].
        intros [|i] item Y; cbn [nth_error] in *; [injection Y as <-; eauto|]. auto. }
    destruct (collect update_view s (periods start count)) as [[l|]| |] eqn:G; try discriminate. cbn [obind] in H.
    destruct (128 <? blen l) eqn:B; [discriminate|]. injection H as <-.
    destruct (C _ _ G) as [L X]. exists l. split; [reflexivity|]. split; [exact L|]. split; [unfold blen in B; lia|].
    intros i item Y. destruct (X _ _ Y) as (p & P & F & D). destruct (periods_nth _ _ _ _ P) as [-> _]. auto.
  Qed.
  Lemma get_updates_ok s start count l : start + count < 2 ^ 63 -> blen l = count -> (length l <= 128)%nat ->
    (forall i item, nth_error l i = Some item -> find_update s (start + N.of_nat i) = Some item /\ decode_update update_view item = Ok tt) ->
    get s (KUpdates start count) = Ok (Some (encode_var_list l)).
  Proof.
    intros Hs L M F. cbn [BeaconStore_Model.get].
    assert (C : forall m l k, (forall i item, nth_error l i = Some item -> find_update s (start + N.of_nat (k + i)) = Some item /\ decode_update update_view item = Ok tt) ->
      length l = m -> (k + m <= N.to_nat count)%nat ->
      collect update_view s (map (fun i => start + N.of_nat i) (seq k m)) = Ok (Some l)).
    { clear L M F l. induction m as [|m IH]; intros [|v l] k F L K; try discriminate; [reflexivity|].
      cbn [seq map collect]. assert (X : sql_int (start + N.of_nat k) = true).
      { unfold sql_int. change (2 ^ 63) with 9223372036854775808 in *. lia. }
      rewrite X. cbn [negb]. destruct (F 0%nat v eq_refl) as [Fv Dv]. rewrite Nat.add_0_r in Fv. rewrite Fv, Dv. cbn [obind].
      rewrite (IH l (S k)); [reflexivity| |now injection L|lia].
      intros i item I. specialize (F (S i) item I). rewrite Nat.add_succ_r in F. exact F. }
    unfold periods.
    assert (E : (start + count) mod 2 ^ 64 - start = count).
    { rewrite N.mod_small; [lia|]. eapply N.lt_trans; [exact Hs|]. vm_compute. reflexivity. }
    rewrite E. unfold blen in L. rewrite (C (N.to_nat count) l 0%nat); [|exact F|lia|lia]. cbn [obind].
    destruct (128 <? blen l) eqn:B; [unfold blen in B; lia|]. reflexivity.
  Qed.

  Lemma decode_all_ok l : decode_all update_view l = Ok tt <-> forall x, In x l -> decode_update update_view x = Ok tt.
  Proof.
    induction l as [|a l IH]; cbn [decode_all]; [split; [intros _ x []|reflexivity]|].
    split.
    - destruct (decode_update update_view a) as [[]| |] eqn:D; try discriminate. cbn [obind]. intros H x [<-|I]; [exact D|]. now apply IH.
    - intros H. rewrite (H a (or_introl eq_refl)). cbn [obind]. apply IH. intros x I. apply H. now right.
  Qed.
End Proofs.
