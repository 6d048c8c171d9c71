From Verif Require Import Base Ssz_Model Ssz_Proofs Header_Model ChainHead_Model ChainHead_Spec ChainHead_Props BeaconStore_Model BeaconStore_Spec BeaconStore_Proofs.

Section Props.
  Variable boot_view : fork -> bytes -> option lc_header.
  Variable update_view : fork -> bytes -> bool.
  Variable fin_view : fork -> bytes -> option (lc_header * lc_header).
  Variable opt_view : fork -> bytes -> option (lc_header * N).
  Variable sums_view : bytes -> option (N * list summary).
  Variable header_root : lc_header -> bytes.
  Notation step := (step boot_view update_view fin_view opt_view sums_view header_root).
  Notation run := (run boot_view update_view fin_view opt_view sums_view header_root).
  Notation put := (put boot_view update_view fin_view opt_view sums_view header_root).
  Notation get := (get update_view).
  Notation writes := (writes boot_view update_view fin_view opt_view sums_view header_root).
  Notation validate := (validate boot_view update_view fin_view opt_view sums_view).

  (** * C50: reading back *)

  Lemma boot_origin e h0 ops r x : find_boot (st (run e (new_node h0) ops)) r = Some x ->
    exists key f h, In (KBootstrap key, fst x) (writes e (new_node h0) ops) /\
      decode_boot boot_view (fst x) = Ok (f, h) /\ header_root h = r /\ snd x = hd_slot h.
  Proof.
    induction ops as [|o ops IH] using rev_ind; [discriminate|]. rewrite run_snoc, writes_snoc.
    assert (Nd : NoDup (map fst (bootstraps (st (run e (new_node h0) ops))))) by (apply run_nodup; constructor).
    assert (K : find_boot (st (run e (new_node h0) ops)) r = Some x -> exists key f h,
      In (KBootstrap key, fst x) (writes e (new_node h0) ops ++ written (run e (new_node h0) ops) o) /\
      decode_boot boot_view (fst x) = Ok (f, h) /\ header_root h = r /\ snd x = hd_slot h).
    { intros F. destruct (IH F) as (key & f & h & I & R). exists key, f, h. split; [apply in_or_app; now left|exact R]. }
    intros H. destruct (step_effect boot_view update_view fin_view opt_view sums_view header_root e (run e (new_node h0) ops) o).
    - apply K. exact H.
    - apply put_find_boot in H. destruct H as [H|(key & f & h & -> & D & S & R & ->)]; [now apply K|].
      exists key, f, h. cbn [fst snd]. split; [apply in_or_app; right; now left|auto].
    - apply K. apply find_boot_filter_inv in H; assumption.
    - apply K. destruct (restart_parts _ _ _ _ H0) as (E & _). unfold find_boot in *. now rewrite E in H.
  Qed.
  Lemma update_origin e h0 ops p x : find_update (st (run e (new_node h0) ops)) p = Some x ->
    exists start count v, In (KUpdates start count, v) (writes e (new_node h0) ops) /\ gives_update update_view start count v p x.
  Proof.
    induction ops as [|o ops IH] using rev_ind; [discriminate|]. rewrite run_snoc, writes_snoc.
    assert (K : find_update (st (run e (new_node h0) ops)) p = Some x -> exists start count v,
      In (KUpdates start count, v) (writes e (new_node h0) ops ++ written (run e (new_node h0) ops) o) /\ gives_update update_view start count v p x).
    { intros F. destruct (IH F) as (a & b & c & I & R). exists a, b, c. split; [apply in_or_app; now left|exact R]. }
    intros H. destruct (step_effect boot_view update_view fin_view opt_view sums_view header_root e (run e (new_node h0) ops) o).
    - apply K. exact H.
    - apply put_find_update in H. destruct H as [H|(start & count & -> & G)]; [now apply K|].
      exists start, count, v. split; [apply in_or_app; right; now left|auto].
    - apply K. exact H.
    - apply K. destruct (restart_parts _ _ _ _ H0) as (_ & E & _). unfold find_update in *. now rewrite E in H.
  Qed.
  Lemma fin_origin e h0 ops v f n : fin_cache (st (run e (new_node h0) ops)) = Some (v, (f, n)) ->
    exists slot a h, In (KFinality slot, v) (writes e (new_node h0) ops) /\ decode_fin fin_view v = Ok (f, (a, h)) /\ hd_slot h = n.
  Proof.
    induction ops as [|o ops IH] using rev_ind; [discriminate|]. rewrite run_snoc, writes_snoc.
    assert (K : fin_cache (st (run e (new_node h0) ops)) = Some (v, (f, n)) -> exists slot a h,
      In (KFinality slot, v) (writes e (new_node h0) ops ++ written (run e (new_node h0) ops) o) /\ decode_fin fin_view v = Ok (f, (a, h)) /\ hd_slot h = n).
    { intros F. destruct (IH F) as (a & b & c & I & R). exists a, b, c. split; [apply in_or_app; now left|exact R]. }
    intros H. destruct (step_effect boot_view update_view fin_view opt_view sums_view header_root e (run e (new_node h0) ops) o).
    - apply K. exact H.
    - destruct (put_fin boot_view update_view fin_view opt_view sums_view header_root (st (run e (new_node h0) ops)) k v0)
        as [E|(slot & f' & a & h & -> & D & E)]; rewrite E in H; [now apply K|]. injection H as -> -> <-.
      exists slot, a, h. split; [apply in_or_app; right; now left|auto].
    - apply K. exact H.
    - destruct (restart_parts _ _ _ _ H0) as (_ & _ & _ & _ & E & _). congruence.
  Qed.
  Lemma opt_origin e h0 ops v n : opt_cache (st (run e (new_node h0) ops)) = Some (v, n) ->
    exists sl f a, In (KOptimistic sl, v) (writes e (new_node h0) ops) /\ decode_opt opt_view v = Ok (f, (a, n)).
  Proof.
    induction ops as [|o ops IH] using rev_ind; [discriminate|]. rewrite run_snoc, writes_snoc.
    assert (K : opt_cache (st (run e (new_node h0) ops)) = Some (v, n) -> exists sl f a,
      In (KOptimistic sl, v) (writes e (new_node h0) ops ++ written (run e (new_node h0) ops) o) /\ decode_opt opt_view v = Ok (f, (a, n))).
    { intros F. destruct (IH F) as (a & b & c & I & R). exists a, b, c. split; [apply in_or_app; now left|exact R]. }
    intros H. destruct (step_effect boot_view update_view fin_view opt_view sums_view header_root e (run e (new_node h0) ops) o).
    - apply K. exact H.
    - destruct (put_opt boot_view update_view fin_view opt_view sums_view header_root (st (run e (new_node h0) ops)) k v0)
        as [E|(slot & f' & a & h & -> & D & E)]; rewrite E in H; [now apply K|]. injection H as -> ->.
      exists slot, f', a. split; [apply in_or_app; right; now left|auto].
    - apply K. exact H.
    - destruct (restart_parts _ _ _ _ H0) as (_ & _ & _ & E & _ & _). congruence.
  Qed.
  Lemma sums_origin e h0 ops v n : sums_row (st (run e (new_node h0) ops)) = Some (n, v) ->
    In (KSummaries n, v) (writes e (new_node h0) ops) /\ exists f m l, decode_sums sums_view v = Ok (f, (m, l)).
  Proof.
    induction ops as [|o ops IH] using rev_ind; [discriminate|]. rewrite run_snoc, writes_snoc.
    assert (K : sums_row (st (run e (new_node h0) ops)) = Some (n, v) ->
      In (KSummaries n, v) (writes e (new_node h0) ops ++ written (run e (new_node h0) ops) o) /\ exists f m l, decode_sums sums_view v = Ok (f, (m, l))).
    { intros F. destruct (IH F) as (I & R). split; [apply in_or_app; now left|exact R]. }
    intros H. destruct (step_effect boot_view update_view fin_view opt_view sums_view header_root e (run e (new_node h0) ops) o).
    - apply K. exact H.
    - destruct (put_sums boot_view update_view fin_view opt_view sums_view header_root (st (run e (new_node h0) ops)) k v0)
        as [E|(epoch & f' & a & h & -> & D & S & E)]; rewrite E in H; [now apply K|]. injection H as -> ->.
      split; [apply in_or_app; right; now left|eauto].
    - apply K. exact H.
    - apply K. destruct (restart_parts _ _ _ _ H0) as (_ & _ & E & _). congruence.
  Qed.

  (** Whatever is served was written before: a bootstrap with the header root asked for, all the
      updates of the range in order and each written for its period, a finality (optimistic)
      update at least as new as asked for, summaries written for an epoch at least as new. *)
  Theorem C50_served_was_written : forall e h0 ops k b,
    let n := run e (new_node h0) ops in
    let W := writes e (new_node h0) ops in
    get (st n) k = Ok (Some b) ->
    match k with
    | KBootstrap r => exists key f h, In (KBootstrap key, b) W /\ decode_boot boot_view b = Ok (f, h) /\ header_root h = r
    | KUpdates start count =>
        exists items, b = encode_var_list items /\ blen items = (start + count) mod 2 ^ 64 - start /\
          forall i item, nth_error items i = Some item -> exists start' count' v,
            In (KUpdates start' count', v) W /\ gives_update update_view start' count' v (start + N.of_nat i) item
    | KFinality slot => exists slot' a h, In (KFinality slot', b) W /\ decode_fin fin_view b = Ok (Electra, (a, h)) /\ slot <= hd_slot h
    | KOptimistic sig => exists sig' f a n, In (KOptimistic sig', b) W /\ decode_opt opt_view b = Ok (f, (a, n)) /\ sig <= n
    | KSummaries epoch => exists epoch', In (KSummaries epoch', b) W /\ epoch <= epoch'
    end.
  Proof.
    intros e h0 ops k b n W H. subst n W. destruct k as [r|start count|slot|sig|epoch].
    - cbn [BeaconStore_Model.get] in H. injection H as H.
      destruct (find_boot (st (run e (new_node h0) ops)) r) as [x|] eqn:F; [|discriminate]. injection H as <-.
      destruct (boot_origin _ _ _ _ _ F) as (key & f & h & A & B & C & _). exists key, f, h. auto.
    - destruct (get_updates_inv _ _ _ _ _ H) as (items & -> & L & _ & F). exists items. split; [reflexivity|].
      split; [unfold blen; rewrite L, periods_len; lia|].
      intros i item I. destruct (F _ _ I) as [G _]. exact (update_origin _ _ _ _ _ G).
    - cbn [BeaconStore_Model.get] in H. unfold cached_fin in H.
      destruct (fin_cache (st (run e (new_node h0) ops))) as [[v [f m]]|] eqn:F; [|discriminate].
      destruct (fin_origin _ _ _ _ _ _ F) as (s' & a & h & A & B & C).
      destruct (fork_eqb f Electra) eqn:X; [|discriminate]. destruct (slot <=? m) eqn:Y; [|discriminate]. injection H as <-.
      exists s', a, h. split; [exact A|]. split; [rewrite B; now destruct f|]. lia.
    - cbn [BeaconStore_Model.get] in H. unfold cached_opt in H.
      destruct (opt_cache (st (run e (new_node h0) ops))) as [[v m]|] eqn:F; [|discriminate].
      destruct (opt_origin _ _ _ _ _ F) as (s' & f & a & A & B).
      destruct (sig <=? m) eqn:Y; [|discriminate]. injection H as <-. exists s', f, a, m. split; [exact A|]. split; [exact B|lia].
    - cbn [BeaconStore_Model.get] in H. unfold find_sums in H. destruct (negb (sql_int epoch)); [discriminate|].
      destruct (sums_row (st (run e (new_node h0) ops))) as [[m v]|] eqn:F; [|discriminate].
      destruct (sums_origin _ _ _ _ _ F) as (A & _). destruct (epoch <=? m) eqn:Y; [|discriminate]. injection H as <-.
      exists m. split; [exact A|lia].
  Qed.

  Definition prunes_below (slot : N) (o : op) : Prop := match o with Prune t => t - four_months <= slot | _ => True end.

  (** A bootstrap that was written when none with its header root was there is served under that
      root from then on, whatever else happens, until it is older than four months. *)
  Theorem C50_bootstrap_kept : forall e h0 ops1 n1 key v f h ops2,
    n1 = run e (new_node h0) ops1 ->
    decode_boot boot_view v = Ok (f, h) -> hd_slot h < 2 ^ 63 ->
    get (st n1) (KBootstrap (header_root h)) = Ok None ->
    Forall (prunes_below (hd_slot h)) ops2 ->
    snd (put (st n1) (KBootstrap key) v) = Ok tt /\
    get (st (run e {| st := fst (put (st n1) (KBootstrap key) v); waiting := waiting n1 |} ops2)) (KBootstrap (header_root h)) = Ok (Some v).
  Proof.
    intros e h0 ops1 n1 key v f h ops2 E D S G P.
    assert (S' : sql_int (hd_slot h) = true) by (unfold sql_int; lia).
    assert (G' : find_boot (st n1) (header_root h) = None).
    { cbn [BeaconStore_Model.get] in G. destruct (find_boot (st n1) (header_root h)); [discriminate|reflexivity]. }
    split; [cbn [BeaconStore_Model.put]; now rewrite D, S'|].
    assert (Nd : NoDup (map fst (bootstraps (fst (put (st n1) (KBootstrap key) v))))).
    { apply put_boot_nodup. subst n1. apply run_nodup. constructor. }
    set (n2 := {| st := fst (put (st n1) (KBootstrap key) v); waiting := waiting n1 |}).
    assert (F2 : find_boot (st n2) (header_root h) = Some (v, hd_slot h)).
    { subst n2. cbn [BeaconStore_Model.put st]. rewrite D, S'. cbn [fst]. rewrite insert_boot_find, G', beqb_refl. reflexivity. }
    assert (Nd2 : NoDup (map fst (bootstraps (st n2)))) by exact Nd. clearbody n2.
    assert (X : find_boot (st (run e n2 ops2)) (header_root h) = Some (v, hd_slot h)).
    { induction ops2 as [|o ops IH] using rev_ind; [exact F2|]. rewrite run_snoc.
      apply Forall_app in P. destruct P as [P1 P2]. specialize (IH P1). inversion P2; subst.
      assert (Nd3 := run_nodup boot_view update_view fin_view opt_view sums_view header_root e n2 ops Nd2).
      set (n3 := run e n2 ops) in *. clearbody n3.
      destruct o as [en k w|i|k w|t|]; cbn [BeaconStore_Model.step].
      - destruct (validate en k w) as [[]| |]; try exact IH. destruct (fst (should_we_store (st n3) k)) as [[]| |]; exact IH.
      - destruct (nth_error (waiting n3) i) as [[k w]|]; [|exact IH]. cbn [st]. now apply put_find_boot_keep.
      - now apply put_find_boot_keep.
      - cbn [st]. unfold prune, find_boot. cbn [bootstraps]. apply find_boot_filter; [|exact Nd3|exact IH].
        intros row _ _ R. rewrite R. cbn [snd]. cbn in H1. lia.
      - destruct (restart sums_view e (st n3)) as [s'| |] eqn:R; [|exact IH..]. cbn [st].
        destruct (restart_parts _ _ _ _ R) as (B & _). unfold find_boot in *. now rewrite B. }
    cbn [BeaconStore_Model.get]. rewrite X. reflexivity.
  Qed.

  (** Updates written for periods of which none was there are served as they were written from
      then on, whatever else happens. *)
  Theorem C50_updates_kept : forall e n1 start v l ops2,
    bytes_ok v -> decode_updates update_view v = Ok l ->
    start + blen l < 2 ^ 63 ->
    (forall p, start <= p -> p < start + blen l -> get (st n1) (KUpdates p 1) = Ok None) ->
    snd (put (st n1) (KUpdates start (blen l)) v) = Ok tt /\
    get (st (run e {| st := fst (put (st n1) (KUpdates start (blen l)) v); waiting := waiting n1 |} ops2)) (KUpdates start (blen l)) = Ok (Some v).
  Proof.
    intros e n1 start v l ops2 Bv D S G.
    assert (D' := D). unfold decode_updates in D'. destruct (decode_var_list (Some 128) v) as [l'| |] eqn:V; try discriminate. cbn [obind] in D'.
    destruct (decode_all update_view l') as [[]| |] eqn:A; try discriminate. cbn in D'. injection D' as ->.
    split; [cbn [BeaconStore_Model.put]; now rewrite D|].
    assert (C := decode_var_list_canonical _ _ _ Bv V).
    set (n2 := {| st := fst (put (st n1) (KUpdates start (blen l)) v); waiting := waiting n1 |}).
    assert (None1 : forall i, (i < length l)%nat -> find_update (st n1) (start + N.of_nat i) = None).
    { intros i Hi. specialize (G (start + N.of_nat i)). assert (I1 : start <= start + N.of_nat i) by lia.
      assert (I2 : start + N.of_nat i < start + blen l) by (unfold blen; lia). specialize (G I1 I2).
      cbn [BeaconStore_Model.get] in G. unfold periods in G.
      assert (E1 : (start + N.of_nat i + 1) mod 2 ^ 64 - (start + N.of_nat i) = 1).
      { rewrite N.mod_small; [lia|]. change (2 ^ 64) with 18446744073709551616. change (2 ^ 63) with 9223372036854775808 in S. lia. }
      rewrite E1 in G. change (N.to_nat 1) with 1%nat in G. cbn [seq map collect] in G. rewrite N.add_0_r in G.
      destruct (negb (sql_int (start + N.of_nat i))) eqn:Q; [discriminate|].
      destruct (find_update (st n1) (start + N.of_nat i)) as [w|]; [|reflexivity].
      destruct (decode_update update_view w) as [[]| |]; cbn [obind option_map] in G; try discriminate. }
    assert (F2 : forall i item, nth_error l i = Some item -> find_update (st n2) (start + N.of_nat i) = Some item).
    { intros i item I. subst n2. cbn [BeaconStore_Model.put st]. rewrite D. cbn [fst].
      assert (Li : (i < length l)%nat) by (apply nth_error_Some; congruence).
      apply (ins_all_new (combine (periods start (blen l)) l)).
      - destruct (map_fst_combine (periods start (blen l)) l) as [m ->]. apply nodup_firstn, periods_nodup.
      - apply (combine_in _ _ i); [|exact I]. unfold periods. rewrite nth_error_map.
        assert (E1 : (start + blen l) mod 2 ^ 64 - start = blen l).
        { rewrite N.mod_small; [lia|]. eapply N.lt_trans; [exact S|]. vm_compute. reflexivity. }
        rewrite E1. unfold blen. rewrite Nat2N.id.
        replace (nth_error (seq 0 (length l)) i) with (Some i); [reflexivity|].
        symmetry. rewrite (nth_error_nth' _ 0%nat) by (now rewrite seq_length). now rewrite seq_nth.
      - unfold sql_int. change (2 ^ 63) with 9223372036854775808 in *. unfold blen in S. lia.
      - now apply None1. }
    assert (X : forall i item, nth_error l i = Some item -> find_update (st (run e n2 ops2)) (start + N.of_nat i) = Some item).
    { clear -F2. clearbody n2. intros i item I. specialize (F2 i item I).
      induction ops2 as [|o ops IH] using rev_ind; [exact F2|]. rewrite run_snoc. set (n3 := run e n2 ops) in *. clearbody n3.
      destruct o as [en k w|j|k w|t|]; cbn [BeaconStore_Model.step].
      - destruct (validate en k w) as [[]| |]; try exact IH. destruct (fst (should_we_store (st n3) k)) as [[]| |]; exact IH.
      - destruct (nth_error (waiting n3) j) as [[k w]|]; [|exact IH]. cbn [st]. now apply put_find_update_keep.
      - now apply put_find_update_keep.
      - exact IH.
      - destruct (restart sums_view e (st n3)) as [s'| |] eqn:R; [|exact IH..]. cbn [st].
        destruct (restart_parts _ _ _ _ R) as (_ & B & _). unfold find_update in *. now rewrite B. }
    destruct C as [C M]. clearbody n2. rewrite <- C.
    apply get_updates_ok; auto; [unfold blen in M; lia|]. intros i item I. split; [now apply X|].
    apply (decode_all_ok update_view l); [exact A|]. eapply nth_error_In; eauto.
  Qed.

  (** The latest finality (optimistic) update and summaries written are the ones served. *)
  Theorem C50_latest_served : forall s slot v a h sig f a' m epoch f' n l,
    (decode_fin fin_view v = Ok (Electra, (a, h)) -> forall q, q <= hd_slot h ->
       get (fst (put s (KFinality slot) v)) (KFinality q) = Ok (Some v)) /\
    (decode_opt opt_view v = Ok (f, (a', m)) -> forall q, q <= m ->
       get (fst (put s (KOptimistic sig) v)) (KOptimistic q) = Ok (Some v)) /\
    (decode_sums sums_view v = Ok (f', (n, l)) -> epoch < 2 ^ 63 -> forall q, q <= epoch ->
       get (fst (put s (KSummaries epoch) v)) (KSummaries q) = Ok (Some v)).
  Proof.
    intros. split; [|split].
    - intros D q Q. cbn [BeaconStore_Model.put]. rewrite D. cbn. unfold cached_fin. cbn. now rewrite (proj2 (N.leb_le _ _) Q).
    - intros D q Q. cbn [BeaconStore_Model.put]. rewrite D. cbn. unfold cached_opt. cbn. now rewrite (proj2 (N.leb_le _ _) Q).
    - intros D E q Q. cbn [BeaconStore_Model.put]. rewrite D. cbv zeta.
      assert (S : sql_int epoch = true) by (unfold sql_int; lia). rewrite S. cbn [fst BeaconStore_Model.get]. unfold find_sums.
      assert (S' : sql_int q = true) by (unfold sql_int in *; lia). rewrite S'. cbn. now rewrite (proj2 (N.leb_le _ _) Q).
  Qed.

  (** * C51: never going back *)

  (** The chain head only moves forward while the node runs, whatever is stored. *)
  Theorem C51_chain_head : forall e n ops,
    (forall o, In o ops -> o <> Restart) ->
    let before := head (st n) in
    let after := head (st (run e n ops)) in
    hd_slot (latest before) <= hd_slot (latest after) /\
    hd_slot (finalized before) <= hd_slot (finalized after) /\
    blen (summaries before) <= blen (summaries after).
  Proof.
    intros e n ops H.
    assert (X : exists hops, head (st (run e n ops)) = head_run (head (st n)) hops).
    { induction ops as [|o ops IH] using rev_ind; [now exists []|].
      destruct IH as [hops IH]; [intros o' I; apply H, in_or_app; now left|]. rewrite run_snoc.
      specialize (H o). assert (R : o <> Restart) by (apply H, in_or_app; right; now left).
      set (m := run e n ops) in *. clearbody m.
      assert (P : forall k w, exists hops, head (fst (put (st m) k w)) = head_run (head (st n)) hops).
      { intros k w. destruct (put_head boot_view update_view fin_view opt_view sums_view header_root (st m) k w) as [h2 E2].
        exists (hops ++ h2). rewrite E2, IH. unfold head_run. now rewrite fold_left_app. }
      destruct o as [en k w|i|k w|t|]; cbn [BeaconStore_Model.step].
      - destruct (validate en k w) as [[]| |]; try now exists hops.
        destruct (fst (should_we_store (st m) k)) as [[]| |]; now exists hops.
      - destruct (nth_error (waiting m) i) as [[k w]|]; [apply P|now exists hops].
      - apply P.
      - now exists hops.
      - congruence. }
    destruct X as [hops ->].
    pose proof (C24_monotone (head (st n)) [] hops) as M. cbv zeta in M. cbn [app] in M.
    change (head_run (head (st n)) []) with (head (st n)) in M. cbv zeta.
    destruct M as (A & B & C). split; [|split]; [destruct A as [->|]|destruct B as [->|]|destruct C as [->|]]; lia.
  Qed.

  Definition serves (s : bstore) (k : beacon_key) : Prop := exists v, get s k = Ok (Some v).
  Definition newest_kind (k : beacon_key) : Prop := match k with KFinality _ | KOptimistic _ | KSummaries _ => True | _ => False end.

  (** When content that arrives is handled one item at a time, then whatever finality update,
      optimistic update or summaries could be got for a key, one at least that new can be got
      from then on. *)
  Theorem C51_served_one_at_a_time : forall e n ops k,
    waiting n = [] -> one_at_a_time ops -> newest_kind k ->
    serves (st n) k -> serves (st (run e n ops)) k.
  Proof.
    intros e n ops k W O. revert n W. induction O as [|en k0 v r O IH|t r O IH]; intros n W K S.
    - exact S.
    - change (run e n (Arrive en k0 v :: Finish 0 :: r)) with (run e (step e (step e n (Arrive en k0 v)) (Finish 0)) r).
      assert (X : waiting (step e (step e n (Arrive en k0 v)) (Finish 0)) = [] /\ serves (st (step e (step e n (Arrive en k0 v)) (Finish 0))) k).
      2:{ destruct X. now apply IH. }
      clear IH O r. destruct n as [s w]. cbn [waiting st] in *. subst w.
      cbn [BeaconStore_Model.step st waiting]. destruct (validate en k0 v) as [[]| |] eqn:V; try (split; [reflexivity|exact S]).
      destruct (fst (should_we_store s k0)) as [[]| |] eqn:Q; try (split; [reflexivity|exact S]).
      cbn [BeaconStore_Model.step st waiting nth_error app]. split; [reflexivity|].
      destruct S as [b S]. destruct k as [key|p c|slot|sig|epoch]; try destruct K; cbn [BeaconStore_Model.get] in S.
      + destruct (put_fin boot_view update_view fin_view opt_view sums_view header_root s k0 v) as [E|(slot0 & f & a & h & -> & D & E)].
        { exists b. cbn [BeaconStore_Model.get]. unfold cached_fin in *. now rewrite E. }
        cbn [BeaconStore_Model.validate] in V. rewrite D in V.
        destruct (fork_eqb f Electra) eqn:F; cbn [negb] in V; [|discriminate].
        destruct (hd_slot h <? slot0) eqn:L; [discriminate|].
        cbn [should_we_store fst] in Q. injection Q as Q.
        exists v. cbn [BeaconStore_Model.get]. unfold cached_fin in *. rewrite E, F.
        destruct (fin_cache s) as [[b' [f' m]]|]; [|discriminate]. destruct (fork_eqb f' Electra); [|discriminate].
        destruct (slot0 <=? m) eqn:M; [discriminate|]. destruct (slot <=? m) eqn:M'; [|discriminate].
        replace (slot <=? hd_slot h) with true; [reflexivity|]. lia.
      + destruct (put_opt boot_view update_view fin_view opt_view sums_view header_root s k0 v) as [E|(sig0 & f & a & n0 & -> & D & E)].
        { exists b. cbn [BeaconStore_Model.get]. unfold cached_opt in *. now rewrite E. }
        cbn [BeaconStore_Model.validate] in V. rewrite D in V.
        destruct (fork_eqb f Electra) eqn:F; cbn [negb] in V; [|discriminate].
        destruct (sig0 =? n0) eqn:L; cbn [negb] in V; [|discriminate].
        cbn [should_we_store fst] in Q. injection Q as Q.
        exists v. cbn [BeaconStore_Model.get]. unfold cached_opt in *. rewrite E.
        destruct (opt_cache s) as [[b' m]|]; [|discriminate].
        destruct (sig0 <=? m) eqn:M; [discriminate|]. destruct (sig <=? m) eqn:M'; [|discriminate].
        replace (sig <=? n0) with true; [reflexivity|]. lia.
      + destruct (put_sums boot_view update_view fin_view opt_view sums_view header_root s k0 v) as [E|(ep0 & f & n0 & l & -> & D & Z & E)].
        { exists b. cbn [BeaconStore_Model.get]. unfold find_sums in *. now rewrite E. }
        cbn [should_we_store fst] in Q. unfold find_sums in Q, S. rewrite Z in Q. cbn [negb omap] in Q. injection Q as Q.
        exists v. cbn [BeaconStore_Model.get]. unfold find_sums. rewrite E.
        destruct (sql_int epoch) eqn:Z'; cbn [negb] in *; [|discriminate].
        destruct (sums_row s) as [[m b']|]; [|discriminate].
        destruct (ep0 <=? m) eqn:M; [discriminate|]. destruct (epoch <=? m) eqn:M'; [|discriminate].
        replace (epoch <=? ep0) with true; [reflexivity|]. lia.
    - change (run e n (Prune t :: r)) with (run e (step e n (Prune t)) r). apply IH; auto.
      destruct S as [b S]. exists b. destruct k; try destruct K; exact S.
  Qed.

  (** But the check whether to store and the storing are separate: when two validated finality
      updates are handled at the same time, the older one can replace the newer one. *)
  Theorem C51_served_refuted : forall e h0 en v1 v2 a1 h1 a2 h2,
    decode_fin fin_view v1 = Ok (Electra, (a1, h1)) -> decode_fin fin_view v2 = Ok (Electra, (a2, h2)) ->
    hd_slot h1 < hd_slot h2 ->
    light_client en = Some (fun _ => true) ->
    let ops := [Arrive en (KFinality (hd_slot h1)) v1; Arrive en (KFinality (hd_slot h2)) v2; Finish 1] in
    get (st (run e (new_node h0) ops)) (KFinality (hd_slot h2)) = Ok (Some v2) /\
    get (st (run e (new_node h0) (ops ++ [Finish 0]))) (KFinality (hd_slot h2)) = Ok None.
  Proof.
    intros e h0 en v1 v2 a1 h1 a2 h2 D1 D2 L C ops. subst ops.
    assert (V1 : validate en (KFinality (hd_slot h1)) v1 = Ok true).
    { cbn [BeaconStore_Model.validate]. rewrite D1, C. cbn. rewrite N.ltb_irrefl. reflexivity. }
    assert (V2 : validate en (KFinality (hd_slot h2)) v2 = Ok true).
    { cbn [BeaconStore_Model.validate]. rewrite D2, C. cbn. rewrite N.ltb_irrefl. reflexivity. }
    unfold BeaconStore_Model.run, new_node. cbn [app fold_left BeaconStore_Model.step st waiting]. rewrite V1.
    cbn [should_we_store fst cached_fin empty_store fin_cache stored_if app st waiting].
    rewrite V2. cbn [should_we_store fst cached_fin empty_store fin_cache stored_if app st waiting nth_error drop_nth firstn skipn BeaconStore_Model.put].
    rewrite D1, D2. cbn [fst st BeaconStore_Model.get]. unfold cached_fin, set_fin. cbn [fin_cache fork_eqb].
    rewrite N.leb_refl. split; [reflexivity|]. replace (hd_slot h2 <=? hd_slot h1) with false; [reflexivity|]. symmetry. apply N.leb_gt. exact L.
  Qed.

  (** * C65: what validation ties to the key *)

  Theorem C65_bound : forall e k v, validate e k v = Ok true ->
    match k with
    | KBootstrap _ => exists f h, decode_boot boot_view v = Ok (f, h) /\ now e - four_months <= hd_slot h /\
        forall fh, finalized_header e = Some fh -> h = fh
    | KUpdates _ count => exists l, decode_updates update_view v = Ok l /\ blen l = count /\
        forall c u, light_client e = Some c -> In u l -> c u = true /\ exists body, u = join_fork Electra body
    | KFinality slot => exists a h, decode_fin fin_view v = Ok (Electra, (a, h)) /\ slot <= hd_slot h /\
        forall c, light_client e = Some c -> c v = true
    | KOptimistic sig => exists a, decode_opt opt_view v = Ok (Electra, (a, sig)) /\ forall c, light_client e = Some c -> c v = true
    | KSummaries epoch => exists f l, decode_sums sums_view v = Ok (f, (epoch, l)) /\ forall c, summaries_proof e = Some c -> c v = true
    end.
  Proof.
    intros e k v H. destruct k as [key|start count|slot|sig|epoch]; cbn [BeaconStore_Model.validate] in H.
    - destruct (decode_boot boot_view v) as [[f h]| |]; try discriminate. exists f, h. split; [reflexivity|].
      destruct (hd_slot h <? now e - four_months) eqn:B; [discriminate|]. split; [lia|].
      intros fh F. rewrite F in H. injection H as H. apply andb_prop in H. destruct H as [A C].
      apply N.eqb_eq in A. apply beqb_spec in C. destruct h, fh. cbn in *. congruence.
    - destruct (decode_updates update_view v) as [l| |]; try discriminate. exists l. split; [reflexivity|].
      destruct (blen l =? count) eqn:B; cbn [negb] in H; [|discriminate]. split; [lia|].
      intros c u C I. rewrite C in H. injection H as H. rewrite forallb_forall in H. specialize (H u I).
      apply andb_prop in H. destruct H as [A Cu]. split; [exact Cu|].
      unfold update_fork, split_fork in A. destruct (blen u <? 4); [discriminate|].
      destruct (fork_of_digest (firstn 4 u)) as [f|] eqn:F; [|discriminate]. apply fork_of_digest_inv in F.
      destruct f; try discriminate. exists (skipn 4 u). unfold join_fork. rewrite <- F. symmetry. apply firstn_skipn.
    - destruct (decode_fin fin_view v) as [[f [a h]]| |]; try discriminate.
      destruct f; cbn [fork_eqb negb] in H; try discriminate. exists a, h. split; [reflexivity|].
      destruct (hd_slot h <? slot) eqn:B; [discriminate|]. split; [lia|]. intros c C. rewrite C in H. now injection H.
    - destruct (decode_opt opt_view v) as [[f [a n]]| |]; try discriminate.
      destruct f; cbn [fork_eqb negb] in H; try discriminate. destruct (sig =? n) eqn:B; cbn [negb] in H; [|discriminate].
      apply N.eqb_eq in B. subst n. exists a. split; [reflexivity|]. intros c C. rewrite C in H. now injection H.
    - destruct (decode_sums sums_view v) as [[f [n l]]| |]; try discriminate.
      destruct (n =? epoch) eqn:B; cbn [negb] in H; [|discriminate]. apply N.eqb_eq in B. subst n. exists f, l. split; [reflexivity|].
      intros c C. rewrite C in H. now injection H.
  Qed.

  (** Refuted for bootstraps: one that is accepted for some block root is accepted for every other;
      it is never served for the root it was accepted for unless that is its own. *)
  Theorem C65_bootstrap_key_refuted : forall e n en v f h key,
    decode_boot boot_view v = Ok (f, h) -> hd_slot h < 2 ^ 63 -> validate en (KBootstrap (header_root h)) v = Ok true ->
    key <> header_root h -> find_boot (st n) key = None ->
    validate en (KBootstrap key) v = Ok true /\
    let n' := run e n [Arrive en (KBootstrap key) v; Finish (length (waiting n))] in
    get (st n') (KBootstrap key) = Ok None /\ serves (st n') (KBootstrap (header_root h)).
  Proof.
    intros e n en v f h key D S V K F. split; [exact V|].
    unfold BeaconStore_Model.run. cbn [fold_left BeaconStore_Model.step].
    replace (validate en (KBootstrap key) v) with (@Ok bool true) by (symmetry; exact V).
    cbn [should_we_store fst]. rewrite F. cbn [stored_if st waiting]. rewrite nth_error_app2, Nat.sub_diag by lia. cbn [nth_error st].
    cbv zeta. cbn [BeaconStore_Model.put]. rewrite D. assert (S' : sql_int (hd_slot h) = true) by (unfold sql_int; lia). rewrite S'. cbn [fst].
    split.
    - cbn [BeaconStore_Model.get]. rewrite insert_boot_find, F. destruct (beqb (header_root h) key) eqn:B; [|reflexivity].
      apply beqb_spec in B. congruence.
    - unfold serves. cbn [BeaconStore_Model.get]. rewrite insert_boot_find, beqb_refl.
      destruct (find_boot (st n) (header_root h)) as [x|]; cbn [option_map]; eexists; reflexivity.
  Qed.

  (** Refuted for updates: content accepted for one range is accepted for every other range of the
      same length, is then served for it, and keeps the real updates of those periods out. *)
  Theorem C65_updates_key_refuted : forall e h0 en v l start wrong,
    bytes_ok v -> decode_updates update_view v = Ok l -> l <> [] ->
    validate en (KUpdates start (blen l)) v = Ok true -> wrong + blen l < 2 ^ 63 ->
    validate en (KUpdates wrong (blen l)) v = Ok true /\
    let n := run e (new_node h0) [Arrive en (KUpdates wrong (blen l)) v; Finish 0] in
    get (st n) (KUpdates wrong (blen l)) = Ok (Some v) /\
    fst (should_we_store (st n) (KUpdates wrong (blen l))) = Ok AlreadyStored /\
    forall k' v' ops, get (st (run e n (ops ++ [UserStore k' v']))) (KUpdates wrong (blen l)) = Ok (Some v).
  Proof.
    intros e h0 en v l start wrong Bv D Ln V W. split; [exact V|].
    assert (Empty : forall p, wrong <= p -> p < wrong + blen l -> get (st (new_node h0)) (KUpdates p 1) = Ok None).
    { intros p P1 P2. cbn [BeaconStore_Model.get]. unfold periods.
      assert (E1 : (p + 1) mod 2 ^ 64 - p = 1).
      { rewrite N.mod_small; [lia|]. change (2 ^ 64) with 18446744073709551616. change (2 ^ 63) with 9223372036854775808 in W. lia. }
      rewrite E1. change (N.to_nat 1) with 1%nat. cbn [seq map collect]. rewrite N.add_0_r.
      assert (Q : sql_int p = true) by (unfold sql_int; lia). rewrite Q. reflexivity. }
    pose proof (fun ops => proj2 (C50_updates_kept e (new_node h0) wrong v l ops Bv D W Empty)) as Kept.
    assert (NewScan : forall ps q, (forall p, In p ps -> sql_int p = true) -> scan (empty_store h0) ps q = (Ok DoStore, q + blen ps)).
    { induction ps as [|p ps IH]; intros q Q; cbn [scan]; [now rewrite N.add_0_r|].
      rewrite (Q p (or_introl eq_refl)). cbn [negb find_update empty_store updates find option_map].
      rewrite IH by (intros p' I; apply Q; now right). f_equal. unfold blen. cbn [length]. lia. }
    assert (Small : forall p, In p (periods wrong (blen l)) -> sql_int p = true).
    { intros p I. apply In_nth_error in I. destruct I as [i I]. apply periods_nth in I. destruct I as [-> I].
      rewrite N.mod_small in I; [unfold sql_int; lia|]. eapply N.lt_trans; [exact W|]. vm_compute. reflexivity. }
    assert (R : run e (new_node h0) [Arrive en (KUpdates wrong (blen l)) v; Finish 0] =
      {| st := fst (put (st (new_node h0)) (KUpdates wrong (blen l)) v); waiting := [] |}).
    { unfold BeaconStore_Model.run. cbn [fold_left BeaconStore_Model.step].
      replace (validate en (KUpdates wrong (blen l)) v) with (@Ok bool true) by (symmetry; exact V).
      cbn [should_we_store new_node st waiting]. rewrite NewScan by exact Small. reflexivity. }
    rewrite R. cbv zeta. split; [exact (Kept [])|]. split.
    - cbn [should_we_store]. assert (G := Kept []). unfold BeaconStore_Model.run in G. cbn [fold_left st] in G.
      set (s := fst (put (st (new_node h0)) (KUpdates wrong (blen l)) v)) in *. clearbody s. clear R Kept.
      destruct (get_updates_inv _ _ _ _ _ G) as (items & E & Li & M & F).
      destruct (periods wrong (blen l)) as [|p ps] eqn:P.
      { assert (Z : length (periods wrong (blen l)) = N.to_nat (blen l)).
        { apply periods_len_exact. eapply N.lt_trans; [exact W|]. vm_compute. reflexivity. }
        rewrite P in Z. unfold blen in Z. rewrite Nat2N.id in Z. cbn in Z. destruct l; [congruence|discriminate]. }
      destruct items as [|x items]; [discriminate|]. destruct (F 0%nat x eq_refl) as [Fx _].
      assert (P0 : nth_error (periods wrong (blen l)) 0 = Some p) by (rewrite P; reflexivity).
      apply periods_nth in P0. destruct P0 as [-> _]. cbn [scan]. rewrite (Small (wrong + N.of_nat 0) (or_introl eq_refl)). cbn [negb].
      cbn [st]. rewrite Fx. reflexivity.
    - intros k' v' ops. exact (Kept (ops ++ [UserStore k' v'])).
  Qed.

  (** * C66: decoding what peers send *)

  (** Refuted: a value shorter than four bytes makes the decoder, and the validation of what a peer
      sent for one of these keys, panic. *)
  Theorem C66_short_value_refuted : forall e v k, blen v < 4 ->
    match k with KBootstrap _ | KFinality _ | KOptimistic _ => True | _ => False end ->
    validate e k v = Panic.
  Proof.
    intros e v k L K. assert (B : blen v <? 4 = true) by lia.
    destruct k; try destruct K; cbn [BeaconStore_Model.validate]; unfold decode_boot, decode_fin, decode_opt, view, split_fork; rewrite B; reflexivity.
  Qed.
  Theorem C66_short_update_refuted : forall e start count u rest,
    blen u < 4 -> blen (encode_var_list (u :: rest)) < 2 ^ 32 -> blen (u :: rest) <= 128 ->
    validate e (KUpdates start count) (encode_var_list (u :: rest)) = Panic.
  Proof.
    intros e start count u rest L B M. cbn [BeaconStore_Model.validate]. unfold decode_updates.
    rewrite (decode_encode_var_list (Some 128) (u :: rest) B M). cbn [obind decode_all]. unfold decode_update, split_fork.
    assert (X : blen u <? 4 = true) by lia. rewrite X. reflexivity.
  Qed.
  (** Otherwise it does not. *)
  Theorem C66_no_panic : forall e k v,
    match k with
    | KUpdates _ _ => forall l u, decode_var_list (Some 128) v = Ok l -> In u l -> 4 <= blen u
    | KSummaries _ => True
    | _ => 4 <= blen v
    end -> validate e k v <> Panic.
  Proof.
    assert (X : forall b, 4 <= blen b -> split_fork false b <> Panic).
    { intros b B. unfold split_fork. destruct (blen b <? 4) eqn:E; [lia|]. now destruct (fork_of_digest _). }
    assert (Y : forall A (f : fork -> bytes -> option A) b, 4 <= blen b -> view false f b <> Panic).
    { intros A f b B. unfold view. specialize (X b B). destruct (split_fork false b) as [[g y]| |]; cbn [obind fst snd]; try congruence.
      now destruct (f g y). }
    intros e k v H. destruct k as [key|start count|slot|sig|epoch]; cbn [BeaconStore_Model.validate].
    - pose proof (Y _ boot_view v H) as Z. fold (decode_boot boot_view v) in Z.
      destruct (decode_boot boot_view v) as [[f h]| |]; try congruence. destruct (_ <? _); [discriminate|]. now destruct (finalized_header e).
    - assert (Z : decode_updates update_view v <> Panic).
      { unfold decode_updates. pose proof (decode_var_list_no_panic (Some 128) v) as P.
        destruct (decode_var_list (Some 128) v) as [l| |]; cbn [obind]; try congruence.
        assert (Q : decode_all update_view l <> Panic).
        { specialize (fun u => H l u eq_refl). clear -X H. induction l as [|a l IH]; cbn [decode_all]; [discriminate|].
          unfold decode_update. pose proof (X a (H a (or_introl eq_refl))) as Xa.
          destruct (split_fork false a) as [[f b]| |]; cbn [obind fst snd]; try congruence.
          destruct (update_view f b); cbn [obind]; [|discriminate]. apply IH. intros u I. apply H. now right. }
        destruct (decode_all update_view l); cbn; congruence. }
      destruct (decode_updates update_view v) as [l| |]; try congruence. destruct (negb _); [discriminate|]. now destruct (light_client e).
    - pose proof (Y _ fin_view v H) as Z. fold (decode_fin fin_view v) in Z.
      destruct (decode_fin fin_view v) as [[f [a h]]| |]; try congruence. destruct (negb _); [discriminate|]. now destruct (_ <? _).
    - pose proof (Y _ opt_view v H) as Z. fold (decode_opt opt_view v) in Z.
      destruct (decode_opt opt_view v) as [[f [a n]]| |]; try congruence. destruct (negb _); [discriminate|]. now destruct (negb _).
    - assert (Z : decode_sums sums_view v <> Panic).
      { unfold decode_sums, view, split_fork. destruct (blen v <? 4); [discriminate|]. destruct (fork_of_digest _); [|discriminate].
        cbn [obind fst snd]. now destruct (sums_view _). }
      destruct (decode_sums sums_view v) as [[f [n l]]| |]; try congruence. now destruct (negb _).
  Qed.
  (** A value carries its fork: joining and splitting are inverse. *)
  Theorem C66_fork_round_trip : forall c f body, split_fork c (join_fork f body) = Ok (f, body) /\
    forall b, split_fork c b = Ok (f, body) -> b = join_fork f body.
  Proof.
    intros c f body. split.
    - unfold split_fork, join_fork. assert (L := fork_digest_len f).
      assert (B : blen (fork_digest f ++ body) <? 4 = false) by (unfold blen; rewrite app_length, L; lia). rewrite B.
      rewrite firstn_app, L, Nat.sub_diag, firstn_O, app_nil_r, firstn_all2 by lia.
      rewrite fork_of_digest_ok, skipn_app, L, Nat.sub_diag, skipn_all2 by lia. reflexivity.
    - intros b H. unfold split_fork in H. destruct (blen b <? 4); [now destruct c|].
      destruct (fork_of_digest (firstn 4 b)) as [g|] eqn:F; [|discriminate]. injection H as -> <-.
      apply fork_of_digest_inv in F. unfold join_fork. rewrite <- F. symmetry. apply firstn_skipn.
  Qed.

  (** * C67: where the light client starts *)

  Definition checks_bootstraps (o : op) : Prop :=
    match o with
    | Arrive en (KBootstrap _) _ => finalized_header en <> None
    | UserStore (KBootstrap _) _ => False
    | _ => True
    end.

  (** If every bootstrap that arrived was checked against the finalised header of a running light
      client, and no user stored one, then the block root the light client starts from is the
      configured one, the embedded one or the root of a header that was finalised. *)
  Theorem C67_trusted_root : forall e h0 ops configured default r,
    Forall checks_bootstraps ops ->
    may_trust configured default (st (run e (new_node h0) ops)) r ->
    configured = Some r \/ r = default \/
    exists en key v fh, In (Arrive en (KBootstrap key) v) ops /\ finalized_header en = Some fh /\ header_root fh = r.
  Proof.
    intros e h0 ops configured default r A T.
    assert (Inv :
      (forall key v, In (KBootstrap key, v) (waiting (run e (new_node h0) ops)) ->
         exists en f fh, In (Arrive en (KBootstrap key) v) ops /\ decode_boot boot_view v = Ok (f, fh) /\ finalized_header en = Some fh) /\
      (forall row, In row (bootstraps (st (run e (new_node h0) ops))) ->
         exists en key v fh, In (Arrive en (KBootstrap key) v) ops /\ finalized_header en = Some fh /\ header_root fh = fst row)).
    { clear T. induction ops as [|o ops IH] using rev_ind; [split; [intros ? ? []|intros ? []]|].
      apply Forall_app in A. destruct A as [A1 A2]. inversion A2; subst. clear A2 H2. rename H1 into Ao.
      destruct (IH A1) as [I1 I2]. rewrite run_snoc. set (n := run e (new_node h0) ops) in *. clearbody n. clear IH.
      assert (J1 : forall key v, In (KBootstrap key, v) (waiting n) ->
         exists en f fh, In (Arrive en (KBootstrap key) v) (ops ++ [o]) /\ decode_boot boot_view v = Ok (f, fh) /\ finalized_header en = Some fh).
      { intros key v I. destruct (I1 _ _ I) as (en & f & fh & B & C). exists en, f, fh. split; [apply in_or_app; now left|exact C]. }
      assert (J2 : forall row, In row (bootstraps (st n)) ->
         exists en key v fh, In (Arrive en (KBootstrap key) v) (ops ++ [o]) /\ finalized_header en = Some fh /\ header_root fh = fst row).
      { intros row I. destruct (I2 _ I) as (en & k & v & fh & B & C). exists en, k, v, fh. split; [apply in_or_app; now left|exact C]. }
      assert (P : forall k w, (forall key, k = KBootstrap key -> exists en f fh, In (Arrive en (KBootstrap key) w) (ops ++ [o]) /\ decode_boot boot_view w = Ok (f, fh) /\ finalized_header en = Some fh) ->
        forall row, In row (bootstraps (fst (put (st n) k w))) ->
         exists en key v fh, In (Arrive en (KBootstrap key) v) (ops ++ [o]) /\ finalized_header en = Some fh /\ header_root fh = fst row).
      { intros k w K row I. destruct (put_boots boot_view update_view fin_view opt_view sums_view header_root (st n) k w) as [E|(key & f & h & -> & D & _ & _ & E)];
          rewrite E in I; [now apply J2|]. apply in_app_iff in I. destruct I as [I|[<-|[]]]; [now apply J2|].
        destruct (K key eq_refl) as (en & f' & fh & B & C & F). rewrite D in C. injection C as -> ->. exists en, key, w, fh. auto. }
      destruct o as [en k w|i|k w|t|]; cbn [BeaconStore_Model.step].
      - destruct (validate en k w) as [[]| |] eqn:V; try (split; assumption).
        destruct (fst (should_we_store (st n) k)) as [[]| |]; try (split; assumption). cbn [st waiting]. split; [|assumption].
        intros key v I. apply in_app_iff in I. destruct I as [I|[[= -> ->]|[]]]; [now apply J1|].
        apply C65_bound in V. destruct V as (f & h & D & _ & F). cbn in Ao. destruct (finalized_header en) as [fh|] eqn:Fe; [|congruence].
        exists en, f, fh. split; [apply in_or_app; right; now left|]. specialize (F fh eq_refl). subst h. auto.
      - destruct (nth_error (waiting n) i) as [[k w]|] eqn:Ni; [|split; assumption]. cbn [st waiting]. split.
        + intros key v I. apply J1. unfold drop_nth in I. apply in_app_iff in I.
          destruct I as [I|I]; [rewrite <- (firstn_skipn i (waiting n)); apply in_or_app; now left|].
          rewrite <- (firstn_skipn (S i) (waiting n)). apply in_or_app. now right.
        + apply P. intros key ->. apply J1. eapply nth_error_In; eauto.
      - cbn [st waiting]. split; [assumption|]. apply P. intros key ->. destruct Ao.
      - cbn [st waiting]. split; [assumption|]. intros row I. apply J2. cbn in I. apply filter_In in I. tauto.
      - destruct (restart sums_view e (st n)) as [s'| |] eqn:R; try (split; assumption). cbn [st waiting]. split; [intros ? ? []|].
        destruct (restart_parts _ _ _ _ R) as (B & _). rewrite B. assumption. }
    destruct Inv as [_ I2]. unfold may_trust in T. destruct configured as [c|]; [left; congruence|]. right.
    destruct (bootstraps (st (run e (new_node h0) ops))) as [|x rows]; [now left|]. right.
    destruct T as (row & I & <- & _). exact (I2 _ I).
  Qed.

  (** Refuted in general: while the light client is not running yet, any bootstrap that is new
      enough is accepted and stored; when no root is configured, the next start of the node
      trusts the one with the largest slot, whoever made it. *)
  Theorem C67_planted_root_refuted : forall e h0 ops en key v f h default,
    finalized_header en = None -> decode_boot boot_view v = Ok (f, h) ->
    now en - four_months <= hd_slot h -> hd_slot h < 2 ^ 63 ->
    (forall row, In row (bootstraps (st (run e (new_node h0) ops))) -> snd (snd row) < hd_slot h) ->
    find_boot (st (run e (new_node h0) ops)) key = None ->
    find_boot (st (run e (new_node h0) ops)) (header_root h) = None ->
    let n := run e (new_node h0) (ops ++ [Arrive en (KBootstrap key) v; Finish (length (waiting (run e (new_node h0) ops))); Restart]) in
    forall r, may_trust None default (st n) r <-> r = header_root h.
  Proof.
    intros e h0 ops en key v f h default O D Fresh Fit Top Free Free2 n.
    assert (Ready : exists s', restart sums_view e (fst (put (st (run e (new_node h0) ops)) (KBootstrap key) v)) = Ok s').
    { assert (E : sums_row (fst (put (st (run e (new_node h0) ops)) (KBootstrap key) v)) = sums_row (st (run e (new_node h0) ops))).
      { cbn [BeaconStore_Model.put]. rewrite D. destruct (sql_int (hd_slot h)); [|reflexivity]. apply insert_boot_other. }
      unfold restart. rewrite E. destruct (sums_row (st (run e (new_node h0) ops))) as [[m w]|] eqn:S; [|eauto].
      destruct (sums_origin _ _ _ _ _ S) as (_ & f' & m' & l' & ->). eauto. }
    subst n. rewrite run_app. set (n1 := run e (new_node h0) ops) in *. clearbody n1.
    unfold BeaconStore_Model.run. cbn [fold_left BeaconStore_Model.step].
    assert (V : validate en (KBootstrap key) v = Ok true).
    { cbn [BeaconStore_Model.validate]. rewrite D, O. destruct (hd_slot h <? now en - four_months) eqn:B; [lia|reflexivity]. }
    rewrite V. cbn [should_we_store fst]. rewrite Free. cbn [stored_if st waiting]. rewrite nth_error_app2, Nat.sub_diag by lia. cbn [nth_error st].
    destruct Ready as [s' R]. rewrite R. cbn [st]. destruct (restart_parts _ _ _ _ R) as (B & _).
    assert (Q : sql_int (hd_slot h) = true) by (unfold sql_int; lia).
    cbn [BeaconStore_Model.put] in B. rewrite D, Q in B. cbn [fst] in B. unfold insert_boot in B. rewrite Free2 in B. cbn [bootstraps] in B.
    intros r. unfold may_trust. rewrite B.
    assert (NE : exists x xs, bootstraps (st n1) ++ [(header_root h, (v, hd_slot h))] = x :: xs).
    { destruct (bootstraps (st n1)); cbn [app]; eauto. }
    destruct NE as (x & xs & NE). rewrite NE, <- NE. split.
    - intros (row & I & <- & M). apply in_app_iff in I. destruct I as [I|[<-|[]]]; [|reflexivity].
      specialize (Top _ I). assert (In (header_root h, (v, hd_slot h)) (bootstraps (st n1) ++ [(header_root h, (v, hd_slot h))])) as J by (apply in_or_app; right; now left).
      specialize (M _ J). cbn in M. lia.
    - intros ->. exists (header_root h, (v, hd_slot h)). split; [apply in_or_app; right; now left|]. split; [reflexivity|].
      intros row I. apply in_app_iff in I. destruct I as [I|[<-|[]]]; [specialize (Top _ I); cbn; lia|reflexivity].
  Qed.

  (** * C68: the work for one offered key *)

  (** Asking whether the content of a key should be stored takes at most one query, except for a
      range of updates, where it takes up to as many as the key says. *)
  Theorem C68_queries : forall s k,
    snd (should_we_store s k) <= match k with KUpdates _ count => count | _ => 1 end.
  Proof.
    assert (X : forall s ps q, snd (scan s ps q) <= q + blen ps).
    { intros s ps. induction ps as [|p ps IH]; intros q; cbn [scan]; [cbn; lia|].
      assert (B : blen (p :: ps) = 1 + blen ps) by (unfold blen; cbn [length]; lia). rewrite B.
      destruct (negb (sql_int p)); [cbn; lia|]. destruct (find_update s p); [cbn; lia|]. specialize (IH (q + 1)). lia. }
    intros s k. destruct k as [key|start count|slot|sig|epoch]; cbn [should_we_store snd]; try lia.
    specialize (X s (periods start count) 0). unfold blen in X. rewrite periods_len in X.
    pose proof (mod_le (start + count) (2 ^ 64)) as M. assert (Z : 2 ^ 64 <> 0) by (vm_compute; discriminate). specialize (M Z).
    set (w := (start + count) mod 2 ^ 64) in *. clearbody w. lia.
  Qed.
  (** Refuted that this is bounded: a key of 17 bytes can ask for any number of queries below
      2^63 in a node that has none of the periods, while the store is locked. *)
  Theorem C68_unbounded_refuted : forall s count, count < 2 ^ 63 ->
    (forall p, p < count -> find_update s p = None) ->
    should_we_store s (KUpdates 0 count) = (Ok DoStore, count).
  Proof.
    intros s count C F. cbn [should_we_store].
    assert (X : forall ps q, (forall p, In p ps -> p < count) -> scan s ps q = (Ok DoStore, q + blen ps)).
    { induction ps as [|p ps IH]; intros q I; cbn [scan]; [now rewrite N.add_0_r|].
      assert (P := I p (or_introl eq_refl)). assert (Q : sql_int p = true) by (unfold sql_int; lia). rewrite Q. cbn [negb].
      rewrite (F p P), IH by (intros p' I'; apply I; now right). f_equal. unfold blen. cbn [length]. lia. }
    assert (M : (0 + count) mod 2 ^ 64 = count).
    { rewrite N.add_0_l. apply N.mod_small. eapply N.lt_trans; [exact C|]. vm_compute. reflexivity. }
    rewrite X.
    - f_equal. unfold blen. rewrite periods_len, M. lia.
    - intros p I. apply In_nth_error in I. destruct I as [i I]. apply periods_nth in I. rewrite M in I. lia.
  Qed.
End Props.
Print Assumptions C50_served_was_written.
Print Assumptions C50_bootstrap_kept.
Print Assumptions C50_updates_kept.
Print Assumptions C50_latest_served.
Print Assumptions C51_chain_head.
Print Assumptions C51_served_one_at_a_time.
Print Assumptions C51_served_refuted.
Print Assumptions C65_bound.
Print Assumptions C65_bootstrap_key_refuted.
Print Assumptions C65_updates_key_refuted.
Print Assumptions C66_short_value_refuted.
Print Assumptions C66_short_update_refuted.
Print Assumptions C66_no_panic.
Print Assumptions C66_fork_round_trip.
Print Assumptions C67_trusted_root.
Print Assumptions C67_planted_root_refuted.
Print Assumptions C68_queries.
Print Assumptions C68_unbounded_refuted.

(** Concrete cases: a body is a list whose first byte is the slot. *)
Definition toy_boot (_ : fork) (b : bytes) : option lc_header :=
  match b with s :: r => Some {| hd_slot := s; hd_rest := r |} | [] => None end.
Definition toy_update (_ : fork) (b : bytes) : bool := true.
Definition toy_fin (_ : fork) (b : bytes) : option (lc_header * lc_header) :=
  match b with a :: s :: r => Some ({| hd_slot := a; hd_rest := r |}, {| hd_slot := s; hd_rest := r |}) | _ => None end.
Definition toy_opt (_ : fork) (b : bytes) : option (lc_header * N) :=
  match b with a :: s :: r => Some ({| hd_slot := a; hd_rest := r |}, s) | _ => None end.
Definition toy_sums (b : bytes) : option (N * list summary) := match b with e :: _ => Some (e, []) | [] => None end.
Definition toy_root (h : lc_header) : bytes := hd_slot h :: hd_rest h.
Definition toy_head : chain_head :=
  {| latest := {| hd_slot := 0; hd_rest := [] |}; finalized := {| hd_slot := 0; hd_rest := [] |}; summaries := [] |}.
Definition toy_run := run toy_boot toy_update toy_fin toy_opt toy_sums toy_root toy_head (new_node toy_head).
Definition unsynced : env := {| now := 0; finalized_header := None; light_client := None; summaries_proof := None |}.
Definition synced : env :=
  {| now := 0; finalized_header := Some {| hd_slot := 9; hd_rest := [1] |}; light_client := Some (fun _ => true); summaries_proof := None |}.
Definition toy_updates : bytes := encode_var_list [join_fork Electra [7]; join_fork Electra [8; 8]].

Example C50_case :
  let s := st (toy_run [Arrive synced (KUpdates 5 2) toy_updates; Arrive synced (KFinality 3) (join_fork Electra [9; 4; 1]); Finish 1; Finish 0;
    Arrive synced (KBootstrap [9; 1]) (join_fork Deneb [9; 1]); Finish 0; Prune 864000; UserStore (KSummaries 2) (join_fork Electra [2])]) in
  get toy_update s (KUpdates 5 2) = Ok (Some toy_updates) /\ get toy_update s (KUpdates 6 1) = Ok (Some (encode_var_list [join_fork Electra [8; 8]])) /\
  get toy_update s (KUpdates 6 2) = Ok None /\ get toy_update s (KFinality 4) = Ok (Some (join_fork Electra [9; 4; 1])) /\
  get toy_update s (KFinality 5) = Ok None /\ get toy_update s (KBootstrap [9; 1]) = Ok (Some (join_fork Deneb [9; 1])) /\
  get toy_update s (KSummaries 1) = Ok (Some (join_fork Electra [2])).
Proof. vm_compute. repeat split. Qed.
Example C50_updates_case : bytes_ok toy_updates /\ decode_updates toy_update toy_updates = Ok [join_fork Electra [7]; join_fork Electra [8; 8]] /\
  (forall p, 5 <= p -> p < 7 -> get toy_update (st (new_node toy_head)) (KUpdates p 1) = Ok None).
Proof.
  split; [|split; [vm_compute; reflexivity|]].
  - unfold bytes_ok. repeat (constructor; [vm_compute; reflexivity|]). constructor.
  - intros p A B. assert (P : p = 5 \/ p = 6) by lia. destruct P as [-> | ->]; vm_compute; reflexivity.
Qed.
Example C51_race_case :
  let v1 := join_fork Electra [9; 3] in let v2 := join_fork Electra [9; 5] in
  let ops := [Arrive synced (KFinality 3) v1; Arrive synced (KFinality 5) v2; Finish 1] in
  get toy_update (st (toy_run ops)) (KFinality 5) = Ok (Some v2) /\ get toy_update (st (toy_run (ops ++ [Finish 0]))) (KFinality 5) = Ok None /\
  one_at_a_time [Arrive synced (KFinality 3) v1; Finish 0; Arrive synced (KFinality 5) v2; Finish 0] /\
  serves toy_update (st (toy_run [Arrive synced (KFinality 3) v1; Finish 0; Arrive synced (KFinality 5) v2; Finish 0])) (KFinality 3).
Proof.
  split; [vm_compute; reflexivity|]. split; [vm_compute; reflexivity|]. split; [repeat constructor|].
  eexists. vm_compute. reflexivity.
Qed.
Example C65_case : let ok := validate toy_boot toy_update toy_fin toy_opt toy_sums synced in
  ok (KBootstrap [9; 1]) (join_fork Deneb [9; 1]) = Ok true /\ ok (KBootstrap [0]) (join_fork Deneb [9; 1]) = Ok true /\
  ok (KBootstrap [9; 1]) (join_fork Deneb [9; 2]) = Ok false /\
  ok (KUpdates 5 2) toy_updates = Ok true /\ ok (KUpdates 77 2) toy_updates = Ok true /\ ok (KUpdates 5 3) toy_updates = Ok false.
Proof. vm_compute. repeat split. Qed.
Example C65_served_wrong_case :
  let s := st (toy_run [Arrive synced (KUpdates 77 2) toy_updates; Finish 0]) in
  get toy_update s (KUpdates 77 2) = Ok (Some toy_updates) /\ fst (should_we_store s (KUpdates 77 2)) = Ok AlreadyStored.
Proof. vm_compute. repeat split. Qed.
Example C66_case : validate toy_boot toy_update toy_fin toy_opt toy_sums synced (KFinality 1) [0; 0; 0] = Panic /\
  validate toy_boot toy_update toy_fin toy_opt toy_sums synced (KUpdates 0 1) (encode_var_list [[]; [1]]) = Panic /\
  validate toy_boot toy_update toy_fin toy_opt toy_sums synced (KFinality 1) [0; 0; 0; 0; 9; 9] = Ok false /\
  split_fork false (join_fork Capella [1; 2]) = Ok (Capella, [1; 2]).
Proof. vm_compute. repeat split. Qed.
Example C67_case :
  let planted := join_fork Electra [200; 6; 6; 6] in
  let good := [Arrive synced (KBootstrap [9; 1]) (join_fork Deneb [9; 1]); Finish 0] in
  Forall checks_bootstraps (good ++ [Restart]) /\
  (forall r, may_trust None [1] (st (toy_run good)) r <-> r = [9; 1]) /\
  (forall r, may_trust None [1] (st (toy_run (good ++ [Arrive unsynced (KBootstrap [42]) planted; Finish 0; Restart]))) r <-> r = [200; 6; 6; 6]).
Proof.
  split; [repeat constructor; discriminate|]. split.
  - intros r. vm_compute. split.
    + intros (row & [<-|[]] & <- & _). reflexivity.
    + intros ->. eexists. split; [now left|]. split; [reflexivity|]. intros row [<-|[]] H. discriminate.
  - apply (C67_planted_root_refuted toy_boot toy_update toy_fin toy_opt toy_sums toy_root toy_head toy_head
      [Arrive synced (KBootstrap [9; 1]) (join_fork Deneb [9; 1]); Finish 0] unsynced [42] (join_fork Electra [200; 6; 6; 6]) Electra
      {| hd_slot := 200; hd_rest := [6; 6; 6] |} [1]); try (vm_compute; reflexivity).
    + vm_compute. discriminate.
    + intros row [<-|[]]. vm_compute. reflexivity.
Qed.
Example C68_case : should_we_store (empty_store toy_head) (KUpdates 0 50) = (Ok DoStore, 50) /\
  snd (should_we_store (empty_store toy_head) (KFinality 50)) = 0.
Proof. vm_compute. repeat split. Qed.
