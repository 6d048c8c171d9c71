(** Properties C22, C23 and C64: headers with proofs. *)
From Verif Require Import Base Merkle_Model Merkle_Spec Merkle_Proofs Header_Model Header_Spec Header_Proofs.

(** A validator whose accumulators are those of the chain [c]; the summaries it is given by the
    node's oracle are those of the chain so far. *)
Definition honest sha (c : chain) (source : option (list summary)) : Prop :=
  forall l, source = Some l -> exists k, l = firstn k (map (batch_summary sha) (later_batches c)).
Definition fresh sha (c : chain) : validator :=
  {| pre_merge_acc := map (epoch_root sha) (epochs c); historical_roots := map (batch_root sha) (batches c); cache := [] |}.
Inductive reach sha fk c : validator -> Prop :=
  | R_new : reach sha fk c (fresh sha c)
  | R_validate v source h p : reach sha fk c v -> honest sha c source -> reach sha fk c (fst (validate_header_with_proof sha fk v source h p)).

Lemma reach_parts sha fk c v : reach sha fk c v ->
  pre_merge_acc v = map (epoch_root sha) (epochs c) /\ historical_roots v = map (batch_root sha) (batches c) /\
  exists k, cache v = firstn k (map (batch_summary sha) (later_batches c)).
Proof.
  assert (G : forall v source slot root p, honest sha c source ->
    (exists k, cache v = firstn k (map (batch_summary sha) (later_batches c))) ->
    let v' := fst (verify_historical_summaries_proof sha v source slot root p) in
    pre_merge_acc v' = pre_merge_acc v /\ historical_roots v' = historical_roots v /\ exists k, cache v' = firstn k (map (batch_summary sha) (later_batches c))).
  { clear v. intros v source slot root p Hs K. unfold verify_historical_summaries_proof, get_historical_summary.
    destruct (historical_summary_index slot) as [i|]; cbn [fst pre_merge_acc historical_roots cache]; [|auto].
    destruct (nth_error (cache v) (N.to_nat i)); cbn [fst pre_merge_acc historical_roots cache]; [auto|].
    destruct source as [l|]; cbn [fst pre_merge_acc historical_roots cache]; [|auto].
    destruct (nth_error l (N.to_nat i)); cbn [fst pre_merge_acc historical_roots cache]; [|auto]. split; [reflexivity|]. split; [reflexivity|]. exact (Hs l eq_refl). }
  induction 1 as [|v source h p R (I1 & I2 & I3) Hs].
  - split; [reflexivity|]. split; [reflexivity|]. exists 0%nat. reflexivity.
  - destruct p as [p|p|p|p]; cbn [validate_header_with_proof fst]; [auto|auto| |].
    + unfold verify_capella_to_deneb_header. repeat (match goal with |- context [if ?b then (v, Err) else _] => destruct b; [cbn [fst]; auto|] end).
      specialize (G v source (slot p) (beacon_block_root p) (beacon_block_proof p) Hs I3). destruct (verify_historical_summaries_proof _ _ _ _ _ _) as [v' ok]. cbn [fst] in *.
      destruct G as (G1 & G2 & G3). rewrite G1, G2. auto.
    + unfold verify_post_deneb_header. repeat (match goal with |- context [if ?b then (v, Err) else _] => destruct b; [cbn [fst]; auto|] end).
      specialize (G v source (slot p) (beacon_block_root p) (beacon_block_proof p) Hs I3). destruct (verify_historical_summaries_proof _ _ _ _ _ _) as [v' ok]. cbn [fst] in *.
      destruct G as (G1 & G2 & G3). rewrite G1, G2. auto.
Qed.
Lemma nth_error_firstn_inv {A} (l : list A) k i x : nth_error (firstn k l) i = Some x -> nth_error l i = Some x.
Proof. revert k i. induction l as [|a l IH]; intros [|k] [|i] H; cbn in *; try discriminate; [exact H|]. exact (IH _ _ H). Qed.
Lemma get_summary sha c cache source slot ca s : (exists k, cache = firstn k (map (batch_summary sha) (later_batches c))) -> honest sha c source ->
  get_historical_summary cache source slot = (ca, Some s) ->
  194048 * 32 <= slot /\ exists b, nth_error (later_batches c) (N.to_nat ((slot - 194048 * 32) / 8192)) = Some b /\ s = batch_summary sha b.
Proof.
  intros (k & Hc) Hs. unfold get_historical_summary, historical_summary_index. change (capella_fork_epoch * slots_per_epoch) with (194048 * 32). change slots_per_historical_root with 8192.
  cbv zeta. destruct (N.ltb_spec slot (194048 * 32)) as [L|L]; [discriminate|]. set (i := (slot - 194048 * 32) / 8192).
  assert (G : forall j l, nth_error (firstn j (map (batch_summary sha) (later_batches c))) (N.to_nat i) = Some s -> l = s -> exists b, nth_error (later_batches c) (N.to_nat i) = Some b /\ l = batch_summary sha b).
  { intros j l H ->. apply nth_error_firstn_inv in H. rewrite nth_error_map in H. destruct (nth_error (later_batches c) (N.to_nat i)) as [b|]; [|discriminate]. injection H as <-. eauto. }
  destruct (nth_error cache (N.to_nat i)) as [s'|] eqn:E.
  - intros H. injection H as <- <-. split; [exact L|]. rewrite Hc in E. exact (G k s' E eq_refl).
  - destruct source as [l|]; [|discriminate]. destruct (nth_error l (N.to_nat i)) as [s'|] eqn:E2; [|discriminate]. intros H. injection H as <- <-.
    split; [exact L|]. destruct (Hs l eq_refl) as (j & ->). exact (G j s' E2 eq_refl).
Qed.
Lemma mod8192 n : n mod 8192 < 8192.
Proof. apply N.mod_lt. discriminate. Qed.

(** C22: an accepted header is part of the chain the accumulators stand for: before the merge, its
    hash is that of the record at its number; afterwards, it is the execution block of the beacon block
    at the slot the proof names, in the era its number and time belong to.  Otherwise the proof exhibits two inputs
    with one hash (or, in an epoch that is not full, an input whose hash is zero). *)
Theorem C22_only_canonical : forall sha, (forall x, len32 (sha x)) -> forall fk c v source h p v',
  chain_ok c -> reach sha fk c v -> honest sha c source -> typed p -> len32 (h_hash h) ->
  validate_header_with_proof sha fk v source h p = (v', Ok tt) ->
  match p with
  | HistoricalHashes branch =>
      Forall len32 branch ->
      h_number h < paris_block fk /\
      exists e, nth_error (epochs c) (N.to_nat (h_number h / 8192)) = Some e /\
        ((exists r, nth_error e (N.to_nat (h_number h mod 8192)) = Some r /\ block_hash r = h_hash h) \/
         clash sha (hashed_by_proof sha (h_hash h) branch (32768 + 2 * (h_number h mod 8192))) (hashed_by_epoch sha e) \/
         exists x, In x (hashed_by_proof sha (h_hash h) branch (32768 + 2 * (h_number h mod 8192))) /\ sha x = repeat 0 32)
  | HistoricalRoots q =>
      Forall len32 (beacon_block_proof q) -> Forall len32 (execution_block_proof q) -> len32 (beacon_block_root q) ->
      paris_block fk <= h_number h /\ h_timestamp h < shanghai_time fk /\
      (block_at (batches c) (slot q / 8192) (slot q) (beacon_block_root q) \/
       exists b, In b (batches c) /\ clash sha (hashed_by_proof sha (beacon_block_root q) (beacon_block_proof q) (16384 + slot q mod 8192)) (hashed_by_batch sha b)) /\
      contains sha 4 (beacon_block_root q) (h_hash h) (execution_block_proof q) 3228
  | SummariesCapella q =>
      Forall len32 (beacon_block_proof q) -> Forall len32 (execution_block_proof q) -> len32 (beacon_block_root q) ->
      shanghai_time fk <= h_timestamp h < cancun_time fk /\ 194048 * 32 <= slot q /\
      (block_at (later_batches c) ((slot q - 194048 * 32) / 8192) (slot q) (beacon_block_root q) \/
       exists b, In b (later_batches c) /\ clash sha (hashed_by_proof sha (beacon_block_root q) (beacon_block_proof q) (8192 + slot q mod 8192)) (hashed_by_batch sha b)) /\
      contains sha 4 (beacon_block_root q) (h_hash h) (execution_block_proof q) 3228
  | SummariesDeneb q =>
      Forall len32 (beacon_block_proof q) -> Forall len32 (execution_block_proof q) -> len32 (beacon_block_root q) ->
      cancun_time fk <= h_timestamp h /\ 194048 * 32 <= slot q /\
      (block_at (later_batches c) ((slot q - 194048 * 32) / 8192) (slot q) (beacon_block_root q) \/
       exists b, In b (later_batches c) /\ clash sha (hashed_by_proof sha (beacon_block_root q) (beacon_block_proof q) (8192 + slot q mod 8192)) (hashed_by_batch sha b)) /\
      contains sha 5 (beacon_block_root q) (h_hash h) (execution_block_proof q) 6444
  end.
Proof.
  intros sha Hsha fk c v source h p v' (C1 & C2 & C3) R Hs T Hh V. destruct (reach_parts sha fk c v R) as (P1 & P2 & P3).
  assert (Summ : forall q, Forall len32 (beacon_block_proof q) -> len32 (beacon_block_root q) ->
    snd (verify_historical_summaries_proof sha v source (slot q) (beacon_block_root q) (beacon_block_proof q)) = true ->
    194048 * 32 <= slot q /\ (block_at (later_batches c) ((slot q - 194048 * 32) / 8192) (slot q) (beacon_block_root q) \/
       exists b, In b (later_batches c) /\ clash sha (hashed_by_proof sha (beacon_block_root q) (beacon_block_proof q) (8192 + slot q mod 8192)) (hashed_by_batch sha b))).
  { intros q F1 F2 H. unfold verify_historical_summaries_proof in H. destruct (get_historical_summary (cache v) source (slot q)) as [ca [s|]] eqn:E; [|discriminate].
    destruct (get_summary sha c _ _ _ _ _ P3 Hs E) as (L & b & Eb & ->). split; [exact L|]. cbn [snd] in H.
    assert (Bo : batch_ok b) by (rewrite Forall_forall in C3; apply C3; exact (nth_error_In _ _ Eb)).
    apply summary_sound in H; [|exact Hsha|apply mod8192|exact Bo|exact F2|exact F1].
    destruct H as [H|H]; [left; exists b; auto|right; exists b; split; [exact (nth_error_In _ _ Eb)|exact H]]. }
  destruct p as [p|q|q|q]; cbn [validate_header_with_proof] in V.
  - intros Fp. injection V as _ V. unfold verify_pre_merge_header in V. change slots_per_historical_root with 8192 in V.
    unfold paris_active in V. destruct (N.leb_spec (paris_block fk) (h_number h)) as [L|L]; [discriminate|]. split; [exact L|]. cbv zeta in V.
    rewrite P1, nth_error_map in V. destruct (nth_error (epochs c) (N.to_nat (h_number h / 8192))) as [e|] eqn:Ee; [|discriminate]. cbn [option_map] in V.
    destruct (verify_merkle_proof _ _ _ _ _ _) eqn:M; [|discriminate]. exists e. split; [reflexivity|].
    assert (Eo : epoch_ok e) by (rewrite Forall_forall in C1; apply C1; exact (nth_error_In _ _ Ee)).
    pose proof (epoch_sound sha Hsha e (h_hash h) p (h_number h mod 8192) (mod8192 _) Eo Hh Fp M) as S.
    replace (32768 + 2 * (h_number h mod 8192)) with (8192 * 2 * 2 + h_number h mod 8192 * 2) by (clear; lia). exact S.
  - intros F1 F2 F3. injection V as _ V. unfold verify_merge_to_capella_header, paris_active, shanghai_active in V. destruct T as [T1 T2].
    destruct (N.leb_spec (paris_block fk) (h_number h)) as [L|L]; [|discriminate]. cbn [negb] in V.
    destruct (N.leb_spec (shanghai_time fk) (h_timestamp h)) as [L2|L2]; [discriminate|].
    unfold verify_bellatrix_execution_proof in V. rewrite T2 in V. destruct (verify_merkle_proof sha (h_hash h) _ 11 3228 _) eqn:M; [|discriminate]. cbn [negb] in V.
    unfold verify_historical_roots_proof in V. change slots_per_historical_root with 8192 in V. cbv zeta in V. rewrite P2, nth_error_map in V.
    destruct (nth_error (batches c) (N.to_nat (slot q / 8192))) as [b|] eqn:Eb; [|discriminate]. cbn [option_map] in V.
    destruct (verify_merkle_proof sha (beacon_block_root q) _ _ _ _) eqn:M2; [|discriminate].
    assert (Bo : batch_ok b) by (rewrite Forall_forall in C2; apply C2; exact (nth_error_In _ _ Eb)).
    split; [exact L|]. split; [exact L2|]. split.
    + apply batch_sound in M2; [|exact Hsha|apply mod8192|exact Bo|exact F3|exact F1]. destruct M2 as [M2|M2]; [left; exists b; auto|right; exists b; split; [exact (nth_error_In _ _ Eb)|exact M2]].
    + intros bb Sb Eb2. rewrite <- Eb2 in M. apply (block_sound sha Hsha 4 bb (h_hash h) _ 3228 Sb Hh F2); [reflexivity|reflexivity|reflexivity|exact M].
  - intros F1 F2 F3. destruct T as [T1 T2]. unfold verify_capella_to_deneb_header, shanghai_active, cancun_active in V.
    destruct (N.leb_spec (shanghai_time fk) (h_timestamp h)) as [L|L]; [|discriminate]. cbn [negb] in V.
    destruct (N.leb_spec (cancun_time fk) (h_timestamp h)) as [L2|L2]; [discriminate|].
    unfold verify_bellatrix_execution_proof in V. rewrite T2 in V. destruct (verify_merkle_proof sha (h_hash h) _ 11 3228 _) eqn:M; [|discriminate]. cbn [negb] in V.
    specialize (Summ q F1 F3). destruct (verify_historical_summaries_proof _ _ _ _ _ _) as [v2 ok]. cbn [snd] in Summ. destruct ok; [|discriminate]. destruct (Summ eq_refl) as [S1 S2].
    split; [auto|]. split; [exact S1|]. split; [exact S2|].
    intros bb Sb Eb2. rewrite <- Eb2 in M. apply (block_sound sha Hsha 4 bb (h_hash h) _ 3228 Sb Hh F2); [reflexivity|reflexivity|reflexivity|exact M].
  - intros F1 F2 F3. destruct T as [T1 T2]. unfold verify_post_deneb_header, cancun_active in V.
    destruct (N.leb_spec (cancun_time fk) (h_timestamp h)) as [L|L]; [|discriminate]. cbn [negb] in V.
    unfold verify_deneb_execution_proof in V. rewrite T2 in V. destruct (verify_merkle_proof sha (h_hash h) _ 12 6444 _) eqn:M; [|discriminate]. cbn [negb] in V.
    specialize (Summ q F1 F3). destruct (verify_historical_summaries_proof _ _ _ _ _ _) as [v2 ok]. cbn [snd] in Summ. destruct ok; [|discriminate]. destruct (Summ eq_refl) as [S1 S2].
    split; [exact L|]. split; [exact S1|]. split; [exact S2|].
    intros bb Sb Eb2. rewrite <- Eb2 in M. apply (block_sound sha Hsha 5 bb (h_hash h) _ 6444 Sb Hh F2); [reflexivity|reflexivity|reflexivity|exact M].
Qed.

(** No header can crash the validator except one whose proof names a slot past the historical
    roots, *)
Theorem C22_no_panic : forall sha fk c v source h p,
  reach sha fk c v -> (paris_block fk - 1) / 8192 < blen (epochs c) ->
  (match p with HistoricalRoots q => slot q / 8192 < blen (batches c) | _ => True end) ->
  snd (validate_header_with_proof sha fk v source h p) <> Panic.
Proof.
  intros sha fk c v source h p R He Hp. destruct (reach_parts sha fk c v R) as (P1 & P2 & P3). destruct p as [p|q|q|q]; cbn [validate_header_with_proof snd].
  - unfold verify_pre_merge_header, paris_active. destruct (N.leb_spec (paris_block fk) (h_number h)) as [L|L]; [discriminate|]. change slots_per_historical_root with 8192. cbv zeta.
    destruct (nth_error _ _) eqn:E; [destruct (verify_merkle_proof _ _ _ _ _ _); discriminate|]. apply nth_error_None in E. rewrite P1, map_length in E.
    assert (h_number h / 8192 <= (paris_block fk - 1) / 8192) by (apply N.div_le_mono; [discriminate|lia]). unfold blen in He. lia.
  - unfold verify_merge_to_capella_header. destruct (negb _); [discriminate|]. destruct (shanghai_active _ _); [discriminate|]. destruct (negb _); [discriminate|].
    unfold verify_historical_roots_proof. change slots_per_historical_root with 8192. cbv zeta. destruct (nth_error _ _) eqn:E; [destruct (verify_merkle_proof _ _ _ _ _ _); discriminate|].
    apply nth_error_None in E. rewrite P2, map_length in E. unfold blen in Hp. lia.
  - unfold verify_capella_to_deneb_header. destruct (negb _); [discriminate|]. destruct (cancun_active _ _); [discriminate|]. destruct (negb _); [discriminate|].
    destruct (verify_historical_summaries_proof _ _ _ _ _ _) as [v2 []]; discriminate.
  - unfold verify_post_deneb_header. destruct (negb _); [discriminate|]. destruct (negb _); [discriminate|].
    destruct (verify_historical_summaries_proof _ _ _ _ _ _) as [v2 []]; discriminate.
Qed.
(** which anyone can make, for any header with a number and a time of that era. *)
Theorem C22_no_panic_refuted : forall sha fk c v source h,
  reach sha fk c v -> paris_block fk <= h_number h -> h_timestamp h < shanghai_time fk ->
  exists q, typed (HistoricalRoots q) /\ snd (validate_header_with_proof sha fk v source h (HistoricalRoots q)) = Panic.
Proof.
  intros sha fk c v source h R H1 H2. destruct (reach_parts sha fk c v R) as (_ & P2 & _).
  set (e := repeat (repeat 0 32) 11). exists {| beacon_block_proof := repeat (repeat 0 32) 14; beacon_block_root := root_from_branch sha (h_hash h) e 3228 0; execution_block_proof := e; slot := 8192 * blen (batches c) |}.
  split; [split; reflexivity|]. cbn [validate_header_with_proof snd]. unfold verify_merge_to_capella_header, paris_active, shanghai_active. cbn [beacon_block_proof beacon_block_root execution_block_proof slot].
  apply N.leb_le in H1. apply N.leb_gt in H2. rewrite H1, H2. cbn [negb]. unfold verify_bellatrix_execution_proof, verify_merkle_proof. rewrite Nat.eqb_refl, beqb_refl. cbn [andb negb].
  unfold verify_historical_roots_proof. change slots_per_historical_root with 8192. cbv zeta. rewrite N.mul_comm, N.div_mul by discriminate. destruct (nth_error _ _) eqn:E; [|reflexivity].
  assert (N.to_nat (blen (batches c)) < length (historical_roots v))%nat by (apply nth_error_Some; congruence). rewrite P2, map_length in H. unfold blen in H. lia.
Qed.

(** C23: the proof that is constructed for a header of an epoch before the merge is accepted. *)
Theorem C23_honest_pre_merge : forall sha fk c v source debug h e r,
  reach sha fk c v -> h_number h < paris_block fk ->
  nth_error (epochs c) (N.to_nat (h_number h / 8192)) = Some e -> blen e <= 8192 ->
  nth_error e (N.to_nat (h_number h mod 8192)) = Some r -> block_hash r = h_hash h ->
  exists p, construct_proof sha debug h e = Ok p /\ typed (HistoricalHashes p) /\
    validate_header_with_proof sha fk v source h (HistoricalHashes p) = (v, Ok tt).
Proof.
  intros sha fk c v source debug h e r R Hn He Le Hr Hh. destruct (reach_parts sha fk c v R) as (P1 & _ & _).
  destruct (epoch_proof_ok sha debug h e r Hr Hh Le) as (p & Ep & Lp & V). exists p. split; [exact Ep|]. split; [exact Lp|].
  cbn [validate_header_with_proof]. f_equal. unfold verify_pre_merge_header, paris_active. apply N.leb_gt in Hn. rewrite Hn. change slots_per_historical_root with 8192. cbv zeta.
  rewrite P1, nth_error_map, He. cbn [option_map]. rewrite V. reflexivity.
Qed.
(** For a header that is not the one in the epoch none is constructed. *)
Theorem C23_other_header : forall sha debug h e r,
  nth_error e (N.to_nat (h_number h mod 8192)) = Some r -> block_hash r <> h_hash h -> construct_proof sha debug h e = Err.
Proof.
  intros sha debug h e r Hr Hh. unfold construct_proof. change slots_per_historical_root with 8192. cbv zeta. rewrite Hr. apply beqb_false in Hh. rewrite Hh. reflexivity.
Qed.

(** C64: the proofs that are built for later headers are accepted, if the validator knows the
    summary or can get it. *)
Theorem C64_honest_merge_to_capella : forall sha fk c v source h s b bb,
  chain_ok c -> reach sha fk c v -> paris_block fk <= h_number h -> h_timestamp h < shanghai_time fk ->
  nth_error (batches c) (N.to_nat (s / 8192)) = Some b ->
  shaped 4 bb -> nth_error (block_roots b) (N.to_nat (s mod 8192)) = Some (block_tree sha 4 bb) -> execution_hash bb = h_hash h ->
  let p := HistoricalRoots (build_historical_roots_proof sha s (block_roots b) (state_roots b) bb) in
  typed p /\ validate_header_with_proof sha fk v source h p = (v, Ok tt).
Proof.
  intros sha fk c v source h s b bb (C1 & C2 & C3) R H1 H2 Hb Sb Hr Hh p. destruct (reach_parts sha fk c v R) as (_ & P2 & _).
  assert (Bo : batch_ok b) by (rewrite Forall_forall in C2; apply C2; exact (nth_error_In _ _ Hb)). destruct Bo as (B1 & B2 & B3 & B4).
  destruct (execution_proof_ok sha 4 bb 3228 Sb (or_introl eq_refl)) as (E1 & E2 & E3); [reflexivity|reflexivity|reflexivity|].
  destruct (roots_proof_ok sha _ _ (s mod 8192) B1 (mod8192 s) Hr) as (L1 & V1).
  split.
  - split; cbn [build_historical_roots_proof beacon_block_proof execution_block_proof]; [|exact E2]. rewrite app_length. change slots_per_historical_root with 8192. rewrite L1. reflexivity.
  - unfold p. cbn [validate_header_with_proof]. f_equal. unfold verify_merge_to_capella_header, paris_active, shanghai_active. apply N.leb_le in H1. apply N.leb_gt in H2. rewrite H1, H2. cbn [negb].
    cbn [build_historical_roots_proof beacon_block_proof execution_block_proof beacon_block_root slot]. unfold verify_bellatrix_execution_proof. rewrite E2, E1, <- Hh. change (4 + 4 + 3)%nat with 11%nat in *. rewrite E3. cbn [negb].
    unfold verify_historical_roots_proof. change slots_per_historical_root with 8192. cbv zeta. rewrite P2, nth_error_map, Hb. cbn [option_map].
    assert (V : verify_merkle_proof sha (block_tree sha 4 bb) (build_merkle_proof sha (block_roots b) (s mod 8192) ++ [container_root sha (state_roots b)]) 14 (2 * 8192 + s mod 8192) (batch_root sha b) = true).
    { destruct (idx_batch _ (mod8192 s)) as (I1 & I2). cbv zeta in I1, I2. change 14%nat with (13 + 1)%nat. apply (verify_join sha) with (mid := merkle_root sha 13 (block_roots b)).
      - rewrite <- verify_mod. change (2 ^ N.of_nat 13) with 8192. rewrite I2. exact V1.
      - rewrite <- verify_mod. change (N.of_nat 13) with 13. change (2 ^ N.of_nat 1) with 2. rewrite I1. rewrite (container_ok sha _ 13 (roots_log _ B3)).
        unfold verify_merkle_proof. cbn [length root_from_branch]. rewrite Nat.eqb_refl. cbn [andb]. apply beqb_spec. reflexivity. }
    rewrite V. reflexivity.
Qed.
Lemma nth_error_firstn_lt {A} (l : list A) k i : (i < k)%nat -> nth_error (firstn k l) i = nth_error l i.
Proof. revert k i. induction l as [|a l IH]; intros [|k] [|i] H; cbn; try lia; try reflexivity. apply IH. lia. Qed.
Lemma summaries_accept sha fk c v source s b root : chain_ok c -> reach sha fk c v -> honest sha c source ->
  194048 * 32 <= s -> nth_error (later_batches c) (N.to_nat ((s - 194048 * 32) / 8192)) = Some b ->
  (exists k, (N.to_nat ((s - 194048 * 32) / 8192) < k)%nat /\ source = Some (firstn k (map (batch_summary sha) (later_batches c)))) ->
  nth_error (block_roots b) (N.to_nat (s mod 8192)) = Some root ->
  length (build_merkle_proof sha (block_roots b) (s mod slots_per_historical_root)) = 13%nat /\
  exists v', verify_historical_summaries_proof sha v source s root (build_merkle_proof sha (block_roots b) (s mod slots_per_historical_root)) = (v', true).
Proof.
  intros (C1 & C2 & C3) R Hs L Hb (k & Hk & Hsrc) Hr. destruct (reach_parts sha fk c v R) as (_ & _ & (j & P3)).
  assert (Bo : batch_ok b) by (rewrite Forall_forall in C3; apply C3; exact (nth_error_In _ _ Hb)). destruct Bo as (B1 & B2 & B3 & B4).
  change slots_per_historical_root with 8192. destruct (roots_proof_ok sha _ _ (s mod 8192) B1 (mod8192 s) Hr) as (L1 & V1). split; [exact L1|].
  assert (V : verify_merkle_proof sha root (build_merkle_proof sha (block_roots b) (s mod 8192)) 13 (8192 + s mod 8192) (block_summary_root (batch_summary sha b)) = true).
  { rewrite <- verify_mod. change (2 ^ N.of_nat 13) with 8192. replace ((8192 + s mod 8192) mod 8192) with (s mod 8192); [exact V1|].
    rewrite <- (N.mul_1_l 8192) at 3. rewrite (N.add_comm (1 * 8192)), N.mod_add by discriminate. rewrite N.mod_mod by discriminate. reflexivity. }
  unfold verify_historical_summaries_proof, get_historical_summary, historical_summary_index. change (capella_fork_epoch * slots_per_epoch) with (194048 * 32). change slots_per_historical_root with 8192. cbv zeta.
  destruct (N.ltb_spec s (194048 * 32)) as [L2|_]; [lia|]. set (i := N.to_nat ((s - 194048 * 32) / 8192)) in *.
  destruct (nth_error (cache v) i) as [sm|] eqn:E.
  - rewrite P3 in E. apply nth_error_firstn_inv in E. rewrite nth_error_map, Hb in E. injection E as <-. rewrite V. eauto.
  - rewrite Hsrc. assert (E2 : nth_error (firstn k (map (batch_summary sha) (later_batches c))) i = Some (batch_summary sha b)).
    { rewrite nth_error_firstn_lt by exact Hk. rewrite nth_error_map, Hb. reflexivity. }
    rewrite E2, V. eauto.
Qed.
Theorem C64_honest_after_capella : forall sha fk c v source h s b bb,
  chain_ok c -> reach sha fk c v -> honest sha c source -> 194048 * 32 <= s ->
  nth_error (later_batches c) (N.to_nat ((s - 194048 * 32) / 8192)) = Some b ->
  (exists k, (N.to_nat ((s - 194048 * 32) / 8192) < k)%nat /\ source = Some (firstn k (map (batch_summary sha) (later_batches c)))) ->
  execution_hash bb = h_hash h ->
  let q := build_historical_summaries_proof sha s (block_roots b) bb in
  (shaped 4 bb -> nth_error (block_roots b) (N.to_nat (s mod 8192)) = Some (block_tree sha 4 bb) ->
   shanghai_time fk <= h_timestamp h < cancun_time fk ->
   typed (SummariesCapella q) /\ exists v', validate_header_with_proof sha fk v source h (SummariesCapella q) = (v', Ok tt)) /\
  (shaped 5 bb -> nth_error (block_roots b) (N.to_nat (s mod 8192)) = Some (block_tree sha 5 bb) ->
   cancun_time fk <= h_timestamp h ->
   typed (SummariesDeneb q) /\ exists v', validate_header_with_proof sha fk v source h (SummariesDeneb q) = (v', Ok tt)).
Proof.
  intros sha fk c v source h s b bb Ck R Hs L Hb Hsrc Hh q. split; intros Sb Hr Ht.
  - destruct (execution_proof_ok sha 4 bb 3228 Sb (or_introl eq_refl)) as (E1 & E2 & E3); [reflexivity|reflexivity|reflexivity|].
    destruct (summaries_accept sha fk c v source s b _ Ck R Hs L Hb Hsrc Hr) as (L1 & v' & V).
    split; [split; [exact L1|exact E2]|]. exists v'. cbn [validate_header_with_proof]. unfold verify_capella_to_deneb_header, shanghai_active, cancun_active.
    destruct Ht as [H1 H2]. apply N.leb_le in H1. apply N.leb_gt in H2. rewrite H1, H2. cbn [negb]. unfold q. cbn [build_historical_summaries_proof beacon_block_proof execution_block_proof beacon_block_root slot].
    unfold verify_bellatrix_execution_proof. rewrite E2, E1, <- Hh. change (4 + 4 + 3)%nat with 11%nat in *. rewrite E3. cbn [negb]. rewrite V. reflexivity.
  - destruct (execution_proof_ok sha 5 bb 6444 Sb (or_intror eq_refl)) as (E1 & E2 & E3); [reflexivity|reflexivity|reflexivity|].
    destruct (summaries_accept sha fk c v source s b _ Ck R Hs L Hb Hsrc Hr) as (L1 & v' & V).
    split; [split; [exact L1|exact E2]|]. exists v'. cbn [validate_header_with_proof]. unfold verify_post_deneb_header, cancun_active.
    apply N.leb_le in Ht. rewrite Ht. cbn [negb]. unfold q. cbn [build_historical_summaries_proof beacon_block_proof execution_block_proof beacon_block_root slot].
    unfold verify_deneb_execution_proof. rewrite E2, E1, <- Hh. change (5 + 4 + 3)%nat with 12%nat in *. rewrite E3. cbn [negb]. rewrite V. reflexivity.
Qed.

(** ** An example *)
Definition toy_sha (x : bytes) : bytes := le_bytes 32 (le_num x mod 340282366920938463463374607431768211297 + 7 * blen x).
Definition toy_records : list record :=
  [{| block_hash := repeat 1 32; total_difficulty := 5 |}; {| block_hash := repeat 2 32; total_difficulty := 9 |}; {| block_hash := repeat 3 32; total_difficulty := 11 |}].
Definition toy_chain : chain := {| epochs := [toy_records]; batches := []; later_batches := [] |}.
Definition toy_header : header := {| h_number := 1; h_timestamp := 20; h_hash := repeat 2 32 |}.
Definition toy_forks : forks := {| paris_block := 3; shanghai_time := 100; cancun_time := 200 |}.
Example toy_accepted : exists p, construct_proof toy_sha false toy_header toy_records = Ok p /\
  validate_header_with_proof toy_sha toy_forks (fresh toy_sha toy_chain) None toy_header (HistoricalHashes p) = (fresh toy_sha toy_chain, Ok tt) /\
  chain_ok toy_chain /\ reach toy_sha toy_forks toy_chain (fresh toy_sha toy_chain).
Proof.
  destruct (C23_honest_pre_merge toy_sha toy_forks toy_chain (fresh toy_sha toy_chain) None false toy_header toy_records {| block_hash := repeat 2 32; total_difficulty := 9 |}) as (p & E & _ & V);
    [constructor|reflexivity|reflexivity|vm_compute; discriminate|reflexivity|reflexivity|].
  exists p. split; [exact E|]. split; [exact V|]. split; [|constructor]. split; [|split; constructor].
  constructor; [|constructor]. split; [vm_compute; discriminate|]. repeat constructor.
Qed.
(** The shape of blocks is met. *)
Definition toy_block : beacon_block := {| bb_fields := repeat (repeat 1 32) 4; body_before := repeat (repeat 2 32) 9; body_after := repeat (repeat 3 32) 3; payload := repeat (repeat 4 32) 17 |}.
Definition toy_capella_block : beacon_block := {| bb_fields := repeat (repeat 1 32) 4; body_before := repeat (repeat 2 32) 9; body_after := repeat (repeat 3 32) 1; payload := repeat (repeat 4 32) 15 |}.
Example toy_shaped : shaped 5 toy_block /\ shaped 4 toy_capella_block.
Proof.
  assert (F : forall n k, Forall len32 (repeat (repeat n 32) k)) by (intros n k; apply Forall_forall; intros x H; apply repeat_spec in H; subst x; reflexivity).
  split; (split; [reflexivity|]; split; [reflexivity|]; split; [cbn; lia|]; split; [cbn; lia|]; split; [cbn; lia|]; split; [apply F|]; split; [apply F|]; split; apply F).
Qed.
Definition toy_batch : batch := {| block_roots := repeat (block_tree toy_sha 5 toy_block) (N.to_nat 8192); state_roots := repeat (repeat 9 32) (N.to_nat 8192) |}.
Definition toy_late_chain : chain := {| epochs := []; batches := []; later_batches := [toy_batch] |}.
Example toy_late_ok : chain_ok toy_late_chain /\ nth_error (block_roots toy_batch) (N.to_nat (7000000 mod 8192)) = Some (block_tree toy_sha 5 toy_block).
Proof.
  assert (L : len32 (block_tree toy_sha 5 toy_block)) by (unfold len32, block_tree; cbn [merkle_root]; apply le_bytes_length).
  assert (G : forall n x, len32 x -> Forall len32 (repeat x n)) by (intros n x H; apply Forall_forall; intros y Hy; apply repeat_spec in Hy; subst y; exact H).
  split.
  - split; [constructor|]. split; [constructor|]. constructor; [|constructor]. split; [unfold blen, toy_batch; cbn [block_roots]; rewrite repeat_length; apply N2Nat.id|].
    split; [apply G; exact L|]. split; [unfold blen, toy_batch; cbn [state_roots]; rewrite repeat_length; apply N2Nat.id|]. apply G. reflexivity.
  - unfold toy_batch. cbn [block_roots]. apply nth_error_repeat. assert (7000000 mod 8192 < 8192) by (apply N.mod_lt; discriminate). lia.
Qed.
Print Assumptions C22_only_canonical.
Print Assumptions C22_no_panic.
Print Assumptions C22_no_panic_refuted.
Print Assumptions C23_honest_pre_merge.
Print Assumptions C23_other_header.
Print Assumptions C64_honest_merge_to_capella.
Print Assumptions C64_honest_after_capella.
