(** C102: history files at the head of the chain. *)
From Verif Require Import Base Keys_Props Merkle_Model Merkle_Spec Merkle_Proofs Header_Model Header_Spec Header_Proofs Header_Props LegacyHistory_Model LegacyHistory_Spec LegacyHistory_Props
  E2Store_Model EraFiles_Model EraFiles_Spec EraFiles_Props Builders_Model Builders_Spec Builders_Props E2hsWriter_Model E2hsWriter_Spec E2hsWriter_Proofs E2hsWriter_Props HeadGen_Model HeadGen_Spec HeadGen_Proofs.

Section Props.
Context {tx rct wdl wd : Type}.
Context (HC : codec full_header) (HL : codec (list full_header)) (TC : codec tx) (RC : codec rct) (WC : codec wdl).
Context (keccak : bytes -> bytes) (trie_root : list bytes -> bytes) (sha : bytes -> bytes) (fk : forks).
Context (rest : el_header -> bytes) (to_wd : wd -> wdl) (decode_tx : bytes -> outcome tx) (requests_root : list bytes -> bytes).
Context (bloom_root extra_root : bytes -> bytes) (txs_root : list bytes -> bytes) (wds_root : list wd -> bytes) (requests_tree : el_requests -> bytes).
Context (debug : bool) (pre_merge_roots roots_acc : list bytes).
Context (hp_pack : full_header * header_proof -> bytes) (b_pack : @block_body tx wdl -> bytes) (r_pack : list rct -> bytes).
Context (hp_unpack : bytes -> option (full_header * header_proof)) (b_unpack : bytes -> option (@block_body tx wdl)) (r_unpack : bytes -> option (list rct)).
Notation blocks := (head_blocks HC HL TC RC WC keccak trie_root sha fk rest to_wd decode_tx requests_root bloom_root extra_root txs_root wds_root requests_tree pre_merge_roots roots_acc).
Notation build_file := (build_head_file HC HL TC RC WC keccak trie_root sha fk rest to_wd decode_tx requests_root bloom_root extra_root txs_root wds_root requests_tree pre_merge_roots roots_acc hp_pack b_pack r_pack).
Notation round := (round HC HL TC RC WC keccak trie_root sha fk rest to_wd decode_tx requests_root bloom_root extra_root txs_root wds_root requests_tree debug pre_merge_roots roots_acc hp_pack b_pack r_pack).
Notation rounds := (rounds HC HL TC RC WC keccak trie_root sha fk rest to_wd decode_tx requests_root bloom_root extra_root txs_root wds_root requests_tree debug pre_merge_roots roots_acc hp_pack b_pack r_pack).
Notation run := (run HC HL TC RC WC keccak trie_root sha fk rest to_wd decode_tx requests_root bloom_root extra_root txs_root wds_root requests_tree debug pre_merge_roots roots_acc hp_pack b_pack r_pack).
Notation head_new := (head_new pre_merge_roots roots_acc).
Notation read := (e2hs_read hp_unpack b_unpack r_unpack).
Notation fits := (tuple3_ok hp_pack hp_unpack b_pack b_unpack r_pack r_unpack).
Notation consistent := (consistent HL TC RC WC keccak trie_root fk).
Notation in_chain := (in_chain HC keccak sha fk).

(** The file has the 8192 blocks of the index; with the chain [c], they are blocks of [c]. *)
Definition good_file (c : option chain) (index : N) (file : bytes) : Prop :=
  exists ts, length ts = N.to_nat 8192 /\ (forall i t, nth_error ts i = Some t -> consistent (index * 8192 + N.of_nat i) t) /\
    (forall ch, c = Some ch -> Forall (in_chain ch) ts) /\
    (Forall fits ts -> index < 2 ^ 51 -> exists x, read file = Ok x /\ hs_tuples x = ts /\ ix_start (hs_index x) = index * 8192 /\ ix_count (hs_index x) = 8192).
(** The accumulators and the summaries in all states that are served are those of the chain. *)
Definition true_world (c : chain) (svs : list (servers rct wd)) : Prop :=
  (forall x, len32 (sha x)) /\ (forall x, len32 (keccak x)) /\ chain_ok c /\ pre_merge_roots = map (epoch_root sha) (epochs c) /\ roots_acc = map (batch_root sha) (batches c) /\
  forall sv s st, In sv svs -> cl_state sv s = Ok st -> honest sha c (Some (st_summaries st)).
Definition trusts (c : option chain) (svs : list (servers rct wd)) (an : anchors) : Prop :=
  forall ch, c = Some ch -> true_world ch svs /\ reach sha fk ch (an_validator an) /\ honest sha ch (Some (an_summaries an)).

Notation count_file := (build_count HC HL TC RC WC keccak trie_root sha fk rest to_wd decode_tx requests_root bloom_root extra_root txs_root wds_root requests_tree pre_merge_roots roots_acc hp_pack b_pack r_pack).
Lemma build_eq : forall sv fuel b, build_file sv fuel b = count_file (N.to_nat 8192) sv fuel b.
Proof. reflexivity. Qed.
Lemma build_good c svs sv fuel b f b' : In sv svs -> build_file sv fuel b = Some (Ok (f, b')) -> trusts c svs (hd_anchors b) ->
  good_file c (hd_index b) f /\ hd_index b' = hd_index b + 1 /\ trusts c svs (hd_anchors b').
Proof.
  intros I H T. rewrite build_eq in H. unfold good_file. assert (K8 : N.of_nat (N.to_nat 8192) = 8192) by apply N2Nat.id. revert H K8. generalize (N.to_nat 8192) as K. intros K H K8. unfold build_count in H. destruct (blocks sv fuel K _ _ _) as [r|] eqn:B; [|discriminate]. apply some_inj in H. apply obind_ok in H as ([[l s] an] & -> & H). apply obind_ok in H as (f' & R & H). injection H as <- <-.
  apply blocks_sound in B as (L & Cs & Ch). cbn [hd_index hd_anchors].
  assert (G : forall ch, c = Some ch -> Forall (in_chain ch) l /\ sound_anchors sha fk ch an).
  { intros ch E. destruct (T ch E) as ((W1 & W2 & W3 & W4 & W5 & W6) & A1 & A2). apply Ch; auto; [intros s' st; exact (W6 sv s' st I)|split; assumption]. }
  split; [|split; [reflexivity|]].
  - exists l. split; [exact L|]. split; [exact Cs|]. split; [intros ch E; exact (proj1 (G ch E))|]. intros F Li.
    destruct (C74_writer (fun _ => @None unit) hp_pack hp_unpack b_pack b_unpack r_pack r_unpack (hd_index b) l F) as (b' & x & E1 & _ & E2 & E3 & E4 & E5 & _); [unfold n_len; lia|exact Li|].
    rewrite R in E1. injection E1 as ->. exists x. auto.
  - intros ch E. split; [exact (proj1 (T ch E))|exact (proj2 (G ch E))].
Qed.
(** Whatever the servers answer in the rounds, the files that are sent have the indices from the first on, none left out and none twice, and each
    has the 8192 blocks of its index, each with its body and its receipts; if no state has wrong summaries, they are blocks of the chain. *)
Theorem C102_sequence : forall c svs sv0 fuel b b' files e, run sv0 svs fuel b = Some (b', files, e) -> trusts c svs (hd_anchors b) ->
  (forall i k f, nth_error files i = Some (k, f) -> k = hd_index b + N.of_nat i /\ good_file c k f) /\ (e = Waiting -> hd_index b' = hd_index b + blen files).
Proof.
  intros c svs sv0 fuel b b' files e H T. unfold HeadGen_Model.run in H. destruct (backfill debug sv0 b) as [a| |]; [|injection H as <- <- <-; split; [intros [|i]; discriminate|discriminate]|injection H as <- <- <-; split; [intros [|i]; discriminate|discriminate]].
  destruct (a <? 648000); [|injection H as <- <- <-; split; [intros [|i]; discriminate|discriminate]]. clear a.
  assert (G : forall l b b' files e, (forall sv, In sv l -> In sv svs) -> rounds l fuel b = Some (b', files, e) -> trusts c svs (hd_anchors b) ->
    (forall i k f, nth_error files i = Some (k, f) -> k = hd_index b + N.of_nat i /\ good_file c k f) /\ (e = Waiting -> hd_index b' = hd_index b + blen files)).
  { clear b b' files e H T. induction l as [|sv l IH]; intros b b' files e Hl H T; cbn [HeadGen_Model.rounds] in H.
    - injection H as <- <- <-. split; [intros [|i]; discriminate|]. intros _. unfold blen. cbn [length]. lia.
    - destruct (round sv fuel b) as [[[b1 f1] e1]|] eqn:R; [|discriminate].
      assert (R' : (f1 = [] /\ e1 = Waiting /\ b1 = b) \/ (f1 = [] /\ e1 <> Waiting) \/ exists f, f1 = [(hd_index b, f)] /\ e1 = Waiting /\ build_file sv fuel b = Some (Ok (f, b1))).
      { unfold HeadGen_Model.round in R. destruct (backfill debug sv b) as [a| |]; [|injection R as <- <- <-; right; left; split; [reflexivity|discriminate]|injection R as <- <- <-; right; left; split; [reflexivity|discriminate]].
        destruct (a <? 8192); [injection R as <- <- <-; left; auto|]. destruct (build_file sv fuel b) as [[[f b2]| |]|] eqn:Bf; try discriminate.
        - destruct (s3_upload sv); injection R as <- <- <-; [right; right; exists f; auto|right; left; split; [reflexivity|discriminate]|right; left; split; [reflexivity|discriminate]].
        - injection R as <- <- <-. right. left. split; [reflexivity|discriminate].
        - injection R as <- <- <-. right. left. split; [reflexivity|discriminate]. }
      destruct R' as [(-> & -> & ->)|[(-> & Ne)|(f & -> & -> & Bf)]].
      + destruct (rounds l fuel b) as [[[b2 f2] e2]|] eqn:Rs; [|discriminate]. injection H as <- <- <-. apply (IH b b2 f2 e2); auto. intros sv' I. apply Hl. right. exact I.
      + destruct e1 as [|r]; [congruence|]. injection H as <- <- <-. split; [intros [|i]; discriminate|discriminate].
      + destruct (rounds l fuel b1) as [[[b2 f2] e2]|] eqn:Rs; [|discriminate]. injection H as <- <- <-. destruct (build_good c svs sv fuel b f b1 (Hl sv (or_introl eq_refl)) Bf T) as (Gf & Ei & T1).
        destruct (IH b1 b2 f2 e2) as [I1 I2]; [intros sv' I; apply Hl; right; exact I|exact Rs|exact T1|]. rewrite Ei in I1, I2. split.
        * intros [|i] k f' Hn; cbn [app nth_error] in Hn; [injection Hn as <- <-; rewrite N.add_0_r; auto|]. destruct (I1 i k f' Hn) as [-> Gk]. split; [lia|exact Gk].
        * intros Ew. rewrite (I2 Ew). cbn [app]. rewrite blen_cons. lia. }
  exact (G svs b b' files e (fun sv I => I) H T).
Qed.

(** The first block of a file is in a period that was not looked at before. *)
Definition begins (sv : servers rct wd) (b : head) (x : el_block wd) : Prop :=
  cl_block sv (hd_slot b) = Ok x /\ b_slot x = hd_slot b /\ 194048 * 32 <= hd_slot b /\ an_index (hd_anchors b) <> (hd_slot b - 194048 * 32) / 8192.
Lemma begins_index sv b x : begins sv b x -> find_first_beacon_block sv (hd_slot b) = Ok x /\ historical_summary_index (b_slot x) = Some ((hd_slot b - 194048 * 32) / 8192) /\ ((hd_slot b - 194048 * 32) / 8192 =? an_index (hd_anchors b)) = false.
Proof.
  intros (B1 & B2 & B3 & B4). split; [unfold find_first_beacon_block; cbn [find_from]; rewrite B1; reflexivity|]. rewrite B2. split; [|apply N.eqb_neq; congruence].
  unfold historical_summary_index. change (capella_fork_epoch * slots_per_epoch) with (194048 * 32). change slots_per_historical_root with 8192. cbv zeta. destruct (N.ltb_spec (hd_slot b) (194048 * 32)); [lia|reflexivity].
Qed.
Lemma next_is s : first_slot_in_a_period (s + 8192) = next_period s.
Proof. unfold first_slot_in_a_period, next_period. lia. Qed.
Lemma nat_8192 : N.to_nat 8192 = S (N.to_nat 8191). Proof. rewrite <- N2Nat.inj_succ. reflexivity. Qed.

(** A server that answers every request for a state with an older state is asked for ever. *)
Theorem C102_endless_refuted : forall sv b x, begins sv b x -> (forall s, next_period (hd_slot b) <= s -> exists st, cl_state sv s = Ok st /\ st_slot st < s) ->
  forall fuel, build_file sv fuel b = None.
Proof.
  intros sv b x Bg Ho fuel. destruct (begins_index sv b x Bg) as (F1 & F2 & F3). rewrite build_eq. rewrite nat_8192. generalize (N.to_nat 8191) as K. intros K. unfold build_count. cbn [head_blocks]. rewrite F1. unfold update_anchors. rewrite F2, F3. unfold state_for_next_period.
  assert (G : forall fuel s t, next_period (hd_slot b) <= s -> state_from sv fuel s t = None).
  { clear fuel. induction fuel as [|fuel IH]; intros s t Hs; [reflexivity|]. cbn [state_from]. destruct (Ho s Hs) as (st & -> & Lt). apply N.ltb_lt in Lt. rewrite Lt. apply IH. lia. }
  rewrite G; [reflexivity|]. destruct Bg as (_ & -> & _). rewrite next_is. lia.
Qed.

Lemma state_walk (sv : servers rct wd) st : forall j s t fuel r, (forall k, k < N.of_nat j -> match cl_state sv (s + k) with Ok o => st_slot o < s + k | _ => True end) ->
  cl_state sv (s + N.of_nat j) = Ok st -> st_slot st = s + N.of_nat j -> t + N.of_nat j <= 5 -> state_from sv fuel s t = Some r -> r = Ok st.
Proof.
  induction j as [|j IH]; intros s t fuel r Hk Hs Hq Ht H; (destruct fuel as [|fuel]; [discriminate|]); cbn [state_from] in H.
  - rewrite N.add_0_r in *. rewrite Hs in H. replace (st_slot st <? s) with false in H by (symmetry; apply N.ltb_ge; lia). apply N.eqb_eq in Hq. rewrite Hq in H. injection H as <-. reflexivity.
  - assert (IH' : forall f' r', state_from sv f' (s + 1) (t + 1) = Some r' -> r' = Ok st).
    { intros f' r'. apply (IH (s + 1) (t + 1)); [|replace (s + 1 + N.of_nat j) with (s + N.of_nat (S j)) by lia; exact Hs|lia|lia]. intros k Lk. specialize (Hk (k + 1) ltac:(lia)). replace (s + 1 + k) with (s + (k + 1)) by lia. exact Hk. }
    pose proof (Hk 0 ltac:(lia)) as H0. rewrite N.add_0_r in H0. destruct (cl_state sv s) as [o| |].
    + apply N.ltb_lt in H0. rewrite H0 in H. exact (IH' _ _ H).
    + replace (t + 1 <=? 5) with true in H by (symmetry; apply N.leb_le; lia). exact (IH' _ _ H).
    + replace (t + 1 <=? 5) with true in H by (symmetry; apply N.leb_le; lia). exact (IH' _ _ H).
Qed.

(** *** When the first slot after a period has no block *)
Context (Hroots : (forall x, len32 (bloom_root x)) /\ (forall x, len32 (extra_root x)) /\ (forall x, len32 (txs_root x)) /\ (forall x, len32 (wds_root x)) /\ (forall x, len32 (requests_tree x))).
Notation tree := (tree_of bloom_root extra_root txs_root wds_root requests_tree Electra).
(** If for the first [j] slots after the period there is no state, or only an older one, then the state of the slot after them is taken.  Its block roots
    are no longer those of the period: the first [j] were replaced.  If one of these, not that of the block, is another one now, the file is not written, or
    two inputs in the trees over the roots have the same hash. *)
Theorem C102_skipped_refuted : forall c svs sv fuel b x j st ba q r, begins sv b x -> In sv svs -> trusts (Some c) svs (hd_anchors b) ->
  hashes_ok x -> period c Electra (hd_slot b) ba ->
  (forall k, k < N.of_nat j -> match cl_state sv (next_period (hd_slot b) + k) with Ok o => st_slot o < next_period (hd_slot b) + k | _ => True end) -> (j <= 5)%nat ->
  cl_state sv (next_period (hd_slot b) + N.of_nat j) = Ok st -> st_slot st = next_period (hd_slot b) + N.of_nat j ->
  blen (st_block_roots st) = 8192 -> Forall len32 (st_block_roots st) ->
  q <> N.to_nat (hd_slot b mod 8192) -> nth_error (st_block_roots st) q <> nth_error (block_roots ba) q ->
  build_file sv fuel b = Some r ->
  (forall y, r <> Ok y) \/
  exists u v, In u (hashed_by_tree sha 13 (put (N.to_nat (hd_slot b mod 8192)) (block_tree sha 5 (tree x)) (st_block_roots st))) /\ In v (hashed_by_tree sha 13 (block_roots ba)) /\ collision sha u v.
Proof.
  intros c svs sv fuel b x j st ba q r Bg Is T Hh (_ & Hb) Hk Lj Hs Hq L F Hq1 Hq2 H. destruct r as [y| |]; [|left; discriminate|left; discriminate]. right.
  destruct (begins_index sv b x Bg) as (F1 & F2 & F3). destruct (T c eq_refl) as ((W1 & W2 & (C1 & C2 & C3) & W4 & W5 & W6) & _ & _).
  rewrite build_eq in H. rewrite nat_8192 in H. revert H. generalize (N.to_nat 8191) as K. intros K H. unfold build_count in H. cbn [head_blocks] in H. rewrite F1 in H. unfold update_anchors in H. rewrite F2, F3 in H. unfold state_for_next_period in H. destruct Bg as (_ & Bs & Bl & _). rewrite Bs, next_is in H.
  destruct (state_from sv fuel (next_period (hd_slot b)) 0) as [s1|] eqn:E; [|discriminate]. apply (state_walk sv st j) in E; [subst s1|exact Hk|exact Hs|exact Hq|lia]. cbn [omap] in H.
  match type of H with context [head_block _ _ _ _ _ _ _ _ _ _ _ _ _ _ _ _ sv ?a _ _] => set (an := a) in * end.
  destruct (head_block _ _ _ _ _ _ _ _ _ _ _ _ _ _ _ _ sv an _ x) as [z| |] eqn:B; try discriminate. apply head_parts in B as (B1 & B2 & _ & B4).
  destruct (validate_block _ _ _ _ _ _ _ _ _ _ _ z) as [v rr] eqn:V. destruct rr as [[]| |]; try discriminate. clear H. apply block_valid with (n := hd_index b * 8192) in V as [_ V]; [|exact B1|exact B2].
  rewrite B4 in V. cbn [proof_for validate_header_with_proof] in V. unfold verify_post_deneb_header in V. destruct (cancun_active _ _); [|discriminate]. cbn [negb] in V. destruct (verify_deneb_execution_proof _ _ _ _); [|discriminate]. cbn [negb] in V.
  unfold build_historical_summaries_proof in V. cbn [Header_Model.slot beacon_block_root beacon_block_proof] in V.
  destruct (verify_historical_summaries_proof _ _ _ _ _ _) as [v2 ok] eqn:V2. destruct ok; [|discriminate]. clear V.
  unfold verify_historical_summaries_proof in V2. destruct (get_historical_summary _ _ _) as [ca sm] eqn:Gs. destruct sm as [sm|]; [|discriminate]. injection V2 as _ V2.
  pose proof (tree_shaped bloom_root extra_root txs_root wds_root requests_tree Hroots Electra x Hh) as Sh. destruct (execution_proof_ok sha 5 (tree x) 6444 Sh (or_intror eq_refl) eq_refl eq_refl eq_refl) as (Br & _). rewrite Br in V2.
  assert (Es : sm = batch_summary sha ba).
  { unfold get_historical_summary in Gs. rewrite F2 in Gs. unfold an, new_validator in Gs. cbn [an_validator an_summaries cache] in Gs. replace (nth_error [] (N.to_nat ((hd_slot b - 194048 * 32) / 8192))) with (@None summary) in Gs by (destruct (N.to_nat _); reflexivity).
    destruct (W6 sv _ st Is Hs (st_summaries st) eq_refl) as [k Ek]. rewrite Ek in Gs. destruct (nth_error (firstn k _) _) as [sm'|] eqn:En; [|discriminate]. injection Gs as _ ->. apply nth_error_firstn_inv in En. rewrite nth_error_map, Hb in En. injection En as <-. reflexivity. }
  subst sm. rewrite Bs in V2. change slots_per_historical_root with 8192 in V2.
  assert (Bo : batch_ok ba) by (rewrite Forall_forall in C3; apply C3; exact (nth_error_In _ _ Hb)). destruct Bo as (O1 & O2 & _).
  apply other_roots in V2 as [V2|V2]; [destruct (Hq2 (V2 q Hq1))|exact V2|exact W1|exact L|exact O1|exact F|exact O2|unfold block_tree; cbn [merkle_root]; apply W1|apply N.mod_lt; discriminate].
Qed.

(** *** If everything is served, the file is written. *)
Notation head_serves := (head_serves HC HL TC RC WC keccak trie_root sha fk rest to_wd decode_tx requests_root bloom_root extra_root txs_root wds_root requests_tree fits).
Lemma find_ok (sv : servers rct wd) t b : cl_block sv t = Ok b -> forall k a, a <= t -> t < a + N.of_nat k -> none_between sv a t -> find_from sv k a = Ok b.
Proof.
  intros E. induction k as [|k IH]; intros a H1 H2 Hn; [lia|]. cbn [find_from]. destruct (N.eq_dec a t) as [->|Ne]; [rewrite E; reflexivity|].
  assert (R : find_from sv k (a + 1) = Ok b) by (apply IH; [lia|lia|intros s x Hs; apply Hn; lia]). destruct (cl_block sv a) as [x| |] eqn:Ea; [destruct (Hn a x ltac:(lia) Ea)|exact R|exact R].
Qed.
Lemma summary_index s : 194048 * 32 <= s -> historical_summary_index s = Some ((s - 194048 * 32) / 8192).
Proof. intros H. unfold historical_summary_index. change (capella_fork_epoch * slots_per_epoch) with (194048 * 32). change slots_per_historical_root with 8192. cbv zeta. destruct (N.ltb_spec s (194048 * 32)); [lia|reflexivity]. Qed.
Lemma blocks_complete c sv index start slot_of blk rcp fuel : chain_ok c -> pre_merge_roots = map (epoch_root sha) (epochs c) -> roots_acc = map (batch_root sha) (batches c) ->
  head_serves c sv index start slot_of blk rcp -> (0 < fuel)%nat ->
  forall count n slot an, index * 8192 <= n -> n + N.of_nat count = index * 8192 + 8192 -> anchored sha fk c an ->
  (count <> 0%nat -> slot <= slot_of n <= slot + 5 /\ none_between sv slot (slot_of n)) ->
  exists l an', blocks sv fuel count n slot an = Some (Ok (l, if (count =? 0)%nat then slot else slot_of (index * 8192 + 8191) + 1, an')) /\ Forall fits l /\ length l = count /\ anchored sha fk c an'.
Proof.
  intros Ck Ra Rb S Lf. induction count as [|count IH]; intros n slot an Hn Hc An Hs; [exists [], an; split; [reflexivity|]; split; [constructor|]; split; [reflexivity|exact An]|].
  destruct Hs as [Hs1 Hs2]; [discriminate|]. assert (Rn : index * 8192 <= n < index * 8192 + 8192) by lia. cbn [head_blocks Nat.eqb].
  destruct (v_block _ _ _ _ _ _ _ _ _ _ _ _ _ _ _ _ _ _ _ _ _ _ _ _ _ _ S n Rn) as (B1 & B2 & B3). pose proof (v_late _ _ _ _ _ _ _ _ _ _ _ _ _ _ _ _ _ _ _ _ _ _ _ _ _ _ S n Rn) as Lt.
  unfold find_first_beacon_block. rewrite (find_ok sv _ _ B1 6 slot ltac:(lia) ltac:(lia) Hs2). rewrite B2.
  set (i := (slot_of n - 194048 * 32) / 8192). assert (Hi : i <> 0) by (unfold i; lia).
  assert (U : exists an1 ba k, update_anchors pre_merge_roots roots_acc sv fuel an (slot_of n) = Some (Ok an1) /\ reach sha fk c (an_validator an1) /\ honest sha c (Some (an_summaries an1)) /\ an_index an1 = i /\
     nth_error (later_batches c) (N.to_nat i) = Some ba /\ an_block_roots an1 = block_roots ba /\ an_state_roots an1 = state_roots ba /\ (N.to_nat i < k)%nat /\ an_summaries an1 = firstn k (map (batch_summary sha) (later_batches c))).
  { unfold update_anchors. rewrite summary_index by lia. fold i. destruct (N.eqb_spec i (an_index an)) as [Ei|Ne].
    - destruct An as (A1 & A2 & [A3|(ba & k & A3)]); [congruence|]. rewrite <- Ei in A3. exists an, ba, k. destruct A3 as (A3 & A4 & A5 & A6 & A7). auto 12.
    - destruct (v_state _ _ _ _ _ _ _ _ _ _ _ _ _ _ _ _ _ _ _ _ _ _ _ _ _ _ S n Rn) as (st & S1 & S2 & ba & (_ & P1) & P2 & P3 & (k & K1 & K2)). unfold state_for_next_period. rewrite next_is. destruct fuel as [|fuel]; [lia|]. cbn [state_from]. rewrite S1, S2, N.ltb_irrefl, N.eqb_refl. cbn [omap].
      eexists _, ba, k. split; [reflexivity|]. cbn [an_index an_validator an_summaries an_block_roots an_state_roots]. split; [unfold new_validator; rewrite Ra, Rb; constructor|]. injection K2 as K2. split; [intros l El; injection El as <-; exists k; exact K2|]. auto 12. }
  destruct U as (an1 & ba & k & -> & U1 & U2 & U3 & U4 & U5 & U6 & U7 & U8).
  destruct (v_content _ _ _ _ _ _ _ _ _ _ _ _ _ _ _ _ _ _ _ _ _ _ _ _ _ _ S n Rn) as (H1 & H2 & H5 & P4 & txs & h & D1 & D2 & D3 & D4).
  assert (Pd : period c Electra (slot_of n) ba) by (split; [lia|exact U4]). specialize (P4 ba Pd).
  set (p := proof_for sha bloom_root extra_root txs_root wds_root requests_tree Electra (blk n) (block_roots ba) (state_roots ba)).
  set (body := {| transactions := txs; ommers := []; withdrawals := if_has (has_withdrawals Electra) (map to_wd (p_withdrawals (b_payload (blk n)))) |}).
  assert (Cr : carries to_wd Electra (blk n) txs body) by (split; [reflexivity|split; reflexivity]).
  assert (Bd : build TC WC to_wd decode_tx trie_root (fun h => hash_slow HC keccak (lower rest h)) (keccak (enc HL [])) requests_root sha bloom_root extra_root txs_root wds_root requests_tree Electra (blk n) (block_roots ba) (state_roots ba) = Ok (h, p, body)).
  { apply C100_block. exists txs. split; [exact D1|]. split; [exact D2|]. split; [exact D3|]. split; [exact Cr|reflexivity]. }
  assert (Kn : knows sha c Electra (b_slot (blk n)) (Some (an_summaries an1))) by (exists k; rewrite B2; split; [exact U7|rewrite U8; reflexivity]).
  assert (Pd' : period c Electra (b_slot (blk n)) ba) by (rewrite B2; exact Pd). rewrite <- B2 in P4. assert (H2' : in_fork fk Electra (p_block_number (b_payload (blk n))) (p_timestamp (b_payload (blk n)))) by exact H2.
  destruct (C100_accepted HC HL TC WC to_wd decode_tx keccak trie_root rest requests_root sha bloom_root extra_root txs_root wds_root requests_tree fk c (an_validator an1) (Some (an_summaries an1)) Electra (blk n) ba h p body Hroots H1 Ck U1 U2 Pd' Kn P4 H2' Bd) as ((v' & V) & _ & A).
  assert (Rr : trie_root (map (enc RC) (rcp n)) = receipts_root (lower rest h)) by (cbn [lower receipts_root]; rewrite (d_receipts _ _ _ _ _ _ _ _ _ _ D2), H5; reflexivity).
  unfold HeadGen_Model.head_block. rewrite B3, N.eqb_refl. cbn [negb]. unfold build_block. rewrite U5, U6, Bd. cbn [omap obind fst snd]. rewrite (v_receipts _ _ _ _ _ _ _ _ _ _ _ _ _ _ _ _ _ _ _ _ _ _ _ _ _ _ S n Rn). cbn [omap].
  unfold validate_block. cbn [u_header u_body u_receipts fst snd]. rewrite V. cbn [obind]. rewrite A. cbn [negb]. unfold receipts_trie_root. rewrite Rr, (proj2 (beqb_spec _ _) eq_refl).
  match goal with |- context [head_blocks _ _ _ _ _ _ _ _ _ _ _ _ _ _ _ _ _ _ _ _ sv fuel count (n + 1) (slot_of n + 1) ?a] => set (an2 := a) end.
  assert (An2 : anchored sha fk c an2).
  { split; [|split; [exact U2|]].
    - cbn [an2 an_validator]. replace v' with (fst (validate_header_with_proof sha fk (an_validator an1) (Some (an_summaries an1)) (view HC keccak (lower rest h)) p)) by (rewrite V; reflexivity). apply R_validate; assumption.
    - right. exists ba, k. unfold an2. cbn [an_index an_block_roots an_state_roots an_summaries]. rewrite U3. auto 10. }
  destruct (IH (n + 1) (slot_of n + 1) an2) as (l & an' & R & Fl & Ll & An'); [lia|lia|exact An2| |].
  - intros Nz. destruct (v_gaps _ _ _ _ _ _ _ _ _ _ _ _ _ _ _ _ _ _ _ _ _ _ _ _ _ _ S n ltac:(lia)) as [G1 G2]. split; [lia|exact G2].
  - rewrite R. eexists (_ :: l), an'. split; [|split; [constructor; [exact (D4 ba p body Pd eq_refl Cr)|exact Fl]|split; [cbn; lia|exact An']]].
    do 4 f_equal. destruct count; cbn [Nat.eqb]; [|reflexivity]. replace (index * 8192 + 8191) with n by lia. reflexivity.
Qed.
(** From what the constructor gives, or what a file before has left, a file is built if everything is served, and it is read back as the blocks of the index; then it can go on. *)
Theorem C102_honest : forall c sv slot_of blk rcp b fuel, chain_ok c -> pre_merge_roots = map (epoch_root sha) (epochs c) -> roots_acc = map (batch_root sha) (batches c) ->
  head_serves c sv (hd_index b) (hd_slot b) slot_of blk rcp -> anchored sha fk c (hd_anchors b) -> hd_index b < 2 ^ 51 -> (0 < fuel)%nat ->
  exists file x an', build_file sv fuel b = Some (Ok (file, {| hd_index := hd_index b + 1; hd_slot := slot_of (hd_index b * 8192 + 8191) + 1; hd_anchors := an' |})) /\ anchored sha fk c an' /\
    read file = Ok x /\ length (hs_tuples x) = N.to_nat 8192 /\ forall i t, nth_error (hs_tuples x) i = Some t -> consistent (hd_index b * 8192 + N.of_nat i) t.
Proof.
  intros c sv slot_of blk rcp b fuel Ck Ra Rb S An Li Lf. assert (K8 : N.of_nat (N.to_nat 8192) = 8192) by apply N2Nat.id. rewrite build_eq. revert K8. generalize (N.to_nat 8192) as K. intros K K8.
  destruct (blocks_complete c sv (hd_index b) (hd_slot b) slot_of blk rcp fuel Ck Ra Rb S Lf K (hd_index b * 8192) (hd_slot b) (hd_anchors b)) as (l & an' & R & Fl & Ll & An'); [lia|lia|exact An|intros _; exact (v_start _ _ _ _ _ _ _ _ _ _ _ _ _ _ _ _ _ _ _ _ _ _ _ _ _ _ S)|].
  destruct (C74_writer (fun _ => @None unit) hp_pack hp_unpack b_pack b_unpack r_pack r_unpack (hd_index b) l Fl) as (file & x & E1 & _ & E2 & E3 & _); [unfold n_len; lia|exact Li|].
  exists file, x, an'. split; [|split; [exact An'|split; [exact E2|]]].
  - unfold build_count. rewrite R. cbn [obind]. rewrite E1. cbn [obind]. destruct (Nat.eqb_spec K 0); [lia|]. reflexivity.
  - rewrite E3. split; [exact Ll|]. apply blocks_sound in R as (_ & Cs & _). exact Cs.
Qed.
(** After a restart the next index is the one after the last file, and the first slot is that of the beacon block with its first block. *)
Theorem C102_restart : forall c (sv : servers rct wd) index_of pages name last_index root x, last_key pages None = Some name -> index_of name = Ok last_index ->
  el_parent_root sv ((last_index + 1) * 8192 + 1) = Ok (Some root) -> cl_by_root sv root = Ok x ->
  pre_merge_roots = map (epoch_root sha) (epochs c) -> roots_acc = map (batch_root sha) (batches c) ->
  exists b, head_new sv index_of pages = Ok b /\ hd_index b = last_index + 1 /\ hd_slot b = b_slot x /\ anchored sha fk c (hd_anchors b).
Proof.
  intros c sv index_of pages name last_index root x E1 E2 E3 E4 Ra Rb. unfold HeadGen_Model.head_new. rewrite E1, E2. cbn [obind]. rewrite E3. cbn [obind]. rewrite E4. cbn [obind]. eexists. split; [reflexivity|]. cbn [hd_index hd_slot hd_anchors]. split; [reflexivity|]. split; [reflexivity|].
  split; [|split; [|left; reflexivity]]; cbn [new_anchors an_validator an_summaries]; [unfold new_validator; rewrite Ra, Rb; constructor|]. intros l El. injection El as <-. exists 0%nat. reflexivity.
Qed.
(** A request for the list of files that fails after the first page is taken for the end of the list: an older file is taken for the last one, and files are written again. *)
Theorem C102_listing_refuted : forall pages keys key more, last_key (map Ok pages ++ Ok (keys ++ [key]) :: Err :: more) None = Some key.
Proof.
  intros pages keys key more. generalize (@None bytes) as o. induction pages as [|p pages IH]; intros o; cbn [map app last_key]; [rewrite rev_app_distr; reflexivity|apply IH].
Qed.
(** After a file that fails the program ends, and its result is a success. *)
Theorem C102_silent_refuted : forall sv svs fuel b n, backfill debug sv b = Ok n -> 8192 <= n < 648000 -> build_file sv fuel b = Some Err ->
  run sv (sv :: svs) fuel b = Some (b, [], Stopped (Ok tt)).
Proof.
  intros sv svs fuel b n E Hn Bf. unfold HeadGen_Model.run. rewrite E. replace (n <? 648000) with true by (symmetry; apply N.ltb_lt; lia). cbn [HeadGen_Model.rounds]. unfold HeadGen_Model.round. rewrite E. replace (n <? 8192) with false by (symmetry; apply N.ltb_ge; lia). rewrite Bf. reflexivity.
Qed.
End Props.
Print Assumptions C102_sequence.
Print Assumptions C102_endless_refuted.
Print Assumptions C102_skipped_refuted.
Print Assumptions C102_honest.
Print Assumptions C102_restart.
Print Assumptions C102_listing_refuted.
Print Assumptions C102_silent_refuted.

(** ** An example: the file with the index 1; its blocks are in two periods, and three slots are without a block. *)
Module Toy.
Definition fk : forks := {| paris_block := 1; shanghai_time := 100; cancun_time := 200 |}.
Notation sha := Header_Props.toy_sha.
Definition rest (h : el_header) : bytes := e_parent_hash h.
Definition hash_of (h : el_header) : bytes := toy_keccak (enc toyHC (lower rest h)).
Definition hd (n : N) : el_header := {|
  e_parent_hash := repeat 1 32; e_ommers_hash := toy_keccak (enc (listc toyHC) []); e_beneficiary := repeat 2 20; e_state_root := repeat 3 32; e_transactions_root := toy_root [];
  e_receipts_root := toy_root [enc Nc n]; e_logs_bloom := repeat 0 256; e_difficulty := 0; e_number := n; e_gas_limit := 1000; e_gas_used := 0; e_timestamp := 250;
  e_extra_data := [7]; e_mix_hash := repeat 5 32; e_nonce := repeat 0 8; e_base_fee_per_gas := Some 8; e_withdrawals_root := Some (toy_root []);
  e_blob_gas_used := Some 0; e_excess_blob_gas := Some 0; e_parent_beacon_block_root := Some (repeat 8 32); e_requests_hash := Some (toy_root [[0]; [1]; [2]]) |}.
Definition slot_of (n : N) : N := if n <? 10000 then n + 6213632 else n + 6213635.
Definition num (s : N) : N := if s <? 6223632 then s - 6213632 else s - 6213635.
Definition bl (n : N) : el_block N := {|
  b_slot := slot_of n; proposer_index := 3; parent_root := repeat 8 32; b_state_root := repeat 9 32; before := repeat (repeat 2 32) 9;
  b_payload := {| parent_hash := repeat 1 32; fee_recipient := repeat 2 20; state_root := repeat 3 32; p_receipts_root := toy_root [enc Nc n]; logs_bloom := repeat 0 256; prev_randao := repeat 5 32;
    p_block_number := n; gas_limit := 1000; gas_used := 0; p_timestamp := 250; extra_data := [7]; base_fee_per_gas := 8; p_block_hash := hash_of (hd n);
    p_transactions := []; p_withdrawals := []; blob_gas_used := 0; excess_blob_gas := 0 |};
  changes := repeat 3 32; commitments := repeat 6 32; requests := {| deposits := []; withdrawal_requests := []; consolidations := [] |} |}.
Definition root1 (b : bytes) : bytes := toy_keccak b.
Definition rootq (r : el_requests) : bytes := toy_keccak (deposits r).
Notation tree := (tree_of root1 root1 toy_root root1 rootq Electra).
Definition count : nat := N.to_nat 8192.
(** the roots of the period [p] *)
Definition roots (p : N) : list bytes := map (fun s => block_tree sha 5 (tree (bl (num s)))) (numbers (p * 8192) count).
Definition ba (p : N) : batch := {| block_roots := roots p; state_roots := repeat (repeat 9 32) count |}.
Definition ch : chain := {| epochs := []; batches := []; later_batches := [ba 758; ba 759; ba 760] |}.
Definition state_of (p slot : N) : beacon_state := {| st_slot := slot; st_block_roots := roots p; st_state_roots := repeat (repeat 9 32) count; st_summaries := map (batch_summary sha) (later_batches ch) |}.
Definition get_block (s : N) : outcome (el_block N) := if (6221824 <=? s) && (s <? 6230019) then if (6223632 <=? s) && (s <? 6223635) then Err else Ok (bl (num s)) else Err.
Definition sv : servers N N := {| cl_block := get_block; cl_by_root := fun _ => Ok (bl 8192); cl_finalized := Err;
  cl_state := fun s => if s =? 6225920 then Ok (state_of 759 s) else if s =? 6234112 then Ok (state_of 760 s) else Err;
  el_parent_root := fun _ => Ok (Some []); el_receipts := fun n => Ok [n]; s3_upload := Ok tt |}.
Definition decode_tx (b : bytes) : outcome N := match b with [n] => Ok n | _ => Err end.
Definition hp_pack (x : full_header * header_proof) : bytes := le_bytes 8 (number (fst x)).
Definition hp_unpack (b : bytes) : option (full_header * header_proof) :=
  let n := le_num b in Some (lower rest (hd n), proof_for sha root1 root1 toy_root root1 rootq Electra (bl n) (roots (slot_of n / 8192)) (repeat (repeat 9 32) count)).
Definition body : @block_body N N := {| transactions := []; ommers := []; withdrawals := Some [] |}.
Definition b_pack (b : @block_body N N) : bytes := [].
Definition b_unpack (b : bytes) : option (@block_body N N) := Some body.
Definition r_pack (l : list N) : bytes := le_bytes 8 (match l with n :: _ => n | [] => 0 end).
Definition r_unpack (b : bytes) : option (list N) := Some [le_num b].
Notation fits := (tuple3_ok hp_pack hp_unpack b_pack b_unpack r_pack r_unpack).

Lemma count_is : N.of_nat count = 8192. Proof. apply N2Nat.id. Qed.
Lemma len_roots p : blen (roots p) = 8192.
Proof. unfold blen, roots. rewrite map_length, Toy.len_numbers. exact count_is. Qed.
Lemma roots_32 p : Forall len32 (roots p).
Proof. unfold roots. apply Forall_forall. intros x I. apply in_map_iff in I as (s & <- & _). unfold len32, block_tree. cbn [merkle_root]. apply le_bytes_length. Qed.
Lemma nth_roots s : nth_error (roots (s / 8192)) (N.to_nat (s mod 8192)) = Some (block_tree sha 5 (tree (bl (num s)))).
Proof.
  unfold roots. pose proof count_is. pose proof (N.mod_lt s 8192 ltac:(discriminate)). rewrite nth_error_map, Toy.nth_numbers by lia. replace (s / 8192 * 8192 + N.of_nat (N.to_nat (s mod 8192))) with s by lia. reflexivity.
Qed.
Lemma chain_fine : chain_ok ch.
Proof.
  assert (B : forall k, batch_ok (ba k)).
  { intros k. split; [apply len_roots|]. split; [apply roots_32|]. split; [unfold blen, ba; cbn [state_roots]; rewrite repeat_length; exact count_is|]. apply Forall_forall. intros x I. apply repeat_spec in I as ->. reflexivity. }
  split; [constructor|]. split; [constructor|]. constructor; [apply B|constructor; [apply B|constructor; [apply B|constructor]]].
Qed.
Lemma fine n : hashes_ok (bl n).
Proof. split; [repeat (constructor; [reflexivity|]); constructor|]. split; [reflexivity|]. split; [reflexivity|]. apply Forall_forall. intros x I. apply repeat_spec in I as ->. reflexivity. Qed.
Lemma in_range n : 8192 <= n < 16384 -> 6221824 <= slot_of n < 6230019 /\ num (slot_of n) = n /\ (slot_of n < 6223632 \/ 6223635 <= slot_of n).
Proof.
  intros H. unfold slot_of, num. destruct (N.ltb_spec n 10000); (split; [lia|]; split; [|lia]); [destruct (N.ltb_spec (n + 6213632) 6223632); lia|destruct (N.ltb_spec (n + 6213635) 6223632); lia].
Qed.
Lemma periods n : 8192 <= n < 16384 -> slot_of n / 8192 = 759 /\ (slot_of n - 194048 * 32) / 8192 = 1 \/ slot_of n / 8192 = 760 /\ (slot_of n - 194048 * 32) / 8192 = 2.
Proof. intros H. pose proof (in_range n H). destruct (N.lt_ge_cases (slot_of n) 6225920); [left|right]; lia. Qed.
Lemma period_is n b : 8192 <= n < 16384 -> period ch Electra (slot_of n) b -> b = ba (slot_of n / 8192).
Proof.
  intros H (_ & P). destruct (periods n H) as [[E1 E2]|[E1 E2]]; rewrite E2 in P; rewrite E1; cbn in P; apply some_inj in P; auto.
Qed.
Lemma gap s x : (s < 6221824 \/ 6223632 <= s < 6223635) -> get_block s <> Ok x.
Proof.
  intros H. unfold get_block. destruct (N.leb_spec 6221824 s); cbn [andb]; [|discriminate]. replace (s <? 6230019) with true by (symmetry; apply N.ltb_lt; lia).
  replace (6223632 <=? s) with true by (symmetry; apply N.leb_le; lia). replace (s <? 6223635) with true by (symmetry; apply N.ltb_lt; lia). discriminate.
Qed.
Lemma state_at p : p = 759 \/ p = 760 -> cl_state sv ((p + 1) * 8192) = Ok (state_of p ((p + 1) * 8192)).
Proof. intros [-> | ->]; cbn [sv cl_state]; [change ((759 + 1) * 8192) with 6225920|change ((760 + 1) * 8192) with 6234112]; reflexivity. Qed.
Lemma period_holds n : 8192 <= n < 16384 -> period ch Electra (slot_of n) (ba (slot_of n / 8192)).
Proof. intros R. pose proof (in_range n R) as (A & _). split; [lia|]. destruct (periods n R) as [[-> ->]|[-> ->]]; reflexivity. Qed.
Lemma knows_holds n : 8192 <= n < 16384 -> knows sha ch Electra (slot_of n) (Some (map (batch_summary sha) (later_batches ch))).
Proof. intros R. exists 3%nat. destruct (periods n R) as [[_ ->]|[_ ->]]; (split; [lia|reflexivity]). Qed.
Lemma described n : describes Nc Nc (fun x => x + 1) toy_root (toy_keccak (enc (listc toyHC) [])) toy_root Electra (bl n) [] (hd n).
Proof. constructor; try reflexivity. split; reflexivity. Qed.
Lemma fitting n p bo : 8192 <= n < 16384 -> p = proof_for sha root1 root1 toy_root root1 rootq Electra (bl n) (roots (slot_of n / 8192)) (repeat (repeat 9 32) count) -> carries (fun x => x + 1) Electra (bl n) [] bo -> fits (mk_tuple3 (lower rest (hd n), p) bo [n]).
Proof.
  intros R Ep (B1 & B2 & B3). destruct bo as [bt bo bw]. cbn in B1, B2, B3. subst bt bo bw.
  assert (P8 : le_num (le_bytes 8 n) = n) by (apply le_num_le_bytes_id; change (2 ^ (8 * N.of_nat 8)) with (2 ^ 64); lia).
  split; [|split; [split; [constructor|split; [vm_compute; reflexivity|reflexivity]]|]].
  - split; [apply le_bytes_ok|]. split; [unfold blen, hp_pack; rewrite le_bytes_length; vm_compute; reflexivity|]. unfold hp_unpack, hp_pack. cbn [u_header fst lower number hd e_number]. rewrite P8, Ep. reflexivity.
  - split; [apply le_bytes_ok|]. split; [unfold blen, r_pack; rewrite le_bytes_length; vm_compute; reflexivity|]. unfold r_unpack, r_pack. cbn [u_receipts]. rewrite P8. reflexivity.
Qed.
Lemma served : head_serves toyHC (listc toyHC) Nc Nc Nc toy_keccak toy_root sha fk rest (fun x => x + 1) decode_tx toy_root root1 root1 toy_root root1 rootq fits ch sv 1 6221824 slot_of bl (fun n => [n]).
Proof.
  constructor; try (intros n Hn; assert (R : 8192 <= n < 16384) by lia; clear Hn; pose proof (in_range n R) as (A & B & C)).
  - split; [|split; reflexivity]. cbn [sv cl_block]. unfold get_block. replace (6221824 <=? slot_of n) with true by (symmetry; apply N.leb_le; lia). replace (slot_of n <? 6230019) with true by (symmetry; apply N.ltb_lt; lia). cbn [andb].
    destruct ((6223632 <=? slot_of n) && (slot_of n <? 6223635)) eqn:Q; [apply andb_prop in Q as [Q1 Q2]; apply N.leb_le in Q1; apply N.ltb_lt in Q2; lia|]. rewrite B. reflexivity.
  - change (slot_of (1 * 8192)) with 6221824. split; [lia|]. intros s x Hs. lia.
  - assert (E : slot_of (n + 1) = slot_of n + 1 \/ n = 9999) by (unfold slot_of; destruct (N.ltb_spec n 10000), (N.ltb_spec (n + 1) 10000); lia).
    destruct E as [E | ->]; [split; [lia|intros s x Hs; lia]|]. change (slot_of (9999 + 1)) with 6223635. change (slot_of 9999) with 6223631. split; [lia|]. intros s x Hs. cbn [sv cl_block]. apply gap. lia.
  - lia.
  - exists (state_of (slot_of n / 8192) (next_period (slot_of n))). split; [unfold next_period; apply state_at; destruct (periods n R) as [[E _]|[E _]]; auto|]. split; [reflexivity|].
    exists (ba (slot_of n / 8192)). split; [exact (period_holds n R)|]. split; [reflexivity|]. split; [reflexivity|exact (knows_holds n R)].
  - reflexivity.
  - split; [apply fine|]. split; [vm_compute; discriminate|]. split; [reflexivity|]. split.
    + intros b P. apply (period_is n b R) in P as ->. cbn [ba block_roots depth_of]. pose proof (nth_roots (slot_of n)) as Q. rewrite B in Q. exact Q.
    + exists [], (hd n). split; [constructor|]. split; [apply described|]. split; [reflexivity|]. intros b p bo P Ep Cr. apply (period_is n b R) in P as ->. exact (fitting n p bo R Ep Cr).
Qed.
Notation build_file := (build_head_file toyHC (listc toyHC) Nc Nc Nc toy_keccak toy_root sha fk rest (fun x => x + 1) decode_tx toy_root root1 root1 toy_root root1 rootq [] [] hp_pack b_pack r_pack).
Definition start : head := {| hd_index := 1; hd_slot := 6221824; hd_anchors := new_anchors [] [] |}.
(** The first slot after the period 759 has no state; the state of the next slot has another root in the first place. *)
Definition later : beacon_state := {| st_slot := 6225921; st_block_roots := put 0 (repeat 77 32) (roots 759); st_state_roots := repeat (repeat 9 32) count; st_summaries := map (batch_summary sha) (later_batches ch) |}.
Definition sv2 : servers N N := {| cl_block := get_block; cl_by_root := fun _ => Ok (bl 8192); cl_finalized := Err; cl_state := fun s => if s =? 6225921 then Ok later else Err;
  el_parent_root := fun _ => Ok (Some []); el_receipts := fun n => Ok [n]; s3_upload := Ok tt |}.
End Toy.
Lemma toy_roots32 : (forall x, len32 (Toy.root1 x)) /\ (forall x, len32 (Toy.root1 x)) /\ (forall x, len32 (toy_root x)) /\ (forall x, len32 (Toy.root1 x)) /\ (forall x, len32 (Toy.rootq x)).
Proof. repeat split; intros; reflexivity || apply le_bytes_length. Qed.
Example C102_example : head_new [] [] Toy.sv (fun _ => Ok 0) [Ok [[1]]] = Ok Toy.start /\
  exists file x b', Toy.build_file Toy.sv 1 Toy.start = Some (Ok (file, b')) /\ hd_index b' = 2 /\ hd_slot b' = 6230019 /\
  e2hs_read Toy.hp_unpack Toy.b_unpack Toy.r_unpack file = Ok x /\ length (hs_tuples x) = N.to_nat 8192.
Proof.
  split; [reflexivity|]. destruct (C102_honest toyHC (listc toyHC) Nc Nc Nc toy_keccak toy_root Header_Props.toy_sha Toy.fk Toy.rest (fun x => x + 1) Toy.decode_tx toy_root Toy.root1 Toy.root1 toy_root Toy.root1 Toy.rootq [] []
    Toy.hp_pack Toy.b_pack Toy.r_pack Toy.hp_unpack Toy.b_unpack Toy.r_unpack toy_roots32 Toy.ch Toy.sv Toy.slot_of Toy.bl (fun n => [n]) Toy.start 1 Toy.chain_fine eq_refl eq_refl Toy.served) as (file & x & an & E & _ & R & L & _).
  - split; [constructor|]. split; [intros l El; injection El as <-; exists 0%nat; reflexivity|]. left. reflexivity.
  - reflexivity.
  - lia.
  - exists file, x. eexists. split; [exact E|]. split; [reflexivity|]. split; [reflexivity|]. split; [exact R|exact L].
Qed.
(** What the theorem on the missing slot requires is the case for [sv2]. *)
Example C102_skipped_example : begins Toy.sv2 Toy.start (Toy.bl 8192) /\
  trusts toy_keccak Header_Props.toy_sha Toy.fk [] [] (Some Toy.ch) [Toy.sv2] (hd_anchors Toy.start) /\ hashes_ok (Toy.bl 8192) /\ period Toy.ch Electra 6221824 (Toy.ba 759) /\
  next_period 6221824 = 6225920 /\ cl_state Toy.sv2 6225920 = Err /\ cl_state Toy.sv2 6225921 = Ok Toy.later /\ st_slot Toy.later = 6225921 /\
  blen (st_block_roots Toy.later) = 8192 /\ Forall len32 (st_block_roots Toy.later) /\ 0%nat <> N.to_nat (6221824 mod 8192) /\ nth_error (st_block_roots Toy.later) 0 <> nth_error (block_roots (Toy.ba 759)) 0.
Proof.
  split; [split; [reflexivity|]; split; [reflexivity|]; split; [vm_compute; discriminate|vm_compute; discriminate]|]. split.
  { intros c [= <-]. split; [|split; [constructor|intros l El; injection El as <-; exists 0%nat; reflexivity]]. split; [intros x; first [reflexivity|apply le_bytes_length]|]. split; [intros x; first [reflexivity|apply le_bytes_length]|].
    split; [apply Toy.chain_fine|]. split; [reflexivity|]. split; [reflexivity|]. intros sv s st [<-|[]] E. cbn [Toy.sv2 cl_state] in E. destruct (s =? 6225921); [|discriminate]. apply (f_equal (fun o => match o with Ok x => x | _ => st end)) in E. subst st.
    intros l El. apply some_inj in El. subst l. exists 3%nat. reflexivity. }
  split; [apply Toy.fine|]. split; [exact (Toy.period_holds 8192 ltac:(lia))|]. split; [reflexivity|]. split; [reflexivity|]. split; [reflexivity|]. split; [reflexivity|].
  assert (L0 : (0 < length (Toy.roots 759))%nat) by (pose proof (Toy.len_roots 759); unfold blen in *; lia).
  split; [unfold Toy.later; cbn [st_block_roots]; rewrite <- (Toy.len_roots 759); unfold blen; f_equal; exact (put_length 0 (repeat 77 32) (Toy.roots 759) L0)|].
  split; [unfold Toy.later; cbn [st_block_roots]; unfold put; apply Forall_app; split; [apply firstn_forall, Toy.roots_32|constructor; [reflexivity|apply skipn_forall, Toy.roots_32]]|].
  split; [vm_compute; discriminate|].
  unfold Toy.later. cbn [st_block_roots]. rewrite put_nth by exact L0. cbn [Nat.eqb]. pose proof (Toy.nth_roots 6217728) as Q. change (6217728 / 8192) with 759 in Q. change (N.to_nat (6217728 mod 8192)) with 0%nat in Q. cbn [Toy.ba block_roots]. rewrite Q.
  vm_compute. discriminate.
Qed.
Print Assumptions C102_example.
Print Assumptions C102_skipped_example.
