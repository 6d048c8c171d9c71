(** C101: the history files that are written. *)
From Verif Require Import Base Keys_Props Trie_Model StateContent_Proofs Merkle_Spec Header_Model Header_Spec Header_Proofs Header_Props LegacyHistory_Model LegacyHistory_Spec LegacyHistory_Props
  E2Store_Model EraFiles_Model EraFiles_Spec EraFiles_Props Builders_Model Builders_Spec Builders_Props E2hsWriter_Model E2hsWriter_Spec E2hsWriter_Proofs.

(** The search over the era files finds the file with a block, if there is one, and otherwise says that there is none. *)
Theorem C101_search : forall {tx rct wdl wd : Type} fk (w : world tx rct wdl wd) top lo hi n fuel,
  eras_ok fk w top lo hi -> paris_block fk <= n -> (N.to_nat (top - 574) < fuel)%nat ->
  (forall k, 574 <= k <= top -> lo k <= n <= hi k -> exists e, w_era w k = Ok e /\ fetch_era_file fk w fuel n = Some (Ok e) /\ has_block e n) /\
  (hi top < n -> fetch_era_file fk w fuel n = Some Err).
Proof.
  intros tx rct wdl wd fk w top lo hi n fuel E Hn Lf. destruct (top_era _ _ _ _ _ E) as [Et Ht]. unfold fetch_era_file. rewrite Et. replace (n <? paris_block fk) with false by (symmetry; apply N.ltb_ge; lia). split.
  - intros k Hk Hr. destruct (all_eras _ _ _ _ _ E k Hk) as (_ & e & He & _ & _ & Hb). exists e. split; [exact He|]. split; [|apply Hb; lia].
    exact (search_finds fk w top lo hi E n k e Hn Hk Hr He fuel 574 top ltac:(lia) ltac:(lia) Lf).
  - intros H. exact (search_misses fk w top lo hi E n H fuel 574 top ltac:(lia) eq_refl Lf).
Qed.

Lemma some_inj {A} (x y : A) : Some x = Some y -> x = y. Proof. congruence. Qed.
Section Props.
Context {tx rct wdl wd : Type}.
Context (HC : codec full_header) (HL : codec (list full_header)) (TC : codec tx) (RC : codec rct) (WC : codec wdl).
Context (keccak : bytes -> bytes) (trie_root : list bytes -> bytes) (sha : bytes -> bytes) (fk : forks).
Context (rest : el_header -> bytes) (to_wd : wd -> wdl) (decode_tx : bytes -> outcome tx) (requests_root : list bytes -> bytes).
Context (bloom_root extra_root : bytes -> bytes) (txs_root : list bytes -> bytes) (wds_root : list wd -> bytes) (requests_tree : el_requests -> bytes).
Context (debug : bool) (pre_merge_roots roots_acc : list bytes).
Context (hp_pack : full_header * header_proof -> bytes) (b_pack : @block_body tx wdl -> bytes) (r_pack : list rct -> bytes).
Context (hp_unpack : bytes -> option (full_header * header_proof)) (b_unpack : bytes -> option (@block_body tx wdl)) (r_unpack : bytes -> option (list rct)).
Notation generate := (single_generator HC HL TC RC WC keccak trie_root sha fk rest to_wd decode_tx requests_root bloom_root extra_root txs_root wds_root requests_tree debug pre_merge_roots roots_acc hp_pack b_pack r_pack).
Notation read := (e2hs_read hp_unpack b_unpack r_unpack).
Notation fits := (tuple3_ok hp_pack hp_unpack b_pack b_unpack r_pack r_unpack).
Notation consistent := (consistent HL TC RC WC keccak trie_root fk).
Notation in_chain := (in_chain HC keccak sha fk).
Notation iter := (iter_blocks HC HL TC RC WC keccak trie_root sha fk rest to_wd decode_tx requests_root bloom_root extra_root txs_root wds_root requests_tree debug).

(** A file is finished only with the 8192 blocks of the index, one after the other, each with its body and its receipts; and if the
    accumulators are those of the chain and no era file has wrong summaries, then with blocks of the chain.  What can be
    compressed is read back. *)
Theorem C101_file : forall w fuel index d d', generate w fuel index d = Some (d', Ok tt) ->
  temp d' = false /\ exists ts file, finished d' = Some file /\ length ts = N.to_nat 8192 /\
    (forall i t, nth_error ts i = Some t -> consistent (index * 8192 + N.of_nat i) t) /\
    (forall c, (forall x, len32 (sha x)) -> (forall x, len32 (keccak x)) -> chain_ok c -> pre_merge_roots = map (epoch_root sha) (epochs c) -> roots_acc = map (batch_root sha) (batches c) ->
       (forall k e l, w_era w k = Ok e -> ev_summaries e = Some l -> honest sha c (Some l)) -> Forall (in_chain c) ts) /\
    (Forall fits ts -> index < 2 ^ 51 -> exists x, read file = Ok x /\ hs_tuples x = ts /\ ix_start (hs_index x) = index * 8192 /\ ix_count (hs_index x) = 8192).
Proof.
  intros w fuel index d d' H. unfold single_generator in H. destruct (builder_new fk pre_merge_roots w fuel index) as [[b| |]|] eqn:B; try discriminate. injection H as H.
  unfold build_e2hs_file in H. destruct (temp d); [discriminate|]. destruct (obind _ _) as [file| |] eqn:I; [|discriminate|discriminate]. injection H as <-. split; [reflexivity|].
  apply obind_ok in I as (ts & I & R). exists ts, file. split; [reflexivity|]. destruct (iter_sound HC HL TC RC WC keccak trie_root sha fk rest to_wd decode_tx requests_root bloom_root extra_root txs_root wds_root requests_tree debug b _ _ _ _ _ I) as (L & Cs & Ch).
  unfold builder_new in B. destruct (w_latest w) as [latest| |]; try discriminate. destruct (latest / 8192 <? index); [discriminate|]. cbv zeta in B.
  destruct (if paris_active fk (index * 8192) then _ else _) as [acc| |]; try discriminate.
  destruct (era_provider fk w fuel index) as [prov|] eqn:Ep; [|discriminate]. apply some_inj in B. apply obind_ok in B as (m & Em & B). apply obind_ok in B as (S & Es & B). injection B as <-. cbn [bd_start bd_summaries] in *.
  split; [exact L|]. split; [exact Cs|]. split.
  - intros c S1 S2 Ck Ea Eb Hh. apply Ch; auto.
    + unfold new_validator. rewrite Ea, Eb. constructor.
    + unfold era_provider in Ep. destruct (provide fk w fuel _ _ None []) as [[s| |]|] eqn:Pr; try discriminate; injection Ep as <-; cbn [obind] in Es; try discriminate.
      destruct (length s <=? 3)%nat; [|discriminate]. injection Es as ->. apply provide_served in Pr; [|constructor]. destruct (summaries_served w S Pr) as [->|(k & e & Ek & El)].
      * intros l El. injection El as <-. exists 0%nat. reflexivity.
      * exact (Hh k e _ Ek El).
  - intros F Li. destruct (C74_writer (fun _ => @None unit) hp_pack hp_unpack b_pack b_unpack r_pack r_unpack index ts F) as (b' & x & E1 & _ & E2 & E3 & E4 & E5 & _); [unfold n_len; lia|exact Li|].
    rewrite R in E1. injection E1 as ->. exists x. auto.
Qed.

(** A run that fails after the file was begun leaves it there, and then no run for that index ever succeeds, whatever the servers answer. *)
Theorem C101_retry_refuted : forall w fuel index d d' r, temp d = false -> generate w fuel index d = Some (d', r) -> r <> Ok tt ->
  (exists b, builder_new fk pre_merge_roots w fuel index = Some (Ok b)) ->
  temp d' = true /\ forall w' fuel' d'' r', generate w' fuel' index d' = Some (d'', r') -> r' <> Ok tt /\ d'' = d'.
Proof.
  intros w fuel index d d' r Ht H Hr (b & Eb). unfold single_generator in H. rewrite Eb in H. injection H as H.
  assert (T : temp d' = true). { unfold build_e2hs_file in H. rewrite Ht in H. destruct (obind _ _); injection H as <- <-; [destruct (Hr eq_refl)|reflexivity|reflexivity]. }
  split; [exact T|]. intros w' fuel' d'' r' H'. unfold single_generator in H'. destruct (builder_new fk pre_merge_roots w' fuel' index) as [[b'| |]|]; try discriminate; injection H' as H'; [|subst; split; [discriminate|reflexivity]|subst; split; [discriminate|reflexivity]].
  unfold build_e2hs_file in H'. rewrite T in H'. injection H' as <- <-. split; [discriminate|reflexivity].
Qed.

(** A file of blocks before the merge that ends too early is fetched again and again. *)
Theorem C101_endless_refuted : forall w index d ts t latest, w_latest w = Ok latest -> index <= latest / 8192 -> index < N.of_nat (length pre_merge_roots) -> (exists e, w_accumulator w index = Ok e) ->
  w_era1 w index = Ok (ts ++ [t]) -> index * 8192 <= number (t_header t) + 1 < N.min (index * 8192 + 8192) (paris_block fk) -> index * 8192 < paris_block fk ->
  forall fuel, generate w fuel index d = None.
Proof.
  intros w index d ts t latest El Hl Hr (e & Ea) Et Hn Hs fuel. unfold single_generator, builder_new. rewrite El. replace (latest / 8192 <? index) with false by (symmetry; apply N.ltb_ge; lia). cbv zeta.
  unfold paris_active at 1. replace (paris_block fk <=? index * 8192) with false by (symmetry; apply N.leb_gt; lia).
  destruct (nth_error pre_merge_roots (N.to_nat index)) as [root|] eqn:En; [|apply nth_error_None in En; lia]. rewrite Ea. cbn [omap].
  assert (Lb : forall u, last_block (PreMerge (ts ++ [t]) : era_source tx rct wdl u) = Ok (number (t_header t))).
  { intros u. cbn [last_block]. destruct ts as [|t0 ts]; [reflexivity|]. cbn [app]. rewrite last_last. reflexivity. }
  assert (G : forall fuel next L, index * 8192 <= next < N.min (index * 8192 + 8192) (paris_block fk) -> provide fk w fuel next (index * 8192 + 8192) None L = None).
  { clear fuel. induction fuel as [|fuel IH]; intros next L Hx; [reflexivity|]. cbn [provide]. replace (index * 8192 + 8192 <=? next) with false by (symmetry; apply N.leb_gt; lia).
    unfold paris_active. replace (paris_block fk <=? next) with false by (symmetry; apply N.leb_gt; lia). cbn [negb]. replace (next / 8192) with index by lia. rewrite Et. cbn [obind]. rewrite Lb. apply IH. exact Hn. }
  unfold era_provider. rewrite G by lia. reflexivity.
Qed.

(** ** If everything is served, the file is written. *)
Context (Hroots : (forall x, len32 (bloom_root x)) /\ (forall x, len32 (extra_root x)) /\ (forall x, len32 (txs_root x)) /\ (forall x, len32 (wds_root x)) /\ (forall x, len32 (requests_tree x))).
Notation serves := (serves HC HL TC RC WC keccak trie_root sha fk rest to_wd decode_tx requests_root bloom_root extra_root txs_root wds_root requests_tree debug fits).

Lemma iter_complete c w index rcp top lo hi (b : builder tx rct wdl wd) : chain_ok c -> serves c w index rcp top lo hi -> honest sha c (Some (bd_summaries b)) ->
  (index * 8192 < paris_block fk -> exists e ts L, bd_accumulator b = Some e /\ w_accumulator w index = Ok e /\ w_era1 w index = Ok ts /\ bd_sources b = PreMerge ts :: L) ->
  (forall e, In (PostMerge e) (bd_sources b) -> era_of fk w top lo hi (PostMerge e : era_source tx rct wdl wd)) ->
  covers fk (bd_sources b) (index * 8192) (index * 8192 + 8192) ->
  (paris_block fk < index * 8192 + 8192 -> exists k e, w_era w k = Ok e /\ lo k <= index * 8192 + 8191 <= hi k /\ bd_summaries b = summaries_in e) ->
  forall count n v (m : @receipts_map rct), index * 8192 <= n -> n + N.of_nat count = index * 8192 + 8192 -> reach sha fk c v -> (forall k, paris_block fk <= k -> n <= k < index * 8192 + 8192 -> m k = Some (rcp k)) ->
  exists l, iter b count n v m = Ok l /\ Forall fits l /\ length l = count.
Proof.
  intros Ck S Ho Hpre Hera Hcov Hsum. induction count as [|count IH]; intros n v m Hn Hc Hr Hm; [exists []; split; [reflexivity|]; split; [constructor|reflexivity]|]. cbn [iter_blocks].
  assert (G : exists x (m' : @receipts_map rct), (if paris_active fk n then post_merge_block HC HL TC RC WC keccak trie_root sha fk rest to_wd decode_tx requests_root bloom_root extra_root txs_root wds_root requests_tree b m n
      else omap (fun x => (x, m)) (pre_merge_block HC keccak sha fk debug b n)) = Ok (x, m') /\ fits x /\ (forall k, k <> n -> m' k = m k) /\
      exists v', validate_block HC HL TC RC WC keccak trie_root sha fk v (Some (bd_summaries b)) x = (v', Ok tt)).
  { unfold paris_active. destruct (N.leb_spec (paris_block fk) n) as [Lp|Lp].
    - destruct (find_block_ok n (bd_sources b)) as (f & bl & e & F & I & Ib & Nb).
      + intros e I. destruct (Hera e I) as (j & e' & _ & E & _ & Sp & _). injection E as <-. eauto.
      + exact (Hcov n Lp ltac:(lia)).
      + destruct (Hera e I) as (j & e' & Hj & E & Hw & _). injection E as <-.
        destruct (s_block _ _ _ _ _ _ _ _ _ _ _ _ _ _ _ _ _ _ _ _ _ _ _ _ _ _ _ S j e f bl Hw Ib) as (H1 & H2 & (ba & P1 & P2 & P3 & P4) & H4 & H5 & txs & h & D1 & D2 & D3 & D4); [lia|lia|].
        destruct (Hsum ltac:(lia)) as (k' & e' & Hw' & Hk' & Es). destruct (H4 k' e' Hw' Hk') as [H6 H7]. rewrite <- Es in H6, H7.
        set (p := proof_for sha bloom_root extra_root txs_root wds_root requests_tree f bl (ev_block_roots e) (ev_state_roots e)).
        set (body := {| transactions := txs; ommers := []; withdrawals := if_has (has_withdrawals f) (map to_wd (p_withdrawals (b_payload bl))) |}).
        assert (Cr : carries to_wd f bl txs body) by (split; [reflexivity|split; reflexivity]).
        assert (Bd : build TC WC to_wd decode_tx trie_root (fun h => hash_slow HC keccak (lower rest h)) (keccak (enc HL [])) requests_root sha bloom_root extra_root txs_root wds_root requests_tree f bl (ev_block_roots e) (ev_state_roots e) = Ok (h, p, body)).
        { apply C100_block. exists txs. split; [exact D1|]. split; [exact D2|]. split; [exact D3|]. split; [exact Cr|reflexivity]. }
        pose proof Bd as Bd'. rewrite P2, P3 in Bd'.
        destruct (C100_accepted HC HL TC WC to_wd decode_tx keccak trie_root rest requests_root sha bloom_root extra_root txs_root wds_root requests_tree fk c v (Some (bd_summaries b)) f bl ba h p body Hroots H1 Ck Hr H6 P1 H7 P4 H2 Bd') as ((v' & V) & _ & A).
        assert (Rr : trie_root (map (enc RC) (rcp n)) = receipts_root (lower rest h)) by (cbn [lower receipts_root]; rewrite (d_receipts _ _ _ _ _ _ _ _ _ _ D2), H5, Nb; reflexivity).
        exists (mk_tuple3 (lower rest h, p) body (rcp n)), (fun k => if k =? n then None else m k). split; [|split; [|split]].
        * unfold post_merge_block, get_post_merge, paris_active. replace (paris_block fk <=? n) with true by (symmetry; apply N.leb_le; lia). cbn [negb]. rewrite F. cbn [obind]. unfold exec_number. cbn [snd]. rewrite Nb, N.eqb_refl. cbn [negb].
          unfold build_block. rewrite Bd. cbn [omap obind fst snd]. rewrite (Hm n Lp ltac:(lia)). unfold receipts_trie_root. rewrite Rr, (proj2 (beqb_spec _ _) eq_refl). reflexivity.
        * rewrite <- Nb. exact (D4 p body eq_refl Cr).
        * intros k Hk. apply N.eqb_neq in Hk. rewrite Hk. reflexivity.
        * exists v'. unfold validate_block. cbn [u_header u_body u_receipts fst snd]. rewrite V. cbn [obind]. rewrite A. cbn [negb]. unfold receipts_trie_root. rewrite Rr, (proj2 (beqb_spec _ _) eq_refl). reflexivity.
    - destruct (Hpre ltac:(lia)) as (e & ts & L & A1 & A2 & A3 & A4).
      destruct (s_era1 _ _ _ _ _ _ _ _ _ _ _ _ _ _ _ _ _ _ _ _ _ _ _ _ _ _ _ S ltac:(lia)) as (e' & ts' & B1 & B2 & B3 & B4 & B5 & B6). rewrite A2 in B3. injection B3 as <-. rewrite A3 in B4. injection B4 as <-.
      assert (Em : n mod 8192 = n - index * 8192) by lia. assert (Ed : n / 8192 = index) by lia.
      destruct (nth_error ts (N.to_nat (n mod 8192))) as [t|] eqn:Et; [|apply nth_error_None in Et; unfold blen in B5; lia].
      destruct (B6 _ _ Et) as (C1 & (r & C2 & C3) & (U1 & U2 & U3) & C5 & C6).
      assert (Nt : number (t_header t) = n) by (rewrite C1; lia).
      destruct (C23_honest_pre_merge sha fk c v (Some (bd_summaries b)) debug (view HC keccak (t_header t)) e r Hr) as (p & Ec & _ & V); cbn [view h_number h_hash]; rewrite ?Nt, ?Ed; [exact Lp|exact B1|exact B2|exact C2|exact C3|].
      exists (mk_tuple3 (t_header t, HistoricalHashes p) (t_body t) (t_receipts t)), m. split; [|split; [|split]].
      + unfold pre_merge_block, get_pre_merge, paris_active. replace (paris_block fk <=? n) with false by (symmetry; apply N.leb_gt; lia). rewrite A4, Et, Nt, N.eqb_refl. cbn [obind]. rewrite A1, Ec. reflexivity.
      + exact (C6 p Ec).
      + reflexivity.
      + exists v. unfold validate_block. cbn [u_header u_body u_receipts fst snd]. rewrite V. cbn [obind].
        assert (Va : validate_against_header HL TC WC keccak trie_root (t_body t) (t_header t) = true).
        { unfold validate_against_header. unfold same_uncles in U1. unfold same_transactions in U2. unfold same_withdrawals in U3. rewrite U1, U2, U3, !(proj2 (beqb_spec _ _) eq_refl). cbn [negb]. destruct (withdrawals (t_body t)); [|reflexivity]. cbn [option_map]. apply beqb_spec. reflexivity. }
        rewrite Va. cbn [negb]. unfold receipts_trie_root. rewrite C5, (proj2 (beqb_spec _ _) eq_refl). reflexivity. }
  destruct G as (x & m' & -> & Fx & Hm' & v' & V). cbn [obind fst snd]. rewrite V. cbn [obind].
  assert (Hr' : reach sha fk c v').
  { unfold validate_block in V. destruct (validate_header_with_proof _ _ _ _ _ _) as [v2 r2] eqn:V2. injection V as <- _. replace v2 with (fst (validate_header_with_proof sha fk v (Some (bd_summaries b)) (view HC keccak (fst (u_header x))) (snd (u_header x)))) by (rewrite V2; reflexivity). apply R_validate; assumption. }
  destruct (IH (n + 1) v' m') as (l & -> & Fl & Ll); [lia|lia|exact Hr'|intros k H1 H2; rewrite Hm' by lia; apply Hm; lia|]. exists (x :: l). split; [reflexivity|]. split; [constructor; assumption|cbn; lia].
Qed.

Lemma last_any {A} (y : A) r a b : last (y :: r) a = last (y :: r) b.
Proof. revert y. induction r as [|z r IH]; intros y; [reflexivity|]. exact (IH z). Qed.
Lemma last_number {A} (t : A) r : nth_error (t :: r) (length r) = Some (last r t).
Proof. revert t. induction r as [|x r IH]; intros t; [reflexivity|]. cbn [length]. change (nth_error (t :: x :: r) (Datatypes.S (length r))) with (nth_error (x :: r) (length r)). rewrite IH. f_equal. destruct r as [|y r]; [reflexivity|]. change (last (x :: y :: r) t) with (last (y :: r) t). apply last_any. Qed.
Lemma provider_ok c w index rcp top lo hi : serves c w index rcp top lo hi -> forall fuel, (N.to_nat top + 10 < fuel)%nat ->
  exists L, era_provider fk w fuel index = Some (Ok L) /\
    (index * 8192 < paris_block fk -> exists ts L', w_era1 w index = Ok ts /\ L = PreMerge ts :: L') /\
    (forall e, In (PostMerge e) L -> era_of fk w top lo hi (PostMerge e : era_source tx rct wdl wd)) /\ covers fk L (index * 8192) (index * 8192 + 8192) /\
    (paris_block fk < index * 8192 + 8192 -> ends_at w top lo hi L (index * 8192 + 8192)) /\
    (index * 8192 + 8192 <= paris_block fk -> summaries_of L = []).
Proof.
  intros S fuel Lf. set (start := index * 8192) in *. unfold era_provider. fold start.
  assert (Pre : start < paris_block fk -> exists ts, w_era1 w index = Ok ts /\ last_block (PreMerge ts : era_source tx rct wdl wd) = Ok (N.min (start + 8192) (paris_block fk) - 1)).
  { intros Hp. destruct (s_era1 _ _ _ _ _ _ _ _ _ _ _ _ _ _ _ _ _ _ _ _ _ _ _ _ _ _ _ S Hp) as (e & ts & _ & _ & _ & B4 & B5 & B6). exists ts. split; [exact B4|]. fold start in B5.
    destruct ts as [|t r]; [unfold blen in B5; cbn in B5; lia|]. cbn [last_block]. destruct (B6 _ _ (last_number t r)) as (C1 & _). rewrite C1. f_equal. fold start. rewrite blen_cons in B5. unfold blen in B5. lia. }
  assert (Post : forall a fuel L, start <= a -> a = N.max start (paris_block fk) -> a < start + 8192 -> (N.to_nat top + 9 < fuel)%nat -> (length L <= if (start <? paris_block fk)%N then 1 else 0)%nat ->
    exists L', provide fk w fuel a (start + 8192) None L = Some (Ok (L ++ L')) /\ (length (L ++ L') <= 3)%nat /\ Forall (era_of fk w top lo hi) L' /\ covers fk L' a (start + 8192) /\ ends_at w top lo hi (L ++ L') (start + 8192)).
  { clear fuel Lf. intros a fuel L H1 H2 H3 Lf Ll. destruct (s_eras _ _ _ _ _ _ _ _ _ _ _ _ _ _ _ _ _ _ _ _ _ _ _ _ _ _ _ S) as (E & k & m & K1 & K2 & K3 & K4 & K5); [fold start; lia|]. fold start in K3, K4, K5. rewrite <- H2 in K3.
    destruct (provide_post fk w top lo hi a (start + 8192) (N.to_nat m) k fuel L E) as (L' & P & Lp & F & Cv & En); rewrite ?N2Nat.id; [lia|lia|lia|lia|lia|destruct (start <? paris_block fk); lia|lia|].
    exists L'. split; [exact P|]. split; [rewrite app_length; destruct (start <? paris_block fk); lia|]. auto. }
  destruct (N.lt_ge_cases start (paris_block fk)) as [Hp|Hp].
  - destruct (Pre Hp) as (ts & Et & Lb). destruct fuel as [|fuel]; [lia|]. cbn [provide]. replace (start + 8192 <=? start) with false by (symmetry; apply N.leb_gt; lia).
    unfold paris_active at 1. replace (paris_block fk <=? start) with false by (symmetry; apply N.leb_gt; lia). cbn [negb]. replace (start / 8192) with index by (unfold start; lia). rewrite Et. cbn [obind]. rewrite Lb. cbn [app].
    destruct (N.le_gt_cases (start + 8192) (paris_block fk)) as [Hq|Hq].
    + exists [PreMerge ts]. destruct fuel as [|fuel]; [lia|]. cbn [provide]. replace (start + 8192 <=? N.min (start + 8192) (paris_block fk) - 1 + 1) with true by (symmetry; apply N.leb_le; lia). cbn [obind length]. split; [reflexivity|].
      split; [intros _; exists ts, []; auto|]. split; [intros e [I|[]]; discriminate|]. split; [intros n Pn Hn; lia|]. split; [lia|]. reflexivity.
    + replace (N.min (start + 8192) (paris_block fk) - 1 + 1) with (paris_block fk) by lia.
      destruct (Post (paris_block fk) fuel [PreMerge ts]) as (L' & P & Lp & F & Cv & En); [lia|lia|lia|lia|apply N.ltb_lt in Hp; rewrite Hp; cbn; lia|]. exists (PreMerge ts :: L'). rewrite P. cbn [obind app]. cbn [app] in Lp. apply Nat.leb_le in Lp. rewrite Lp. split; [reflexivity|].
      split; [intros _; exists ts, L'; auto|]. split; [intros e [I|I]; [discriminate|exact (proj1 (Forall_forall _ _) F _ I)]|]. split; [|split; [intros _; exact En|lia]].
      intros n Pn Hn. destruct (Cv n Pn ltac:(lia)) as (e & x & y & I & R). exists e, x, y. split; [right; exact I|exact R].
  - destruct (Post start fuel []) as (L' & P & Lp & F & Cv & En); [lia|lia|lia|lia|apply N.ltb_ge in Hp; rewrite Hp; cbn; lia|]. cbn [app] in *. exists L'. rewrite P. cbn [obind]. apply Nat.leb_le in Lp. rewrite Lp. split; [reflexivity|]. split; [lia|].
    split; [intros e I; exact (proj1 (Forall_forall _ _) F _ I)|]. split; [exact Cv|]. split; [intros _; exact En|lia].
Qed.
(** If everything is served, then the file is written, and it is read back as the blocks of the index. *)
Theorem C101_honest : forall c w index rcp top lo hi d, chain_ok c -> pre_merge_roots = map (epoch_root sha) (epochs c) -> roots_acc = map (batch_root sha) (batches c) ->
  serves c w index rcp top lo hi -> index < 2 ^ 51 -> temp d = false -> forall fuel, (N.to_nat top + 10 < fuel)%nat ->
  exists d' file x, generate w fuel index d = Some (d', Ok tt) /\ finished d' = Some file /\ read file = Ok x /\ length (hs_tuples x) = N.to_nat 8192 /\
    forall i t, nth_error (hs_tuples x) i = Some t -> consistent (index * 8192 + N.of_nat i) t.
Proof.
  intros c w index rcp top lo hi d Ck Ra Rb S Li Ht fuel Lf. destruct (provider_ok c w index rcp top lo hi S fuel Lf) as (L & Pv & Hpre & Hera & Hcov & Hend & Hnone).
  destruct (s_latest _ _ _ _ _ _ _ _ _ _ _ _ _ _ _ _ _ _ _ _ _ _ _ _ _ _ _ S) as (latest & El & Hl).
  destruct (receipts_range_ok w rcp (s_receipts _ _ _ _ _ _ _ _ _ _ _ _ _ _ _ _ _ _ _ _ _ _ _ _ _ _ _ S) (N.to_nat 8192) (numbers (index * 8192) (N.to_nat 8192)) (fun _ => None)) as (m & Em & M1 & _); [unfold numbers; rewrite map_length, seq_length; apply Nat.le_refl|].
  set (acc := if paris_active fk (index * 8192) then None else match w_accumulator w index with Ok e => Some e | _ => None end).
  assert (Ha : (if paris_active fk (index * 8192) then Ok None else match nth_error pre_merge_roots (N.to_nat index) with None => Panic | Some _ => omap Some (w_accumulator w index) end) = Ok acc /\
    (index * 8192 < paris_block fk -> exists e, acc = Some e /\ w_accumulator w index = Ok e)).
  { unfold acc, paris_active. destruct (N.leb_spec (paris_block fk) (index * 8192)) as [Hp|Hp]; [split; [reflexivity|lia]|].
    destruct (s_era1 _ _ _ _ _ _ _ _ _ _ _ _ _ _ _ _ _ _ _ _ _ _ _ _ _ _ _ S Hp) as (e & ts & B1 & _ & B3 & _). rewrite Ra, nth_error_map, B1, B3. split; [reflexivity|]. intros _. exists e. auto. }
  destruct Ha as [Ha1 Ha2]. set (mm := if paris_active fk (index * 8192 + 8192) then m else (fun _ => None) : @receipts_map rct).
  set (b := {| bd_start := index * 8192; bd_accumulator := acc; bd_sources := L; bd_receipts := mm; bd_summaries := summaries_of L |}).
  assert (Bn : builder_new fk pre_merge_roots w fuel index = Some (Ok b)).
  { unfold builder_new. rewrite El. replace (latest / 8192 <? index) with false by (symmetry; apply N.ltb_ge; lia). cbv zeta. rewrite Ha1, Pv. unfold b, mm. destruct (paris_active fk (index * 8192 + 8192)); [rewrite Em|]; reflexivity. }
  assert (Sum : paris_block fk < index * 8192 + 8192 -> exists k e, w_era w k = Ok e /\ lo k <= index * 8192 + 8191 <= hi k /\ summaries_of L = summaries_in e).
  { intros Hp. destruct (Hend Hp) as (f & j & e & -> & Hj & He & Hr). exists j, e. split; [exact He|]. split; [lia|]. unfold summaries_of. rewrite rev_app_distr. reflexivity. }
  assert (Ho : honest sha c (Some (summaries_of L))).
  { destruct (N.le_gt_cases (index * 8192 + 8192) (paris_block fk)) as [Hp|Hp]; [rewrite (Hnone Hp); intros l Ey; injection Ey as <-; exists 0%nat; reflexivity|].
    destruct (Sum ltac:(lia)) as (k & e & He & Hk & ->). destruct (Hcov (index * 8192 + 8191)) as (e1 & x & y & I & _ & _ & f & bl & Ib & Nb); [lia|lia|].
    destruct (Hera e1 I) as (j & e' & Hj & Ey & Hw & _). injection Ey as <-. exact (proj1 (proj1 (proj2 (proj2 (proj2 (s_block _ _ _ _ _ _ _ _ _ _ _ _ _ _ _ _ _ _ _ _ _ _ _ _ _ _ _ S j e1 f bl Hw Ib ltac:(lia) ltac:(lia))))) k e He Hk)). }
  destruct (iter_complete c w index rcp top lo hi b Ck S Ho) with (count := N.to_nat 8192) (n := index * 8192) (v := new_validator pre_merge_roots roots_acc) (m := mm) as (ts & It & Ft & Lt).
  - intros Hp. destruct (Ha2 Hp) as (e & E1 & E2). destruct (Hpre Hp) as (ts & L' & E3 & E4). exists e, ts, L'. auto.
  - exact Hera.
  - exact Hcov.
  - exact Sum.
  - lia.
  - rewrite N2Nat.id. reflexivity.
  - unfold new_validator. rewrite Ra, Rb. constructor.
  - intros k H1 H2. unfold mm, paris_active. replace (paris_block fk <=? index * 8192 + 8192) with true by (symmetry; apply N.leb_le; lia). apply M1. apply in_numbers. rewrite N2Nat.id. exact H2.
  - destruct (C74_writer (fun _ => @None unit) hp_pack hp_unpack b_pack b_unpack r_pack r_unpack index ts Ft) as (file & x & E1 & _ & E2 & E3 & _); [unfold n_len; rewrite Lt; apply N2Nat.id|exact Li|].
    assert (Gn : generate w fuel index d = Some ({| temp := false; finished := Some file |}, Ok tt)).
    { unfold single_generator. rewrite Bn. unfold build_e2hs_file. rewrite Ht. cbn [bd_start bd_receipts b]. rewrite It. cbn [obind]. rewrite E1. reflexivity. }
    eexists _, file, x. split; [exact Gn|]. split; [reflexivity|]. split; [exact E2|]. rewrite E3. split; [exact Lt|].
    destruct (iter_sound HC HL TC RC WC keccak trie_root sha fk rest to_wd decode_tx requests_root bloom_root extra_root txs_root wds_root requests_tree debug b _ _ _ _ _ It) as (_ & Cs & _). exact Cs.
Qed.
End Props.

(** ** An example: the file with the index 1; 8 blocks are before the merge, the others are in two era files. *)
Module Toy.
Definition fk : forks := {| paris_block := 8200; shanghai_time := 100; cancun_time := 200 |}.
Notation sha := Header_Props.toy_sha.
Definition rest (h : el_header) : bytes := e_parent_hash h.
Definition hash_of (h : el_header) : bytes := toy_keccak (enc toyHC (lower rest h)).
Definition hd (n : N) : el_header := {|
  e_parent_hash := repeat 1 32; e_ommers_hash := toy_keccak (enc (listc toyHC) []); e_beneficiary := repeat 2 20; e_state_root := repeat 3 32; e_transactions_root := toy_root [];
  e_receipts_root := toy_root [enc Nc n]; e_logs_bloom := repeat 0 256; e_difficulty := 0; e_number := n; e_gas_limit := 1000; e_gas_used := 0; e_timestamp := 50;
  e_extra_data := [7]; e_mix_hash := repeat 5 32; e_nonce := repeat 0 8; e_base_fee_per_gas := Some 8; e_withdrawals_root := None;
  e_blob_gas_used := None; e_excess_blob_gas := None; e_parent_beacon_block_root := None; e_requests_hash := None |}.
Definition bl (n : N) : el_block N := {|
  b_slot := 4702208 + n - 4104; proposer_index := 3; parent_root := repeat 8 32; b_state_root := repeat 9 32; before := repeat (repeat 2 32) 9;
  b_payload := {| parent_hash := repeat 1 32; fee_recipient := repeat 2 20; state_root := repeat 3 32; p_receipts_root := toy_root [enc Nc n]; logs_bloom := repeat 0 256; prev_randao := repeat 5 32;
    p_block_number := n; gas_limit := 1000; gas_used := 0; p_timestamp := 50; extra_data := [7]; base_fee_per_gas := 8; p_block_hash := hash_of (hd n);
    p_transactions := []; p_withdrawals := []; blob_gas_used := 0; excess_blob_gas := 0 |};
  changes := repeat 3 32; commitments := repeat 6 32; requests := {| deposits := []; withdrawal_requests := []; consolidations := [] |} |}.
Definition body : @block_body N N := {| transactions := []; ommers := []; withdrawals := None |}.
Definition root1 (b : bytes) : bytes := toy_keccak b.
Definition rootq (r : el_requests) : bytes := toy_keccak (deposits r).
Notation tree := (tree_of root1 root1 toy_root root1 rootq Bellatrix).
Definition count : nat := N.to_nat 8192.
Definition roots (k : N) : list bytes := map (fun n => block_tree sha 4 (tree (bl n))) (numbers (4104 + (k - 574) * 8192) count).
Definition ba (k : N) : batch := {| block_roots := roots k; state_roots := repeat (repeat 9 32) count |}.
(** before the merge *)
Definition old (n : N) : full_header := {| number := n; timestamp := 1; ommers_hash := toy_keccak (enc (listc toyHC) []); transactions_root := toy_root []; receipts_root := toy_root [enc Nc n]; withdrawals_root := None; other_fields := [] |}.
Definition records : list Header_Model.record := map (fun n => {| block_hash := toy_keccak (enc toyHC (old n)); total_difficulty := n |}) (numbers 8192 8).
Definition tuples : list (@tuple4 full_header (@block_body N N) (list N)) := map (fun n => mk_tuple4 (old n) body [n] n) (numbers 8192 8).
Definition ch : chain := {| epochs := [records; records]; batches := repeat (ba 574) 575 ++ [ba 575]; later_batches := [] |}.
Definition lo (k : N) : N := if k =? 574 then 8200 else 12296.
Definition hi (k : N) : N := if k =? 574 then 12295 else 20487.
Definition view_of (k : N) : era_view N := {| ev_blocks := map (fun n => (Bellatrix, bl n)) (numbers (lo k) (N.to_nat (hi k + 1 - lo k))); ev_block_roots := roots k; ev_state_roots := repeat (repeat 9 32) count; ev_summaries := None; ev_index := k |}.
Definition w : world N N N N := {| w_latest := Ok 30000; w_accumulator := fun _ => Ok records; w_receipts := fun l => Ok (map (fun n => Ok [n]) l); w_era1 := fun _ => Ok tuples;
  w_linked := fun k => (574 <=? k) && (k <=? 575); w_last := Some 575; w_first := fun k => Ok (lo k); w_era := fun k => if (k =? 574) || (k =? 575) then Ok (view_of k) else Err |}.
Definition decode_tx (b : bytes) : outcome N := match b with [n] => Ok n | _ => Err end.
Definition era_at (n : N) : N := if n <=? 12295 then 574 else 575.
Definition hp_pack (x : full_header * header_proof) : bytes := le_bytes 8 (number (fst x)).
Definition hp_unpack (b : bytes) : option (full_header * header_proof) :=
  let n := le_num b in
  if n <? 8200 then match construct_proof sha false (view toyHC toy_keccak (old n)) records with Ok p => Some (old n, HistoricalHashes p) | _ => None end
  else Some (lower rest (hd n), proof_for sha root1 root1 toy_root root1 rootq Bellatrix (bl n) (roots (era_at n)) (repeat (repeat 9 32) count)).
Definition b_pack (b : @block_body N N) : bytes := [].
Definition b_unpack (b : bytes) : option (@block_body N N) := Some body.
Definition r_pack (l : list N) : bytes := le_bytes 8 (match l with n :: _ => n | [] => 0 end).
Definition r_unpack (b : bytes) : option (list N) := Some [le_num b].
Notation fits := (tuple3_ok hp_pack hp_unpack b_pack b_unpack r_pack r_unpack).

Ltac known := change (lo 574) with 8200 in *; change (hi 574) with 12295 in *; change (lo 575) with 12296 in *; change (hi 575) with 20487 in *.
Lemma nth_numbers a c i : (i < c)%nat -> nth_error (numbers a c) i = Some (a + N.of_nat i).
Proof. intros L. unfold numbers. rewrite nth_error_map. replace (nth_error (seq 0 c) i) with (Some i); [reflexivity|]. rewrite nth_error_nth' with (d := 0%nat) by (rewrite seq_length; exact L). rewrite seq_nth by exact L. reflexivity. Qed.
Lemma count_is : N.of_nat count = 8192. Proof. apply N2Nat.id. Qed.
Lemma len_numbers a c : length (numbers a c) = c. Proof. unfold numbers. rewrite map_length, seq_length. reflexivity. Qed.
Lemma era_cases k e : w_era w k = Ok e -> (k = 574 \/ k = 575) /\ e = view_of k.
Proof. cbn [w w_era]. destruct (N.eqb_spec k 574) as [->|]; [|destruct (N.eqb_spec k 575) as [->|]]; cbn [orb]; intros H; try discriminate; apply (f_equal (fun o => match o with Ok x => x | _ => e end)) in H; auto. Qed.
Lemma chain_fine : chain_ok ch.
Proof.
  assert (G : forall n x, len32 x -> Forall len32 (repeat x n)) by (intros n x H; apply Forall_forall; intros y Hy; apply repeat_spec in Hy; subst y; exact H).
  assert (B : forall k, batch_ok (ba k)).
  { intros k. split; [unfold blen, ba, roots; cbn [block_roots]; rewrite map_length, len_numbers; exact count_is|]. split; [|split; [unfold blen, ba; cbn [state_roots]; rewrite repeat_length; exact count_is|apply G; reflexivity]].
    unfold ba, roots. cbn [block_roots]. apply Forall_forall. intros x I. apply in_map_iff in I as (n & <- & _). unfold len32, block_tree. cbn [merkle_root]. apply le_bytes_length. }
  split; [|split; [|constructor]].
  - assert (R : epoch_ok records) by (split; [vm_compute; discriminate|]; apply Forall_forall; intros r I; apply in_map_iff in I as (n & <- & _); reflexivity). constructor; [exact R|constructor; [exact R|constructor]].
  - apply Forall_app. split; [|constructor; [apply B|constructor]]. apply Forall_forall. intros x I. apply repeat_spec in I as ->. apply B.
Qed.
Lemma fine n : hashes_ok (bl n).
Proof. split; [repeat (constructor; [reflexivity|]); constructor|]. split; [reflexivity|]. split; [reflexivity|]. apply Forall_forall. intros x I. apply repeat_spec in I as ->. reflexivity. Qed.
Lemma spans_view k : k = 574 \/ k = 575 -> spans (view_of k) (lo k) (hi k).
Proof.
  intros Hk. set (c := N.to_nat (hi k + 1 - lo k)). assert (Ec : exists c', c = Datatypes.S c' /\ lo k + N.of_nat c' = hi k).
  { exists (N.to_nat (hi k - lo k)). unfold c. destruct Hk as [-> | ->]; known; split; lia. }
  destruct Ec as (c' & Ec & Eh). unfold spans. cbn [ev_blocks view_of]. fold c. rewrite Ec.
  destruct (map (fun n => (Bellatrix, bl n)) (numbers (lo k) (Datatypes.S c'))) as [|b r] eqn:Eb; [discriminate|]. exists b, r. split; [reflexivity|].
  assert (Lr : length r = c') by (apply (f_equal (@length _)) in Eb; rewrite map_length, len_numbers in Eb; cbn in Eb; lia).
  split.
  - apply (f_equal (fun l => nth_error l 0)) in Eb. rewrite nth_error_map, nth_numbers in Eb by lia. cbn [option_map nth_error] in Eb. injection Eb as <-. cbn. lia.
  - apply (f_equal (fun l => nth_error l c')) in Eb. rewrite nth_error_map, nth_numbers in Eb by lia. subst c'. rewrite last_number in Eb. cbn [option_map] in Eb. injection Eb as <-. cbn [snd bl b_payload p_block_number]. exact Eh.
Qed.
Lemma served : serves toyHC (listc toyHC) Nc Nc Nc toy_keccak toy_root sha fk rest (fun x => x + 1) decode_tx toy_root root1 root1 toy_root root1 rootq false fits ch w 1 (fun n => [n]) 575 lo hi.
Proof.
  assert (P8 : forall n, n < 2 ^ 64 -> le_num (le_bytes 8 n) = n) by (intros n H; apply le_num_le_bytes_id; exact H).
  assert (Fr : forall n, n < 2 ^ 64 -> packs r_pack r_unpack [n]). { intros n H. split; [apply le_bytes_ok|]. split; [unfold blen, r_pack; rewrite le_bytes_length; vm_compute; reflexivity|]. unfold r_unpack, r_pack. rewrite P8 by exact H. reflexivity. }
  assert (Fb : packs b_pack b_unpack body) by (split; [constructor|split; [vm_compute; reflexivity|reflexivity]]).
  constructor.
  - exists 30000. split; [reflexivity|vm_compute; discriminate].
  - reflexivity.
  - intros _. exists records, tuples. split; [reflexivity|]. split; [vm_compute; discriminate|]. split; [reflexivity|]. split; [reflexivity|]. split; [reflexivity|].
    intros i t H. assert (Li : (i < 8)%nat) by (change 8%nat with (length tuples); apply nth_error_Some; congruence).
    unfold tuples in H. rewrite nth_error_map, nth_numbers in H by exact Li. cbn [option_map] in H. injection H as <-. cbn [t_header t_body t_receipts old number receipts_root].
    split; [reflexivity|]. split; [eexists; split; [unfold records; rewrite nth_error_map, nth_numbers by exact Li; reflexivity|reflexivity]|]. split; [split; [|split]; reflexivity|]. split; [reflexivity|].
    intros p Ep. assert (Ln : 8192 + N.of_nat i < 8200) by lia. split; [|split; [exact Fb|apply Fr; lia]].
    split; [apply le_bytes_ok|]. split; [unfold blen, hp_pack; rewrite le_bytes_length; vm_compute; reflexivity|]. unfold hp_unpack, hp_pack. cbn [u_header fst old number]. rewrite P8 by lia. apply N.ltb_lt in Ln. rewrite Ln. fold (old (8192 + N.of_nat i)). rewrite Ep. reflexivity.
  - intros _. split.
    + constructor.
      * split; [reflexivity|vm_compute; discriminate].
      * intros k Hk. cbn [w w_linked]. apply andb_true_intro. split; apply N.leb_le; lia.
      * intros k Hk. split; [reflexivity|]. exists (view_of k). assert (Ek : k = 574 \/ k = 575) by lia. split; [cbn [w w_era]; destruct Ek as [-> | ->]; reflexivity|]. split; [reflexivity|]. split; [exact (spans_view k Ek)|].
        intros n _ Hn. exists Bellatrix, (bl n). split; [|reflexivity]. cbn [view_of ev_blocks]. apply in_map_iff. exists n. split; [reflexivity|]. apply in_numbers. lia.
      * intros k Hk. unfold lo, hi. destruct (k =? 574); lia.
      * intros k Hk. replace k with 574 by lia. reflexivity.
      * split; [reflexivity|vm_compute; discriminate].
    + exists 574, 1. split; [lia|]. split; [lia|]. split; [split; vm_compute; discriminate|]. split; [vm_compute; discriminate|vm_compute; discriminate].
  - intros k e f b He Ib n Pn Hn. apply era_cases in He as [Hk ->]. cbn [view_of ev_blocks ev_block_roots ev_state_roots] in *. apply in_map_iff in Ib as (n' & [= <- <-] & In'). apply in_numbers in In'. cbn [bl b_payload p_block_number] in n. subst n. rename n' into n. cbn [fk paris_block] in Pn.
    assert (Rn : lo k <= n <= hi k) by (clear - In' Hk; destruct Hk as [-> | ->]; known; lia).
    split; [apply fine|]. split; [split; [exact Pn|reflexivity]|]. split.
    { exists (ba k). cbn [period bl b_slot]. split; [|split; [reflexivity|split; [reflexivity|]]].
      - unfold ch. cbn [batches]. replace ((4702208 + n - 4104) / 8192) with k by (clear - Rn Hk; destruct Hk as [-> | ->]; known; lia). destruct Hk as [-> | ->]; [rewrite nth_error_app1 by (rewrite repeat_length; lia); apply nth_error_repeat; lia|].
        rewrite nth_error_app2 by (rewrite repeat_length; lia). rewrite repeat_length. reflexivity.
      - cbn [ba block_roots depth_of]. unfold roots. rewrite nth_error_map, nth_numbers.
        + replace (4104 + (k - 574) * 8192 + N.of_nat (N.to_nat ((4702208 + n - 4104) mod 8192))) with n by (clear - Rn Hk; destruct Hk as [-> | ->]; known; lia). reflexivity.
        + pose proof count_is. pose proof (N.mod_lt (4702208 + n - 4104) 8192 ltac:(discriminate)). lia. }
    split; [intros k' e' He' _; apply era_cases in He' as [_ ->]; split; [intros l El; injection El as <-; exists 0%nat; reflexivity|exact I]|].
    split; [reflexivity|]. exists [], (hd n). split; [constructor|]. split; [constructor; try reflexivity; split; reflexivity|]. split; [reflexivity|].
    intros p bo Ep (B1 & B2 & B3). destruct bo as [bt bo bw]. cbn in B1, B2, B3. subst bt bo bw. split; [|split; [exact Fb|apply Fr; lia]].
    split; [apply le_bytes_ok|]. split; [unfold blen, hp_pack; rewrite le_bytes_length; vm_compute; reflexivity|]. unfold hp_unpack, hp_pack. cbn [u_header fst lower number hd e_number]. rewrite P8 by lia. replace (n <? 8200) with false by (symmetry; apply N.ltb_ge; exact Pn).
    rewrite Ep. replace (era_at n) with k; [reflexivity|]. unfold era_at. clear - Rn Hk. destruct Hk as [-> | ->]; known; [replace (n <=? 12295) with true by (symmetry; apply N.leb_le; lia)|replace (n <=? 12295) with false by (symmetry; apply N.leb_gt; lia)]; reflexivity.
Qed.
End Toy.
Example C101_example : exists d' file x,
  single_generator toyHC (listc toyHC) Nc Nc Nc toy_keccak toy_root Header_Props.toy_sha Toy.fk Toy.rest (fun x => x + 1) Toy.decode_tx toy_root Toy.root1 Toy.root1 toy_root Toy.root1 Toy.rootq false
    (map (epoch_root Header_Props.toy_sha) (epochs Toy.ch)) (map (batch_root Header_Props.toy_sha) (batches Toy.ch)) Toy.hp_pack Toy.b_pack Toy.r_pack Toy.w 1000 1 {| temp := false; finished := None |} = Some (d', Ok tt) /\
  finished d' = Some file /\ e2hs_read Toy.hp_unpack Toy.b_unpack Toy.r_unpack file = Ok x /\ length (hs_tuples x) = N.to_nat 8192.
Proof.
  destruct (C101_honest toyHC (listc toyHC) Nc Nc Nc toy_keccak toy_root Header_Props.toy_sha Toy.fk Toy.rest (fun x => x + 1) Toy.decode_tx toy_root Toy.root1 Toy.root1 toy_root Toy.root1 Toy.rootq false
    (map (epoch_root Header_Props.toy_sha) (epochs Toy.ch)) (map (batch_root Header_Props.toy_sha) (batches Toy.ch)) Toy.hp_pack Toy.b_pack Toy.r_pack Toy.hp_unpack Toy.b_unpack Toy.r_unpack) with (c := Toy.ch) (w := Toy.w) (index := 1) (rcp := fun n : N => [n]) (top := 575) (lo := Toy.lo) (hi := Toy.hi) (d := {| temp := false; finished := None |}) (fuel := 1000%nat)
    as (d' & file & x & E1 & E2 & E3 & E4 & _).
  - split; [|split; [|split; [|split]]]; intros; reflexivity.
  - exact Toy.chain_fine.
  - reflexivity.
  - reflexivity.
  - exact Toy.served.
  - reflexivity.
  - reflexivity.
  - lia.
  - exists d', file, x. auto.
Qed.
Print Assumptions C101_search.
Print Assumptions C101_file.
Print Assumptions C101_retry_refuted.
Print Assumptions C101_endless_refuted.
Print Assumptions C101_honest.
