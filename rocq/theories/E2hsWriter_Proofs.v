(** Lemmas for C101. *)
From Verif Require Import Base Keys_Props Trie_Model StateContent_Proofs Merkle_Spec Header_Model Header_Spec Header_Proofs Header_Props LegacyHistory_Model LegacyHistory_Spec LegacyHistory_Props
  E2Store_Model EraFiles_Model EraFiles_Spec Builders_Model Builders_Spec Builders_Props E2hsWriter_Model E2hsWriter_Spec.

Section Search.
Context {tx rct wdl wd : Type}.
Context (fk : forks) (w : world tx rct wdl wd) (top : N) (lo hi : N -> N).
Hypothesis E : eras_ok fk w top lo hi.

Lemma lo_mono k j : 574 <= k -> k + j <= top -> lo k <= lo (k + j).
Proof.
  intros L. induction j as [|j IH] using N.peano_ind; intros T; [rewrite N.add_0_r; lia|]. replace (k + N.succ j) with (k + j + 1) by lia. rewrite (adjacent _ _ _ _ _ E) by lia. pose proof (in_order _ _ _ _ _ E (k + j) ltac:(lia)). specialize (IH ltac:(lia)). lia.
Qed.
Lemma hi_lt_lo k k' : 574 <= k -> k < k' -> k' <= top -> hi k < lo k'.
Proof. intros H1 H2 H3. replace k' with (k + 1 + (k' - k - 1)) by lia. pose proof (lo_mono (k + 1) (k' - k - 1) ltac:(lia) ltac:(lia)). rewrite (adjacent _ _ _ _ _ E) in H by lia. lia. Qed.
Lemma contains_spans (e : era_view wd) a b n : spans e a b -> contains_block e n = (a <=? n) && (n <=? b).
Proof. intros (x & r & Eb & H1 & H2). unfold contains_block, exec_number. rewrite Eb, H1, H2. reflexivity. Qed.

Lemma search_finds n k e : paris_block fk <= n -> 574 <= k <= top -> lo k <= n <= hi k -> w_era w k = Ok e ->
  forall fuel start stop, 574 <= start <= k -> k <= stop <= top -> (N.to_nat (stop - start) < fuel)%nat -> search w fuel top start stop n = Some (Ok e).
Proof.
  intros Pn Hk Hn He. destruct (merge _ _ _ _ _ E) as [P0 _]. induction fuel as [|fuel IH]; intros start stop H1 H2 Lf; [lia|]. cbn [search].
  destruct (N.ltb_spec stop start) as [|_]; [lia|]. set (mid := (start + stop) / 2). assert (Hm : start <= mid <= stop) by (unfold mid; lia).
  rewrite (all_linked _ _ _ _ _ E) by lia. cbn [negb]. destruct (all_eras _ _ _ _ _ E mid ltac:(lia)) as (F1 & em & Em & _ & Sm & _). rewrite F1.
  destruct (N.ltb_spec top (mid + 1)) as [Lt|Lt].
  - assert (mid = k) by (unfold mid in *; lia). subst k. rewrite He. cbn [obind]. rewrite He in Em. injection Em as ->. rewrite (contains_spans _ _ _ _ Sm). destruct Hn as [Hn1 Hn2]. apply N.leb_le in Hn1, Hn2. rewrite Hn1, Hn2. reflexivity.
  - rewrite (all_linked _ _ _ _ _ E) by lia. cbn [negb]. destruct (all_eras _ _ _ _ _ E (mid + 1) ltac:(lia)) as (F2 & _). rewrite F2.
    rewrite (adjacent _ _ _ _ _ E mid) by lia. destruct (N.lt_trichotomy mid k) as [L|[->|L]].
    + pose proof (hi_lt_lo mid k ltac:(lia) L ltac:(lia)). pose proof (in_order _ _ _ _ _ E mid ltac:(lia)).
      assert (G : (if lo mid <? n then search w fuel top (mid + 1) stop n else search w fuel top start (mid - 1) n) = Some (Ok e)).
      { replace (lo mid <? n) with true by (symmetry; apply N.ltb_lt; lia). apply IH; lia. }
      rewrite G. destruct (_ || _); [|reflexivity]. rewrite Em, (contains_spans _ _ _ _ Sm). replace (n <=? hi mid) with false by (symmetry; apply N.leb_gt; lia). rewrite Bool.andb_false_r. reflexivity.
    + replace ((lo k <=? n) && (n <? hi k + 1)) with true by (symmetry; apply andb_true_intro; split; [apply N.leb_le|apply N.ltb_lt]; lia). rewrite Bool.orb_true_r, He.
      rewrite He in Em. injection Em as <-. rewrite (contains_spans _ _ _ _ Sm). replace ((lo k <=? n) && (n <=? hi k)) with true by (symmetry; apply andb_true_intro; split; apply N.leb_le; lia). reflexivity.
    + pose proof (hi_lt_lo k mid ltac:(lia) L ltac:(lia)). replace (lo mid =? 0) with false by (symmetry; apply N.eqb_neq; lia). replace (lo mid <=? n) with false by (symmetry; apply N.leb_gt; lia). cbn [orb andb].
      replace (lo mid <? n) with false by (symmetry; apply N.ltb_ge; lia). apply IH; lia.
Qed.
Lemma search_misses n : hi top < n -> forall fuel start stop, 574 <= start <= top -> stop = top -> (N.to_nat (stop - start) < fuel)%nat -> search w fuel top start stop n = Some Err.
Proof.
  intros Hn. induction fuel as [|fuel IH]; intros start stop H1 H2 Lf; [lia|]. cbn [search]. subst stop.
  destruct (N.ltb_spec top start) as [|_]; [lia|]. set (mid := (start + top) / 2). assert (Hm : start <= mid <= top) by (unfold mid; lia).
  assert (Hh : hi mid < n). { destruct (N.eq_dec mid top) as [->|]; [exact Hn|]. pose proof (hi_lt_lo mid top ltac:(lia) ltac:(lia) ltac:(lia)). pose proof (in_order _ _ _ _ _ E top ltac:(lia)). lia. }
  rewrite (all_linked _ _ _ _ _ E) by lia. cbn [negb]. destruct (all_eras _ _ _ _ _ E mid ltac:(lia)) as (F1 & em & Em & _ & Sm & _). rewrite F1.
  assert (Nc : contains_block em n = false) by (rewrite (contains_spans _ _ _ _ Sm); replace (n <=? hi mid) with false by (symmetry; apply N.leb_gt; lia); apply Bool.andb_false_r).
  destruct (N.ltb_spec top (mid + 1)) as [Lt|Lt]; [rewrite Em; cbn [obind]; rewrite Nc; reflexivity|].
  rewrite (all_linked _ _ _ _ _ E) by lia. cbn [negb]. destruct (all_eras _ _ _ _ _ E (mid + 1) ltac:(lia)) as (F2 & _). rewrite F2.
  pose proof (in_order _ _ _ _ _ E mid ltac:(lia)). rewrite Em, Nc. replace (lo mid <? n) with true by (symmetry; apply N.ltb_lt; lia). rewrite (IH (mid + 1) top ltac:(lia) eq_refl ltac:(lia)). destruct (_ || _); reflexivity.
Qed.
End Search.

(** ** What the provider gives *)
Section Provide.
Context {tx rct wdl wd : Type}.
Context (fk : forks) (w : world tx rct wdl wd).
Definition served (s : era_source tx rct wdl wd) : Prop :=
  match s with PreMerge ts => exists k, w_era1 w k = Ok ts | PostMerge e => exists k, w_era w k = Ok e end.
Lemma search_served : forall fuel top start stop n e, search w fuel top start stop n = Some (Ok e) -> exists k, w_era w k = Ok e.
Proof.
  induction fuel as [|fuel IH]; intros top start stop n e H; [discriminate|]. cbn [search] in H.
  destruct (stop <? start); [discriminate|]. destruct (negb _); [discriminate|]. destruct (w_first w _) as [mn| |]; try discriminate.
  destruct (top <? _).
  - injection H as H. apply obind_ok in H as (e' & He & H). destruct (contains_block e' n); [|discriminate]. injection H as ->. eexists. exact He.
  - destruct (negb _); [discriminate|]. destruct (w_first w _) as [nn| |]; try discriminate.
    assert (G : (if mn <? n then search w fuel top ((start + stop) / 2 + 1) stop n else search w fuel top start ((start + stop) / 2 - 1) n) = Some (Ok e) -> exists k, w_era w k = Ok e) by (destruct (mn <? n); apply IH).
    destruct (_ || _); [|exact (G H)]. destruct (w_era w ((start + stop) / 2)) as [e'| |] eqn:He; try discriminate. destruct (contains_block e' n); [|exact (G H)]. injection H as ->. eexists. exact He.
Qed.
Lemma provide_served : forall fuel next ending prev L L', provide fk w fuel next ending prev L = Some (Ok L') -> Forall served L -> Forall served L'.
Proof.
  induction fuel as [|fuel IH]; intros next ending prev L L' H F; [discriminate|]. cbn [provide] in H. destruct (ending <=? next); [injection H as <-; exact F|].
  match type of H with match ?g with Some _ => _ | None => _ end = _ => destruct g as [[[p s]| |]|] eqn:G; try discriminate end.
  destruct (last_block s) as [l| |]; try discriminate. apply (IH _ _ _ _ _ H). apply Forall_app. split; [exact F|]. constructor; [|constructor].
  destruct (negb (paris_active fk next)).
  - injection G as G. apply obind_ok in G as (ts & Et & G). injection G as _ <-. eexists. exact Et.
  - destruct prev as [q|].
    + injection G as G. destruct (negb _); [discriminate|]. apply obind_ok in G as (e & Ee & G). injection G as _ <-. eexists. exact Ee.
    + destruct (fetch_era_file fk w (S fuel) next) as [r|] eqn:Ef; [|discriminate]. injection G as G. apply obind_ok in G as (e & -> & G). injection G as _ <-.
      unfold fetch_era_file in Ef. destruct (next <? paris_block fk); [discriminate|]. destruct (w_last w); [|discriminate]. exact (search_served _ _ _ _ _ _ Ef).
Qed.
Lemma summaries_served S : Forall served S -> summaries_of S = [] \/ exists k e, w_era w k = Ok e /\ ev_summaries e = Some (summaries_of S).
Proof.
  intros F. unfold summaries_of. apply Forall_rev in F. destruct (rev S) as [|[ts|e] r]; [left; reflexivity|left; reflexivity|]. apply Forall_inv in F. destruct F as [k Hk]. destruct (ev_summaries e) eqn:E; [|left; reflexivity]. right. exists k, e. auto.
Qed.
End Provide.

(** ** The file is sound. *)
Section Sound.
Context {tx rct wdl wd : Type}.
Context (HC : codec full_header) (HL : codec (list full_header)) (TC : codec tx) (RC : codec rct) (WC : codec wdl).
Context (keccak : bytes -> bytes) (trie_root : list bytes -> bytes) (sha : bytes -> bytes) (fk : forks).
Context (rest : el_header -> bytes) (to_wd : wd -> wdl) (decode_tx : bytes -> outcome tx) (requests_root : list bytes -> bytes).
Context (bloom_root extra_root : bytes -> bytes) (txs_root : list bytes -> bytes) (wds_root : list wd -> bytes) (requests_tree : el_requests -> bytes).
Context (debug : bool).
Notation iter := (iter_blocks HC HL TC RC WC keccak trie_root sha fk rest to_wd decode_tx requests_root bloom_root extra_root txs_root wds_root requests_tree debug).
Notation pre_merge := (pre_merge_block HC keccak sha fk debug).
Notation post_merge := (post_merge_block HC HL TC RC WC keccak trie_root sha fk rest to_wd decode_tx requests_root bloom_root extra_root txs_root wds_root requests_tree).
Notation builder := (builder tx rct wdl wd).

Lemma pre_number (b : builder) n x : pre_merge b n = Ok x -> number (fst (u_header x)) = n.
Proof.
  unfold pre_merge_block. intros H. apply obind_ok in H as (t & G & H). destruct (bd_accumulator b) as [e|]; [|discriminate]. apply obind_ok in H as (p & _ & H). injection H as <-. cbn.
  unfold get_pre_merge in G. destruct (paris_active fk n); [discriminate|]. destruct (bd_sources b) as [|[ts|e'] r]; try discriminate. destruct (nth_error ts _) as [t'|]; [|discriminate]. destruct (N.eqb_spec (number (t_header t')) n) as [E|]; [|discriminate]. injection G as <-. exact E.
Qed.
Lemma post_parts (b : builder) m n x m' : post_merge b m n = Ok (x, m') ->
  number (fst (u_header x)) = n /\ same_withdrawals WC trie_root (u_body x) (fst (u_header x)).
Proof.
  unfold post_merge_block. intros H. apply obind_ok in H as ([[f bl] e] & G & H). unfold exec_number in H. cbn [snd] in H. destruct (N.eqb_spec (p_block_number (b_payload bl)) n) as [E|]; [|discriminate]. cbn [negb] in H.
  apply obind_ok in H as ([[h p] bo] & B & H). destruct (m n) as [r|]; [|discriminate]. destruct (beqb _ _); [|discriminate]. injection H as <- _. cbn [u_header u_body fst].
  unfold build_block, omap in B. destruct (build _ _ _ _ _ _ _ _ _ _ _ _ _ _ f bl _ _) as [[[h' p'] bo']| |] eqn:Bd; try discriminate. cbn [fst snd] in B. injection B as <- <- <-.
  apply C100_block in Bd as (txs & _ & D & _ & (_ & _ & B3) & _). cbn [lower number]. rewrite (d_number _ _ _ _ _ _ _ _ _ _ D). split; [exact E|].
  unfold same_withdrawals. cbn [lower withdrawals_root]. rewrite (d_withdrawals _ _ _ _ _ _ _ _ _ _ D), B3. destruct (has_withdrawals f); [cbn; rewrite map_map; reflexivity|reflexivity].
Qed.
Lemma iter_sound (b : builder) : forall count n v m l, iter b count n v m = Ok l ->
  length l = count /\ (forall i t, nth_error l i = Some t -> consistent HL TC RC WC keccak trie_root fk (n + N.of_nat i) t) /\
  ((forall x, len32 (sha x)) -> (forall x, len32 (keccak x)) -> forall c, chain_ok c -> reach sha fk c v -> honest sha c (Some (bd_summaries b)) -> Forall (in_chain HC keccak sha fk c) l).
Proof.
  induction count as [|count IH]; intros n v m l H; cbn [iter_blocks] in H.
  - injection H as <-. split; [reflexivity|]. split; [intros [|i] t; discriminate|]. intros. constructor.
  - apply obind_ok in H as ([x m'] & G & H). unfold validate_block in H. cbn [fst snd] in H. destruct (validate_header_with_proof _ _ _ _ _ _) as [v' r] eqn:V.
    apply obind_ok in H as ([] & Hr & H). apply obind_ok in Hr as ([] & -> & Hr). destruct (validate_against_header _ _ _ _ _ _ _) eqn:A; [|discriminate]. cbn [negb] in Hr.
    destruct (beqb _ _) eqn:R; [|discriminate]. apply beqb_spec in R. apply obind_ok in H as (l' & I & H). injection H as <-. destruct (IH _ _ _ _ I) as (L & Cs & Ch). split; [cbn; lia|]. split.
    + intros [|i] t Ht; [|replace (n + N.of_nat (S i)) with (n + 1 + N.of_nat i) by lia; exact (Cs i t Ht)]. injection Ht as <-. rewrite N.add_0_r.
      unfold validate_against_header in A. destruct (beqb (keccak _) _) eqn:A1; [|discriminate]. cbn [negb] in A. destruct (beqb (trie_root (map (enc TC) _)) _) eqn:A2; [|discriminate]. cbn [negb] in A. apply beqb_spec in A1, A2.
      assert (W : same_withdrawals WC trie_root (u_body x) (fst (u_header x)) \/ withdrawals (u_body x) = None).
      { unfold same_withdrawals. destruct (withdrawals (u_body x)) as [ws|]; [|right; reflexivity]. left. destruct (withdrawals_root _) as [e|]; [|discriminate]. apply beqb_spec in A. cbn. congruence. }
      destruct (paris_active fk n) eqn:Pa.
      * apply post_parts in G as [G1 G2]. constructor; [exact G1|exact (eq_sym A1)|exact (eq_sym A2)|left; exact G2|exact R].
      * unfold omap in G. destruct (pre_merge b n) as [x'| |] eqn:Px; try discriminate. injection G as -> _. apply pre_number in Px. apply N.leb_gt in Pa. constructor; [exact Px|exact (eq_sym A1)|exact (eq_sym A2)|destruct W as [W|W]; auto|exact R].
    + intros S1 S2 c Ck Re Ho. constructor.
      * intros P. exact (proof_backed HC keccak sha fk S1 S2 c v (Some (bd_summaries b)) (fst (u_header x)) (snd (u_header x)) v' Ck Re Ho P V).
      * apply Ch; auto. replace v' with (fst (validate_header_with_proof sha fk v (Some (bd_summaries b)) (view HC keccak (fst (u_header x))) (snd (u_header x)))) by (rewrite V; reflexivity). apply R_validate; assumption.
Qed.
End Sound.

(** ** From honest servers all blocks are got. *)
Section Collect.
Context {tx rct wdl wd : Type}.
Context (fk : forks) (w : world tx rct wdl wd) (top : N) (lo hi : N -> N).
Notation source := (era_source tx rct wdl wd).
(** A source that is an era file of the servers *)
Definition era_of (s : source) : Prop := exists j e, 574 <= j <= top /\ s = PostMerge e /\ w_era w j = Ok e /\ spans e (lo j) (hi j) /\ forall n, paris_block fk <= n -> lo j <= n <= hi j -> has_block e n.
Definition covers (l : list source) (a b : N) : Prop := forall n, paris_block fk <= n -> a <= n < b -> exists e x y, In (PostMerge e) l /\ spans e x y /\ x <= n <= y /\ has_block e n.
Definition ends_at (l : list source) (ending : N) : Prop := exists f j e, l = f ++ [PostMerge e] /\ 574 <= j <= top /\ w_era w j = Ok e /\ lo j < ending <= hi j + 1.
Lemma era_source_of k : eras_ok fk w top lo hi -> 574 <= k <= top -> exists e, era_of (PostMerge e) /\ w_era w k = Ok e /\ ev_index e = k /\ spans e (lo k) (hi k) /\ last_block (PostMerge e : source) = Ok (hi k) /\ contains_block e (lo k) = true.
Proof.
  intros E Hk. destruct (all_eras _ _ _ _ _ E k Hk) as (_ & e & He & Ei & Sp & Hb). exists e. split; [exists k, e; auto 10|]. split; [exact He|]. split; [exact Ei|]. split; [exact Sp|]. pose proof (in_order _ _ _ _ _ E k Hk).
  rewrite (contains_spans _ _ _ _ Sp). destruct Sp as (x & r & Eb & _ & H2). cbn [last_block]. rewrite Eb. split; [unfold exec_number; rewrite H2; reflexivity|]. apply andb_true_intro. split; apply N.leb_le; lia.
Qed.
Lemma provide_eras ending : eras_ok fk w top lo hi -> forall m k fuel L e, 574 <= k -> k + N.of_nat m <= top -> paris_block fk <= hi k + 1 -> ending <= hi (k + N.of_nat m) + 1 -> lo k < ending -> w_era w k = Ok e -> (m < fuel)%nat ->
  exists L', provide fk w fuel (hi k + 1) ending (Some k) (L ++ [PostMerge e]) = Some (Ok (L ++ PostMerge e :: L')) /\ (length L' <= m)%nat /\ Forall era_of L' /\ covers L' (hi k + 1) ending /\ ends_at (L ++ PostMerge e :: L') ending.
Proof.
  intros E. induction m as [|m IH]; intros k fuel L e Hk Hm Hp He Hl Hw Lf; (destruct fuel as [|fuel]; [lia|]); cbn [provide].
  - change (N.of_nat 0) with 0 in *. rewrite N.add_0_r in *. replace (ending <=? hi k + 1) with true by (symmetry; apply N.leb_le; lia). exists []. split; [reflexivity|]. split; [cbn; lia|]. split; [constructor|]. split; [intros n _ Hn; lia|]. exists L, k, e. split; [reflexivity|]. split; [lia|]. split; [exact Hw|lia].
  - destruct (N.leb_spec ending (hi k + 1)) as [Le|Lt].
    + exists []. split; [reflexivity|]. split; [cbn; lia|]. split; [constructor|]. split; [intros n _ Hn; lia|]. exists L, k, e. split; [reflexivity|]. split; [lia|]. split; [exact Hw|lia].
    + unfold paris_active. replace (paris_block fk <=? hi k + 1) with true by (symmetry; apply N.leb_le; lia). cbn [negb]. rewrite (all_linked _ _ _ _ _ E) by lia. cbn [negb].
      destruct (era_source_of (k + 1) E ltac:(lia)) as (e' & Ea & Hw' & Ei & Sp & Lb & _). rewrite Hw'. cbn [obind]. rewrite Lb, Ei.
      pose proof (adjacent _ _ _ _ _ E k ltac:(lia)) as Ad. pose proof (in_order _ _ _ _ _ E (k + 1) ltac:(lia)) as Od.
      destruct (IH (k + 1) fuel (L ++ [PostMerge e]) e') as (L' & P & Ll & F & Cv & En); [lia|lia|lia|replace (k + 1 + N.of_nat m) with (k + N.of_nat (S m)) by lia; exact He|lia|exact Hw'|lia|].
      exists (PostMerge e' :: L'). rewrite P. rewrite <- !app_assoc in *. split; [reflexivity|]. split; [cbn; lia|]. split; [constructor; assumption|]. split; [|exact En].
      intros n Pn Hn. destruct (N.le_gt_cases n (hi (k + 1))) as [Ln|Gn].
      * exists e', (lo (k + 1)), (hi (k + 1)). split; [left; reflexivity|]. split; [exact Sp|]. split; [lia|]. destruct (all_eras _ _ _ _ _ E (k + 1) ltac:(lia)) as (_ & e2 & He2 & _ & _ & Hb). rewrite Hw' in He2. injection He2 as <-. apply Hb; lia.
      * destruct (Cv n Pn ltac:(lia)) as (e2 & x & y & I & R). exists e2, x, y. split; [right; exact I|exact R].
Qed.
(** from the first block after the merge on *)
Lemma provide_post start ending m k fuel L : eras_ok fk w top lo hi -> 574 <= k -> k + N.of_nat m <= top -> paris_block fk <= start < ending -> lo k <= start <= hi k -> ending <= hi (k + N.of_nat m) + 1 -> (m + 1 < fuel)%nat -> (N.to_nat (top - 574) < fuel)%nat ->
  exists L', provide fk w fuel start ending None L = Some (Ok (L ++ L')) /\ (length L' <= S m)%nat /\ Forall era_of L' /\ covers L' start ending /\ ends_at (L ++ L') ending.
Proof.
  intros E Hk Hm Hs Hl He Lf Lt. destruct fuel as [|fuel]; [lia|]. cbn [provide]. replace (ending <=? start) with false by (symmetry; apply N.leb_gt; lia).
  unfold paris_active. replace (paris_block fk <=? start) with true by (symmetry; apply N.leb_le; lia). cbn [negb]. unfold fetch_era_file. replace (start <? paris_block fk) with false by (symmetry; apply N.ltb_ge; lia).
  destruct (top_era _ _ _ _ _ E) as [Et Ht]. rewrite Et. destruct (era_source_of k E ltac:(lia)) as (e & Ea & Hw & Ei & Sp & Lb & _).
  rewrite (search_finds fk w top lo hi E start k e ltac:(lia) ltac:(lia) ltac:(lia) Hw (S fuel) 574 top ltac:(lia) ltac:(lia) Lt). cbn [obind]. rewrite Lb, Ei.
  destruct (provide_eras ending E m k fuel L e) as (L' & P & Ll & F & Cv & En); [lia|lia|lia|lia|lia|exact Hw|lia|].
  exists (PostMerge e :: L'). rewrite P. split; [reflexivity|]. split; [cbn; lia|]. split; [constructor; assumption|]. split; [|exact En].
  intros n Pn Hn. destruct (N.le_gt_cases n (hi k)) as [Ln|Gn].
  - exists e, (lo k), (hi k). split; [left; reflexivity|]. split; [exact Sp|]. split; [lia|]. destruct (all_eras _ _ _ _ _ E k ltac:(lia)) as (_ & e2 & He2 & _ & _ & Hb). rewrite Hw in He2. injection He2 as <-. apply Hb; lia.
  - destruct (Cv n Pn ltac:(lia)) as (e2 & x & y & I & R). exists e2, x, y. split; [right; exact I|exact R].
Qed.
End Collect.
Section Look.
Context {tx rct wdl wd : Type}.
Notation source := (era_source tx rct wdl wd).
(** looking a block up *)
Lemma find_block_ok n : forall L : list source, (forall e, In (PostMerge e) L -> exists x y, spans e x y) -> (exists e x y, In (PostMerge e) L /\ spans e x y /\ x <= n <= y /\ has_block e n) ->
  exists f b e, find_block L n = Ok (f, b, e) /\ In (PostMerge e) L /\ In (f, b) (ev_blocks e) /\ p_block_number (b_payload b) = n.
Proof.
  induction L as [|[ts|e0] L IH]; intros Sp (e & x & y & I & R); [destruct I|..].
  - destruct I as [I|I]; [discriminate|]. destruct IH as (f & b & e' & F & I' & Q); [intros e' I'; apply Sp; right; exact I'|exists e, x, y; auto|]. exists f, b, e'. cbn [find_block]. split; [exact F|]. split; [right; exact I'|exact Q].
  - cbn [find_block]. destruct (Sp e0 (or_introl eq_refl)) as (x0 & y0 & (b0 & r0 & Eb & X0 & Y0)). unfold get_block, exec_number. rewrite Eb, X0, Y0. cbn [obind]. rewrite <- Eb.
    destruct ((x0 <=? n) && (n <=? y0)) eqn:Rg; [destruct (find _ (ev_blocks e0)) as [[f b]|] eqn:Fd|].
    + apply find_some in Fd as [Fi Fn]. apply N.eqb_eq in Fn. exists f, b, e0. split; [reflexivity|]. split; [left; reflexivity|]. split; [exact Fi|exact Fn].
    + destruct I as [I|I]; [injection I as ->; destruct R as (_ & _ & f & b & Ib & Nb); pose proof (find_none _ _ Fd _ Ib) as Z; cbn in Z; apply N.eqb_neq in Z; destruct (Z Nb)|].
      destruct IH as (f & b & e' & F & I' & Q); [intros e' I'; apply Sp; right; exact I'|exists e, x, y; auto|]. exists f, b, e'. split; [exact F|]. split; [right; exact I'|exact Q].
    + destruct I as [I|I].
      { injection I as ->. destruct R as ((b1 & r1 & Eb1 & X1 & Y1) & Rn & _). rewrite Eb in Eb1. injection Eb1 as <- <-. apply Bool.andb_false_iff in Rg as [Rg|Rg]; apply N.leb_gt in Rg; lia. }
      destruct IH as (f & b & e' & F & I' & Q); [intros e' I'; apply Sp; right; exact I'|exists e, x, y; auto|]. exists f, b, e'. split; [exact F|]. split; [right; exact I'|exact Q].
Qed.

End Look.
Section Receipts.
Context {tx rct wdl wd : Type} (w : world tx rct wdl wd).
(** receipts *)
Context (rcp : N -> list rct).
Lemma insert_all_ok : forall ns m, exists m', insert_all m ns (map (fun n => Ok (rcp n)) ns) = Ok m' /\ (forall k, In k ns -> m' k = Some (rcp k)) /\ (forall k, ~ In k ns -> m' k = m k).
Proof.
  induction ns as [|n ns IH]; intros m; cbn [insert_all map obind]; [exists m; split; [reflexivity|]; split; [intros k []|reflexivity]|].
  destruct (IH (fun k => if k =? n then Some (rcp n) else m k)) as (m' & -> & H1 & H2). exists m'. split; [reflexivity|]. split.
  - intros k [<-|I]; [|exact (H1 k I)]. destruct (in_dec N.eq_dec n ns) as [I|I]; [exact (H1 n I)|]. rewrite H2 by exact I. rewrite N.eqb_refl. reflexivity.
  - intros k I. rewrite H2 by (intros J; apply I; right; exact J). destruct (N.eqb_spec k n) as [->|]; [destruct I; left; reflexivity|reflexivity].
Qed.
Lemma receipts_range_ok : (forall l, w_receipts w l = Ok (map (fun n => Ok (rcp n)) l)) -> forall fuel ns m, (length ns <= fuel)%nat ->
  exists m', receipts_range w fuel m ns = Ok m' /\ (forall k, In k ns -> m' k = Some (rcp k)) /\ (forall k, ~ In k ns -> m' k = m k).
Proof.
  intros S. induction fuel as [|fuel IH]; intros ns m L; [destruct ns; [|cbn in L; lia]; exists m; split; [reflexivity|]; split; [intros k []|reflexivity]|].
  destruct ns as [|n ns]; [exists m; split; [reflexivity|]; split; [intros k []|reflexivity]|]. cbn [receipts_range]. rewrite S. cbn [obind].
  destruct (insert_all_ok (firstn 10 (n :: ns)) m) as (m1 & -> & A1 & A2). cbn [obind]. destruct (IH (skipn 10 (n :: ns)) m1) as (m2 & E & B1 & B2); [rewrite skipn_length; cbn [length] in *; lia|].
  exists m2. split; [exact E|]. rewrite <- (firstn_skipn 10 (n :: ns)). split.
  - intros k I. destruct (in_dec N.eq_dec k (skipn 10 (n :: ns))) as [J|J]; [exact (B1 k J)|]. apply in_app_or in I as [I|I]; [|destruct (J I)]. rewrite B2 by exact J. exact (A1 k I).
  - intros k I. rewrite B2, A2; [reflexivity|intros J; apply I, in_or_app; left; exact J|intros J; apply I, in_or_app; right; exact J].
Qed.
End Receipts.
Lemma in_numbers start count n : In n (numbers start count) <-> start <= n < start + N.of_nat count.
Proof.
  unfold numbers. rewrite in_map_iff. split.
  - intros (i & <- & I). apply in_seq in I. lia.
  - intros H. exists (N.to_nat (n - start)). split; [lia|]. apply in_seq. lia.
Qed.
