(** Property C103: the bridge from history files offers the blocks of its range, and only these. *)
From Verif Require Import Base Merkle_Spec Trie_Model AcceptCodes_Model Keys_Model Keys_Spec Keys_Props Header_Model Header_Spec Header_Props StateContent_Model StateContent_Proofs LegacyHistory_Model LegacyHistory_Spec LegacyHistory_Proofs LegacyHistory_Props
  E2Store_Model EraFiles_Model EraFiles_Spec EraFiles_Props Builders_Model Builders_Props E2hsWriter_Model E2hsWriter_Spec E2hsWriter_Proofs E2hsWriter_Props E2hsBridge_Model E2hsBridge_Spec E2hsBridge_Proofs.

(** ** The epochs of a range *)
Lemma in_numbers a c n : In n (numbers a c) <-> a <= n < a + N.of_nat c.
Proof.
  unfold numbers. rewrite in_map_iff. split.
  - intros (i & <- & I). apply in_seq in I. lia.
  - intros H. exists (N.to_nat (n - a)). split; [lia|]. apply in_seq. lia.
Qed.
Lemma numbers_nodup a c : NoDup (numbers a c).
Proof. unfold numbers. apply FinFun.Injective_map_NoDup; [intros x y H; lia|apply seq_NoDup]. Qed.
(** An entry covers a block: the block is in the epoch and, if the entry has bounds, within them. *)
Definition entry_covers (x : N * option (N * N)) (n : N) : Prop := n / 8192 = fst x /\ match snd x with Some (a, b) => a <= n <= b | None => True end.
Definition entry_at (first last e : N) : N * option (N * N) := (e, if (first <=? e * 8192) && (e * 8192 + 8191 <=? last) then None else Some (N.max first (e * 8192), N.min last (e * 8192 + 8191))).
Lemma epochs_ok debug first last l : block_range_to_epochs debug first last = Ok l -> l = map (entry_at first last) (numbers (first / 8192) (N.to_nat (last / 8192 + 1 - first / 8192))).
Proof.
  unfold block_range_to_epochs. intros H. apply all_ok_inv in H. induction H as [|e x es l E _ IH]; [reflexivity|]. cbn [map]. rewrite <- IH. f_equal.
  unfold epoch_entry, entry_at in *. destruct (debug && _); [discriminate|]. destruct ((first <=? e * 8192) && _); injection E as <-; reflexivity.
Qed.
Lemma entry_in first last n : first <= n <= last -> entry_covers (entry_at first last (n / 8192)) n.
Proof. intros H. split; [reflexivity|]. cbn [entry_at snd]. destruct (_ && _); [exact I|]. lia. Qed.
Lemma entry_out first last e n : entry_covers (entry_at first last e) n -> first <= n <= last.
Proof. intros [E H]. cbn [entry_at fst snd] in *. destruct ((first <=? e * 8192) && (e * 8192 + 8191 <=? last)) eqn:B; [|lia]. apply andb_prop in B as [B1 B2]. lia. Qed.
(** The entries cover the blocks from the first to the last and no others, every one once; a range that ends before it starts has no blocks. *)
Theorem C103_epochs : forall debug first last, last < 2 ^ 64 -> debug = false \/ last < 2 ^ 64 - 8192 ->
  exists l, block_range_to_epochs debug first last = Ok l /\ NoDup (map fst l) /\
    forall n, first <= n <= last <-> exists x, In x l /\ entry_covers x n.
Proof.
  intros debug first last L D.
  assert (E : exists l, block_range_to_epochs debug first last = Ok l).
  { eexists. unfold block_range_to_epochs. apply all_ok_intro with (r := map (entry_at first last) (numbers (first / 8192) (N.to_nat (last / 8192 + 1 - first / 8192)))).
    assert (G : forall e, In e (numbers (first / 8192) (N.to_nat (last / 8192 + 1 - first / 8192))) -> epoch_entry debug first last e = Ok (entry_at first last e)).
    { intros e I. apply in_numbers in I. unfold epoch_entry, entry_at. destruct (debug && (2 ^ 64 <=? e * 8192 + 8192)) eqn:B; [|destruct ((first <=? e * 8192) && _); reflexivity]. exfalso.
      apply andb_prop in B as [-> B]. destruct D as [D|D]; [discriminate|]. change (2 ^ 64) with 18446744073709551616 in *. lia. }
    induction (numbers _ _) as [|e es IH]; constructor; [apply G; left; reflexivity|apply IH; intros e' I; apply G; right; exact I]. }
  destruct E as (l & E). exists l. split; [exact E|]. rewrite (epochs_ok _ _ _ _ E). split.
  - rewrite map_map. cbn [entry_at fst]. rewrite map_id. apply numbers_nodup.
  - intros n. split.
    + intros H. exists (entry_at first last (n / 8192)). split; [apply in_map, in_numbers; lia|apply entry_in; exact H].
    + intros (x & I & C). apply in_map_iff in I as (e & <- & I). apply (entry_out _ _ e). exact C.
Qed.
(** With overflow checks the last epoch is a panic. *)
Theorem C103_last_refuted : forall first last, 2 ^ 64 - 8192 <= last -> first <= last -> last < 2 ^ 64 -> block_range_to_epochs true first last = Panic.
Proof.
  intros first last L F M. unfold block_range_to_epochs.
  assert (G : forall es, In ((2 ^ 64 - 8192) / 8192) es -> (forall e, In e es -> e <= (2 ^ 64 - 8192) / 8192) -> all_ok (map (epoch_entry true first last) es) = Panic).
  { change ((2 ^ 64 - 8192) / 8192) with 2251799813685247. induction es as [|e es IH]; [intros []|]. intros I B. cbn [map all_ok]. unfold epoch_entry at 1. cbn [andb]. destruct (N.leb_spec (2 ^ 64) (e * 8192 + 8192)) as [X|X]; [reflexivity|].
    destruct I as [-> |I]; [exfalso; vm_compute in X; discriminate|]. rewrite IH; [destruct ((first <=? _) && _); reflexivity|exact I|]. intros e' I'. apply B. right. exact I'. }
  change (2 ^ 64) with 18446744073709551616 in *. apply G; [apply in_numbers|intros e I; apply in_numbers in I]; change ((18446744073709551616 - 8192) / 8192) with 2251799813685247; lia.
Qed.

(** The directory of the server is used only if it has the files from 0 on without a gap. *)
Theorem C103_directory : forall links keys, get_e2hs_files links = Ok keys -> (0 < length keys)%nat /\ NoDup keys /\ (forall n, In n keys <-> n < N.of_nat (length keys)) /\ exists l, links = Ok l /\ forall n, In n keys <-> In n l.
Proof.
  intros links keys H. unfold get_e2hs_files in H. apply obind_ok in H as (l & El & H). pose proof (NoDup_nodup N.eq_dec l) as Nd. pose proof (fun n => nodup_In N.eq_dec l n) as Nl. destruct (Nat.eqb_spec (length (nodup N.eq_dec l)) 0) as [Z|Z]; [discriminate|].
  destruct (forallb _ _) eqn:F; [|discriminate]. injection H as <-. set (keys := nodup N.eq_dec l) in *. split; [lia|]. split; [exact Nd|]. split; [|exists l; auto].
  assert (Inc : incl (numbers 0 (length keys)) keys). { intros n I. rewrite forallb_forall in F. specialize (F n I). destruct (in_dec N.eq_dec n keys); [assumption|discriminate]. }
  assert (Inc' : incl keys (numbers 0 (length keys))). { apply NoDup_length_incl; [apply numbers_nodup| |exact Inc]. rewrite Toy.len_numbers. lia. }
  intros n. split; intros I; [apply Inc', in_numbers in I; lia|apply Inc, in_numbers; lia].
Qed.
Definition directory (keys : list N) (count : N) : Prop := 0 < count /\ forall n, In n keys <-> n < count.
Lemma max_in : forall r k, In (fold_left N.max r k) (k :: r) /\ forall x, In x (k :: r) -> x <= fold_left N.max r k.
Proof.
  induction r as [|y r IH]; intros k; cbn [fold_left].
  - split; [left; reflexivity|]. intros x [-> |[]]. apply N.le_refl.
  - destruct (IH (N.max k y)) as [I B]. split.
    + destruct I as [I|I]; [|right; right; exact I]. rewrite <- I. destruct (N.max_spec k y) as [[_ ->]|[_ ->]]; [right; left; reflexivity|left; reflexivity].
    + intros x [-> |[-> |I']]; [etransitivity; [|apply (B _ (or_introl eq_refl))]; lia|etransitivity; [|apply (B _ (or_introl eq_refl))]; lia|apply B; right; exact I'].
Qed.
(** The last block of the range: the one given, or that of the last file *)
Definition ends (count : N) (last : option N) (stop : N) : Prop := match last with Some n => stop = n | None => stop + 1 = count * 8192 end.
Lemma range_ends keys count last stop : directory keys count -> range_end keys last = Ok stop <-> ends count last stop.
Proof.
  intros [C D]. destruct last as [n|]; cbn [range_end ends]; [split; [intros H; injection H as <-; reflexivity|intros ->; reflexivity]|].
  destruct keys as [|k r]; [exfalso; apply (proj2 (D 0)); exact C|]. destruct (max_in r k) as [I B]. apply D in I. assert (J : In (count - 1) (k :: r)) by (apply D; lia). apply B in J.
  split; [intros H; injection H as <-; lia|intros H; f_equal; lia].
Qed.

(** ** The script of the main loop *)
Section Loop.
Context {tx rct wdl : Type}.
Context (HC : codec full_header) (HL : codec (list full_header)) (TC : codec tx) (RC : codec rct) (WC : codec wdl).
Context (keccak : bytes -> bytes) (trie_root : list bytes -> bytes) (sha : bytes -> bytes) (fk : forks).
Context (debug : bool) (pre_merge_roots roots_acc : list bytes).
Context (hp_unpack : bytes -> option (full_header * header_proof)) (b_unpack : bytes -> option (@block_body tx wdl)) (r_unpack : bytes -> option (list rct)).
Notation block := (@tuple3 (full_header * header_proof) (@block_body tx wdl) (list rct)).
Notation launch := (launch HC HL TC RC WC keccak trie_root sha fk debug pre_merge_roots roots_acc hp_unpack b_unpack r_unpack).
Notation epoch_actions := (epoch_actions HC HL TC RC WC keccak trie_root sha fk pre_merge_roots roots_acc hp_unpack b_unpack r_unpack).
Notation block_actions := (block_actions HC HL TC RC WC keccak trie_root sha fk pre_merge_roots roots_acc).
Notation validate_block_tuple := (validate_block_tuple HC HL TC RC WC keccak trie_root sha fk pre_merge_roots roots_acc).
Notation iter_tuples := (iter_tuples hp_unpack b_unpack r_unpack).
Notation file_has := (file_has hp_unpack b_unpack r_unpack).
Notation served := (served hp_unpack b_unpack r_unpack).
Notation matching := (matching HL TC RC WC keccak trie_root).
Notation accepted_header := (@accepted_header tx rct wdl HC keccak sha fk pre_merge_roots roots_acc).
Notation in_chain := (@in_chain tx rct wdl HC keccak sha fk).
Notation content_of := (content_of HC HL TC RC WC keccak).
Notation block_msg := (block_msg HC HL TC RC WC keccak).
Notation num := (fun t : block => number (fst (u_header t))).
(** What the bridge requires of a block *)
Definition checked (t : block) : Prop := matching t /\ (from_summaries t \/ accepted_header t).

Lemma against_iff (t : block) : validate_against_header HL TC WC keccak trie_root (u_body t) (fst (u_header t)) = true <->
  same_uncles HL keccak (u_body t) (fst (u_header t)) /\ same_transactions TC trie_root (u_body t) (fst (u_header t)) /\ (withdrawals (u_body t) = None \/ same_withdrawals WC trie_root (u_body t) (fst (u_header t))).
Proof.
  unfold validate_against_header, same_uncles, same_transactions, same_withdrawals. split.
  - destruct (beqb (keccak _) _) eqn:A1; [|discriminate]. cbn [negb]. destruct (beqb (trie_root (map (enc TC) _)) _) eqn:A2; [|discriminate]. cbn [negb]. apply beqb_spec in A1, A2. intros A. split; [auto|]. split; [auto|].
    destruct (withdrawals (u_body t)) as [ws|]; [|left; reflexivity]. right. destruct (withdrawals_root _) as [e|]; [|discriminate]. apply beqb_spec in A. cbn. congruence.
  - intros (A1 & A2 & A3). rewrite A1, A2, !beqb_refl. cbn [negb]. destruct (withdrawals (u_body t)) as [ws|]; [|reflexivity]. destruct A3 as [A3|A3]; [discriminate|]. rewrite A3. cbn [option_map]. apply beqb_refl.
Qed.
Lemma validate_iff (t : block) : validate_block_tuple t = Ok tt <-> checked t.
Proof.
  unfold E2hsBridge_Model.validate_block_tuple, checked, E2hsBridge_Spec.matching. set (H := match snd (u_header t) with SummariesCapella _ | SummariesDeneb _ => Ok tt | _ => _ end).
  assert (Hh : H = Ok tt <-> from_summaries t \/ accepted_header t).
  { unfold H, from_summaries, E2hsBridge_Spec.accepted_header. change {| h_number := _; h_timestamp := _; h_hash := _ |} with (view HC keccak (fst (u_header t))). change {| pre_merge_acc := _; historical_roots := _; cache := _ |} with (new_validator pre_merge_roots roots_acc). destruct (snd (u_header t)); tauto. }
  pose proof (against_iff t) as Ha. destruct H as [[]| |]; cbn [obind].
  - destruct (validate_against_header _ _ _ _ _ _ _) eqn:A; cbn [negb].
    + destruct (beqb _ _) eqn:B.
      * apply beqb_spec in B. unfold receipts_trie_root in B. split; [|reflexivity]. intros _. destruct (proj1 Ha eq_refl) as (X & Y & Z). repeat (split; auto). apply Hh. reflexivity.
      * split; [discriminate|]. intros ((_ & _ & _ & R) & _). exfalso. unfold receipts_trie_root in B. rewrite R, beqb_refl in B. discriminate.
    + split; [discriminate|]. intros ((X & Y & Z & _) & _). assert (false = true) by (apply Ha; auto). discriminate.
  - split; [discriminate|]. intros [_ X]. apply Hh in X. discriminate.
  - split; [discriminate|]. intros [_ X]. apply Hh in X. discriminate.
Qed.
Lemma accepted_in_chain c t : (forall x, len32 (sha x)) -> (forall x, len32 (keccak x)) -> chain_ok c -> pre_merge_roots = map (epoch_root sha) (epochs c) -> roots_acc = map (batch_root sha) (batches c) -> accepted_header t -> in_chain c t.
Proof.
  intros S1 S2 Ck Ea Eb A P. unfold E2hsBridge_Spec.accepted_header in A. destruct (validate_header_with_proof _ _ _ _ _ _) as [v' r] eqn:V. cbn [snd] in A. subst r.
  refine (proof_backed HC keccak sha fk S1 S2 c _ (Some []) (fst (u_header t)) (snd (u_header t)) v' Ck _ _ P V).
  - rewrite Ea, Eb. constructor.
  - intros l El. injection El as <-. exists 0%nat. reflexivity.
Qed.
Lemma no_panic c (t : block) : pre_merge_roots = map (epoch_root sha) (epochs c) -> roots_acc = map (batch_root sha) (batches c) -> (paris_block fk - 1) / 8192 < blen (epochs c) ->
  match snd (u_header t) with HistoricalRoots q => slot q / 8192 < blen (batches c) | _ => True end -> validate_block_tuple t <> Panic.
Proof.
  intros Ea Eb Pe Ps. unfold E2hsBridge_Model.validate_block_tuple.
  assert (G : snd (validate_header_with_proof sha fk (new_validator pre_merge_roots roots_acc) (Some []) (view HC keccak (fst (u_header t))) (snd (u_header t))) <> Panic).
  { apply (C22_no_panic sha fk c); [unfold new_validator; rewrite Ea, Eb; constructor|exact Pe|exact Ps]. }
  destruct (match snd (u_header t) with SummariesCapella _ | SummariesDeneb _ => Ok tt | _ => _ end) as [[]| |] eqn:E; cbn [obind]; [|discriminate|].
  - destruct (validate_against_header _ _ _ _ _ _ _); cbn [negb]; [destruct (beqb _ _)|]; discriminate.
  - exfalso. destruct (snd (u_header t)); try discriminate; apply G, E.
Qed.

(** The iterator reads what the reader reads. *)
Lemma stream_read : forall n rest l r, read_tuples3 hp_unpack b_unpack r_unpack n rest = Ok (l, r) -> stream_tuples hp_unpack b_unpack r_unpack (N.to_nat n) rest = (l, true).
Proof.
  intros n rest. remember (length rest) as k eqn:K. revert n rest K. induction k as [k IH] using (well_founded_induction lt_wf). intros n rest K l r H.
  destruct rest as [|a [|b [|x rest]]]; cbn [read_tuples3] in H; destruct (N.eqb_spec n 0) as [->|Z]; try discriminate; try (injection H as <- <-; reflexivity).
  replace (N.to_nat n) with (S (N.to_nat (n - 1))) by lia. cbn [stream_tuples]. apply obind_ok in H as (t & -> & H). apply obind_ok in H as ([l' r'] & H & E). injection E as <- <-. cbn [fst]. rewrite (IH (length rest)) with (rest := rest) (r := r') (l := l'); [reflexivity|cbn in K; lia|reflexivity|exact H].
Qed.
Lemma read_iter buf x : e2hs_read hp_unpack b_unpack r_unpack buf = Ok x -> iter_tuples buf = Ok (hs_tuples x, true).
Proof.
  unfold e2hs_read, E2hsBridge_Model.iter_tuples. intros H. apply obind_ok in H as (es & -> & H). cbn [obind]. destruct (negb _); [discriminate|]. destruct es as [|e0 rest]; [discriminate|].
  apply obind_ok in H as (v & _ & H). apply obind_ok in H as (ix & -> & H). cbn [obind]. apply obind_ok in H as ([l r] & R & H). injection H as <-. cbn [hs_tuples fst]. rewrite (stream_read _ _ _ _ R). reflexivity.
Qed.

Lemma stream_in : forall n rest t, In t (fst (stream_tuples hp_unpack b_unpack r_unpack n rest)) -> exists pre a b c post, rest = pre ++ a :: b :: c :: post /\ tuple3_from hp_unpack b_unpack r_unpack a b c = Ok t.
Proof.
  induction n as [|n IH]; intros rest t H; [destruct H|]. cbn [stream_tuples] in H. destruct rest as [|a [|b [|c rest]]]; try (destruct H; fail). destruct (tuple3_from hp_unpack b_unpack r_unpack a b c) as [t'| |] eqn:F; try (destruct H; fail).
  specialize (IH rest t). destruct (stream_tuples _ _ _ n rest) as [l fine]. destruct H as [-> |H]; [exists [], a, b, c, rest; auto|]. destruct (IH H) as (pre & x & y & z & post & -> & E). exists (a :: b :: c :: pre), x, y, z, post. auto.
Qed.
Lemma spawned_app {T} (a b : list (action T)) : spawned (a ++ b) = spawned a ++ spawned b. Proof. apply flat_map_app. Qed.
(** What the loop does with the blocks of a file *)
Lemma block_script e range t x : In x (block_actions e range t) -> x = Spawn e t \/ x = Crash.
Proof. unfold E2hsBridge_Model.block_actions. destruct (match range with Some (a, b) => _ | None => false end); [intros []|]. destruct (validate_block_tuple t); [intros [I|[]]; auto|intros []|intros [I|[]]; auto]. Qed.
Lemma block_spawned e range t t' : In t' (spawned (block_actions e range t)) <-> t' = t /\ match range with Some (a, b) => a <= number (fst (u_header t)) <= b | None => True end /\ checked t.
Proof.
  unfold E2hsBridge_Model.block_actions. rewrite <- validate_iff. destruct range as [[a b]|].
  - destruct ((number (fst (u_header t)) <? a) || (b <? number (fst (u_header t)))) eqn:S.
    + split; [intros []|]. intros (_ & R & _). exfalso. apply Bool.orb_true_iff in S as [S|S]; lia.
    + apply Bool.orb_false_iff in S as [S1 S2]. destruct (validate_block_tuple t) as [[]| |]; cbn; split; try tauto; try (intros (_ & _ & X); discriminate). intros [<-|[]]. split; [reflexivity|]. split; [lia|reflexivity]. intros (-> & _). auto.
  - destruct (validate_block_tuple t) as [[]| |]; cbn; split; try tauto; try (intros (_ & _ & X); discriminate). intros [<-|[]]. auto. intros (-> & _). auto.
Qed.
Lemma epoch_script keys get e range x : In x (epoch_actions keys get e range) -> (exists t, x = Spawn e t) \/ x = Crash.
Proof.
  unfold E2hsBridge_Model.epoch_actions. destruct (in_dec _ _ _); [|intros [<-|[]]; auto]. destruct (obind _ _) as [[ts fine]| |]; try (intros [<-|[]]; auto).
  intros I. apply in_app_iff in I as [I|I]; [|destruct fine; [destruct I|destruct I as [<-|[]]; auto]]. apply in_flat_map in I as (t & _ & I). apply block_script in I as [->| ->]; eauto.
Qed.
Lemma epoch_spawned keys get e range t : In t (spawned (epoch_actions keys get e range)) -> match range with Some (a, b) => a <= number (fst (u_header t)) <= b | None => True end /\ checked t /\ served get e t.
Proof.
  unfold E2hsBridge_Model.epoch_actions. destruct (in_dec _ _ _); [|intros []]. destruct (obind _ _) as [[ts fine]| |] eqn:G; try (intros []). rewrite spawned_app, in_app_iff. intros [I|I]; [|destruct fine; destruct I].
  unfold spawned in I. apply in_flat_map in I as (a & Ia & I). apply in_flat_map in Ia as (t' & It & Ia). assert (Is : In t (spawned (block_actions e range t'))) by (apply in_flat_map; eauto). apply block_spawned in Is as (-> & R & C). split; [exact R|]. split; [exact C|].
  apply obind_ok in G as (buf & G & J). exists buf. unfold E2hsBridge_Model.iter_tuples in J. apply obind_ok in J as (es & E & J). exists es. destruct es as [|e0 rest]; [discriminate|]. apply obind_ok in J as (ix & _ & J). injection J as J.
  destruct (stream_in (N.to_nat (ix_count ix)) rest t') as (pre & x & y & z & post & -> & F); [rewrite J; exact It|]. exists (e0 :: pre), x, y, z, post. split; [exact G|]. split; [exact E|]. split; [reflexivity|exact F].
Qed.
Lemma epoch_file keys get e range ts : In e keys -> file_has get e ts -> epoch_actions keys get e range = flat_map (block_actions e range) ts.
Proof. intros K (buf & x & G & R & <-). unfold E2hsBridge_Model.epoch_actions. destruct (in_dec _ _ _); [|contradiction]. rewrite G. cbn [obind]. rewrite (read_iter _ _ R). apply app_nil_r. Qed.

(** The loop *)
Definition act_of (act : N -> option (N * N) -> list (action block)) (x : N * option (N * N)) := act (fst x) (snd x).
Lemma loop_spawned act : forall order prev, spawned (epoch_loop act prev order) = flat_map (fun x => spawned (act_of act x)) order.
Proof. induction order as [|[e range] r IH]; intros prev; cbn [epoch_loop flat_map]; rewrite !spawned_app; [destruct prev; reflexivity|]. rewrite IH. unfold act_of at 1. cbn [fst snd]. destruct prev; reflexivity. Qed.
Lemma loop_crash act : forall order prev, In Crash (epoch_loop act prev order) <-> exists x, In x order /\ In Crash (act_of act x).
Proof.
  induction order as [|[e range] r IH]; intros prev; cbn [epoch_loop]; rewrite !in_app_iff.
  - split; [|intros (x & [] & _)]. intros [I|[I|[]]]; [|discriminate]. destruct prev; [destruct I as [I|[]]; discriminate|destruct I].
  - rewrite IH. split.
    + intros [I|[I|(x & Ix & I)]]; [exists (e, range); split; [left; reflexivity|exact I]|destruct prev; [destruct I as [I|[]]; discriminate|destruct I]|exists x; split; [right; exact Ix|exact I]].
    + intros (x & [<-|Ix] & I); [left; exact I|right; right; exists x; auto].
Qed.
Lemma loop_report (act : N -> option (N * N) -> list (action block)) : forall order prev, In Report (epoch_loop act prev order).
Proof. induction order as [|[e range] r IH]; intros prev; cbn [epoch_loop]; rewrite !in_app_iff; [right; left; reflexivity|auto]. Qed.
Lemma loop_awaits (act : N -> option (N * N) -> list (action block)) : forall order prev, match prev with Some e => In (Await e) (epoch_loop act prev order) | None => True end.
Proof. destruct order as [|[e range] r]; intros [p|]; cbn [epoch_loop]; try exact I; rewrite !in_app_iff; [left; left; reflexivity|right; left; left; reflexivity]. Qed.
Lemma split_app {A} (x : A) : forall a b c d, a ++ b = c ++ x :: d -> (exists d', a = c ++ x :: d' /\ d = d' ++ b) \/ (exists c', c = a ++ c' /\ b = c' ++ x :: d).
Proof.
  induction a as [|y a IH]; intros b c d E; cbn in *; [right; exists c; auto|]. destruct c as [|z c]; cbn in E; injection E as -> E; [left; exists a; auto|]. destruct (IH _ _ _ E) as [(d' & -> & ->)|(c' & -> & ->)]; [left; exists d'; auto|right; exists c'; auto].
Qed.
Lemma loop_sound (act : N -> option (N * N) -> list (action block)) : (forall e range x, In x (act e range) -> (exists t, x = Spawn e t) \/ x = Crash) -> forall order prev, sound_script (epoch_loop act prev order).
Proof.
  intros Ha. assert (Hw : forall prev : option N, ~ exists c d e t, match prev with Some e => [Await e] | None => [] end = c ++ @Spawn block e t :: d) by (intros [p|] ([|? [|? ?]] & d & e & t & E); discriminate).
  assert (Hr : forall prev : option N, ~ exists c d, match prev with Some e => [Await e] | None => [] end = c ++ @Report block :: d) by (intros [p|] ([|? [|? ?]] & d & E); discriminate).
  induction order as [|[e range] r IH]; intros prev; split; cbn [epoch_loop].
  - intros a b e t E. apply split_app in E as [(d' & E & ->)|(c' & -> & E)]; [exfalso; apply (Hw prev); eauto|]. destruct c' as [|? [|? ?]]; discriminate.
  - intros a b E. apply split_app in E as [(d' & E & ->)|(c' & -> & E)]; [exfalso; apply (Hr prev); eauto|]. destruct c' as [|? [|? ?]]; try discriminate. injection E as <-. reflexivity.
  - intros a b e' t E. apply split_app in E as [(d' & E & ->)|(c' & -> & E)].
    + assert (X : In (Spawn e' t) (act e range)) by (rewrite E; apply in_or_app; right; left; reflexivity). apply Ha in X as [(t' & X)|X]; [|discriminate]. injection X as -> ->. rewrite !in_app_iff. right. right. exact (loop_awaits act r (Some e)).
    + apply split_app in E as [(d' & E & ->)|(c & -> & E)]; [exfalso; apply (Hw prev); eauto|]. destruct (IH (Some e)) as [S _]. exact (S _ _ _ _ E).
  - intros a b E. apply split_app in E as [(d' & E & ->)|(c' & -> & E)].
    + assert (X : In Report (act e range)) by (rewrite E; apply in_or_app; right; left; reflexivity). apply Ha in X as [(t' & X)|X]; discriminate.
    + apply split_app in E as [(d' & E & ->)|(c & -> & E)]; [exfalso; apply (Hr prev); eauto|]. destruct (IH (Some e)) as [_ S]. exact (S _ _ E).
Qed.
Lemma launch_inv keys count get first last shuffle todo : directory keys count -> (forall l, Permutation (shuffle l) l) -> launch keys get first last shuffle = Ok todo ->
  exists stop order, ends count last stop /\ (forall x, In x order <-> exists e, first / 8192 <= e <= stop / 8192 /\ x = entry_at first stop e) /\ NoDup (map fst order) /\ todo = epoch_loop (epoch_actions keys get) None order.
Proof.
  intros D Hs H. unfold E2hsBridge_Model.launch in H. apply obind_ok in H as (stop & Es & H). apply (range_ends keys count) in Es; [|exact D]. unfold omap in H. destruct (block_range_to_epochs debug first stop) as [l| |] eqn:B; try discriminate. injection H as <-.
  exists stop, (shuffle l). split; [exact Es|]. pose proof (epochs_ok _ _ _ _ B) as El. split; [|split; [|reflexivity]].
  - intros x. split.
    + intros I. apply (Permutation_in x (Hs l)) in I. rewrite El in I. apply in_map_iff in I as (e & <- & I). exists e. apply in_numbers in I. split; [lia|reflexivity].
    + intros (e & R & ->). apply (Permutation_in _ (Permutation_sym (Hs l))). rewrite El. apply in_map, in_numbers. lia.
  - apply (Permutation_NoDup (Permutation_map fst (Permutation_sym (Hs l)))). rewrite El, map_map. cbn [entry_at fst]. rewrite map_id. apply numbers_nodup.
Qed.
Lemma launch_sound keys get first last shuffle todo : launch keys get first last shuffle = Ok todo -> sound_script todo /\ In Report todo.
Proof.
  intros H. unfold E2hsBridge_Model.launch in H. apply obind_ok in H as (stop & _ & H). unfold omap in H. destruct (block_range_to_epochs debug first stop) as [l| |]; try discriminate. injection H as <-. split; [|apply loop_report].
  apply loop_sound. intros e range x. apply epoch_script.
Qed.

(** ** The blocks of the range *)
(** With the files of the range, and with blocks that have the numbers of their files, the bridge spawns a task for every block in the range whose parts
    and whose proof are right, for no other, and for none twice; and nothing stops it. *)
Theorem C103_blocks : forall c keys count get first last stop shuffle file,
  directory keys count -> (forall l, Permutation (shuffle l) l) -> ends count last stop -> stop < count * 8192 -> stop < 2 ^ 64 - 8192 ->
  pre_merge_roots = map (epoch_root sha) (epochs c) -> roots_acc = map (batch_root sha) (batches c) -> (paris_block fk - 1) / 8192 < blen (epochs c) ->
  (forall e, first / 8192 <= e <= stop / 8192 -> file_has get e (file e) /\ NoDup (map num (file e)) /\
    forall t, In t (file e) -> number (fst (u_header t)) / 8192 = e /\ match snd (u_header t) with HistoricalRoots q => slot q / 8192 < blen (batches c) | _ => True end) ->
  exists todo, launch keys get first last shuffle = Ok todo /\ ~ In Crash todo /\ NoDup (map num (spawned todo)) /\
    forall t, In t (spawned todo) <-> first <= number (fst (u_header t)) <= stop /\ In t (file (number (fst (u_header t)) / 8192)) /\ checked t.
Proof.
  intros c keys count get first last stop shuffle file D Hs En Lc L64 Ea Eb Pe Hf.
  destruct (C103_epochs debug first stop) as (l & El & _); [lia|right; exact L64|].
  assert (La : exists todo, launch keys get first last shuffle = Ok todo). { unfold E2hsBridge_Model.launch. apply (range_ends keys count last stop D) in En. rewrite En. cbn [obind]. rewrite El. cbn [omap]. eauto. }
  destruct La as (todo & La). exists todo. split; [exact La|]. destruct (launch_inv _ _ _ _ _ _ _ D Hs La) as (stop' & order & En' & Ho & Nd & ->).
  assert (stop' = stop) by (destruct last; cbn [ends] in *; lia). subst stop'.
  assert (Ha : forall e, first / 8192 <= e <= stop / 8192 -> act_of (epoch_actions keys get) (entry_at first stop e) = flat_map (block_actions e (snd (entry_at first stop e))) (file e)).
  { intros e R. destruct (Hf e R) as [F _]. unfold act_of. change (fst (entry_at first stop e)) with e. apply epoch_file; [apply D; lia|exact F]. }
  assert (Hb : forall e, first / 8192 <= e <= stop / 8192 -> forall t, In t (spawned (act_of (epoch_actions keys get) (entry_at first stop e))) <-> In t (file e) /\ entry_covers (entry_at first stop e) (number (fst (u_header t))) /\ checked t).
  { intros e R t. rewrite (Ha e R). unfold spawned. rewrite in_flat_map. destruct (Hf e R) as (_ & _ & Hn). split.
    - intros (a & Ia & I). apply in_flat_map in Ia as (t' & It & Ia). assert (Is : In t (spawned (block_actions e (snd (entry_at first stop e)) t'))) by (apply in_flat_map; eauto). apply block_spawned in Is as (-> & Rg & Ck). split; [exact It|]. split; [|exact Ck]. split; [apply Hn; exact It|exact Rg].
    - intros (It & [_ Rg] & Ck). assert (Is : In t (spawned (block_actions e (snd (entry_at first stop e)) t))) by (apply block_spawned; auto). apply in_flat_map in Is as (a & Ia & I). exists a. split; [apply in_flat_map; eauto|exact I]. }
  split; [|split].
  - rewrite loop_crash. intros (x & Ix & I). apply Ho in Ix as (e & R & ->). rewrite (Ha e R) in I. apply in_flat_map in I as (t & It & I). unfold E2hsBridge_Model.block_actions in I. destruct (match snd _ with Some (a, b) => _ | None => false end); [destruct I|].
    pose proof (no_panic c t Ea Eb Pe (proj2 (proj2 (proj2 (Hf e R)) t It))) as Np. destruct (validate_block_tuple t); [destruct I as [I|[]]; discriminate|destruct I|contradiction].
  - rewrite loop_spawned. clear La. revert Nd Ho. assert (G : forall order, NoDup (map fst order) -> (forall x, In x order -> exists e, first / 8192 <= e <= stop / 8192 /\ x = entry_at first stop e) -> NoDup (map num (flat_map (fun x => spawned (act_of (epoch_actions keys get) x)) order))).
    { clear - Ha Hb Hf. induction order as [|x order IH]; intros Nd Ho; [constructor|]. cbn [flat_map]. rewrite map_app. cbn [map] in Nd. apply NoDup_cons_iff in Nd as [Nx Nd].
      destruct (Ho x (or_introl eq_refl)) as (e & R & ->). destruct (Hf e R) as (_ & Nf & _).
      assert (A : NoDup (map num (spawned (act_of (epoch_actions keys get) (entry_at first stop e))))).
      { rewrite (Ha e R). clear IH. revert Nf. generalize (file e). intros fe. induction fe as [|t ts IH]; [constructor|]. intros Nf. cbn [flat_map]. rewrite spawned_app, map_app. cbn [map] in Nf. apply NoDup_cons_iff in Nf as [Nt Nf]. specialize (IH Nf).
        assert (S : spawned (block_actions e (snd (entry_at first stop e)) t) = [] \/ spawned (block_actions e (snd (entry_at first stop e)) t) = [t]).
        { unfold E2hsBridge_Model.block_actions. destruct (match snd _ with Some (a, b) => _ | None => false end); [left; reflexivity|]. destruct (validate_block_tuple t); auto. }
        destruct S as [-> | ->]; [exact IH|]. cbn [map app]. constructor; [|exact IH]. intros I. apply Nt. apply in_map_iff in I as (t' & E & I). apply in_map_iff. exists t'. split; [exact E|].
        unfold spawned in I. apply in_flat_map in I as (a & Ia & I). apply in_flat_map in Ia as (t2 & I2 & Ia). assert (Is : In t' (spawned (block_actions e (snd (entry_at first stop e)) t2))) by (apply in_flat_map; eauto). apply block_spawned in Is as (-> & _). exact I2. }
      assert (B : NoDup (map num (flat_map (fun x => spawned (act_of (epoch_actions keys get) x)) order))) by (apply IH; [exact Nd|intros x I; apply Ho; right; exact I]).
      assert (Dj : forall n, In n (map num (spawned (act_of (epoch_actions keys get) (entry_at first stop e)))) -> ~ In n (map num (flat_map (fun x => spawned (act_of (epoch_actions keys get) x)) order))).
      { intros n I J. apply in_map_iff in I as (t & <- & I). apply in_map_iff in J as (t' & En & J). apply in_flat_map in J as (x & Ix & J). destruct (Ho x (or_intror Ix)) as (e' & R' & ->).
        apply (Hb e R) in I as (_ & [C _] & _). apply (Hb e' R') in J as (_ & [C' _] & _). cbn [entry_at fst] in C, C'. rewrite En in C'. apply Nx. apply in_map_iff. exists (entry_at first stop e'). split; [cbn [entry_at fst]; congruence|exact Ix]. }
      clear - A B Dj. induction (map num (spawned (act_of (epoch_actions keys get) (entry_at first stop e)))) as [|n l IH]; [exact B|]. cbn [app]. apply NoDup_cons_iff in A as [A1 A2]. constructor.
      - intros I. apply in_app_iff in I as [I|I]; [contradiction|exact (Dj n (or_introl eq_refl) I)].
      - apply IH; [exact A2|]. intros m I. apply Dj. right. exact I. }
    intros Nd Ho. apply G; [exact Nd|]. intros x I. apply Ho. exact I.
  - intros t. rewrite loop_spawned, in_flat_map. split.
    + intros (x & Ix & I). apply Ho in Ix as (e & R & ->). apply (Hb e R) in I as (It & C & Ck). split; [apply (entry_out _ _ e); exact C|]. destruct C as [Ee _]. cbn [entry_at fst] in Ee. rewrite Ee. auto.
    + intros (Rg & It & Ck). set (e := number (fst (u_header t)) / 8192) in *. assert (R : first / 8192 <= e <= stop / 8192) by (unfold e; lia). exists (entry_at first stop e). split; [apply Ho; eauto|]. apply (Hb e R). split; [exact It|]. split; [apply entry_in; exact Rg|exact Ck].
Qed.

(** ** What is offered *)
(** Whatever the servers send and in whatever order the tasks run: only the four contents of blocks are offered, the blocks have the body and the receipts that
    their headers commit to, and the headers that need no summaries are in the chain.  A block outside of the range can only be
    offered if its file is that of an epoch wholly in the range. *)
Theorem C103_valid : forall keys count get first last shuffle todo limit (P : Type) (ops : list (op P)) g tr, directory keys count -> (forall l, Permutation (shuffle l) l) ->
  launch keys get first last shuffle = Ok todo -> run block_msg limit todo ops = Some (g, tr) ->
  forall i w p k v, In (Offered i w p k v) tr -> exists t, nth_error (spawned todo) i = Some t /\ content_of t w k v /\ matching t /\
    (from_summaries t \/ accepted_header t /\ forall c, (forall x, len32 (sha x)) -> (forall x, len32 (keccak x)) -> chain_ok c -> pre_merge_roots = map (epoch_root sha) (epochs c) -> roots_acc = map (batch_root sha) (batches c) -> in_chain c t) /\
    exists e stop, ends count last stop /\ first / 8192 <= e <= stop / 8192 /\ served get e t /\ (first <= number (fst (u_header t)) <= stop \/ first <= e * 8192 /\ e * 8192 + 8191 <= stop).
Proof.
  intros keys count get first last shuffle todo limit P ops g tr D Hs La R i w p k v I. destruct (run_messages _ _ _ _ _ _ R i w p k v I) as (Lw & t & Nt & M). destruct (run_script _ _ _ _ _ _ R) as (rest & Sp & _).
  assert (Ni : nth_error (spawned todo) i = Some t). { rewrite Sp, nth_error_app1; [exact Nt|]. apply nth_error_Some. rewrite Nt. discriminate. }
  exists t. split; [exact Ni|].
  assert (Mc : content_of t w k v). { assert (W' : (w = 0 \/ w = 1 \/ w = 2 \/ w = 3)%nat) by lia. destruct W' as [-> |[-> |[-> | ->]]]; cbn in M; injection M as <- <-; split; reflexivity. }
  destruct (launch_inv _ _ _ _ _ _ _ D Hs La) as (stop & order & En & Ho & _ & ->). apply nth_error_In in Ni. rewrite loop_spawned in Ni. apply in_flat_map in Ni as (x & Ix & Ni). apply Ho in Ix as (e & Re & ->).
  apply epoch_spawned in Ni as (Rg & (Ma & Ac) & Sv). split; [exact Mc|]. split; [exact Ma|]. split.
  { destruct Ac as [Ac|Ac]; [left; exact Ac|right]. split; [exact Ac|]. intros c S1 S2 Ck Ea Eb. apply accepted_in_chain; auto. }
  exists e, stop. split; [exact En|]. split; [exact Re|]. split; [exact Sv|]. cbn [entry_at snd fst] in Rg. destruct ((first <=? e * 8192) && (e * 8192 + 8191 <=? stop)) eqn:B; [apply andb_prop in B as [B1 B2]; right|left]; lia.
Qed.

(** The bodies, the receipts and the headers by number of a block are offered only when the header by hash has been offered to all peers selected for it
    and all these offers are over. *)
Theorem C103_order : forall keys get first last shuffle todo limit (P : Type) (ops : list (op P)) g tr, launch keys get first last shuffle = Ok todo -> run block_msg limit todo ops = Some (g, tr) ->
  forall a i w p k v b, tr = a ++ Offered i w p k v :: b -> w <> 0%nat -> completed i 0 a.
Proof. intros keys get first last shuffle todo limit P ops g tr _ R a i w p k v b E W. apply (run_first _ _ _ _ _ _ R a (Offered i w p k v) b i w E); [reflexivity|exact W]. Qed.

(** At no time are there more offers without an answer than the limit, or more blocks begun and not completed. *)
Theorem C103_limits : forall keys get first last shuffle todo limit (P : Type) (ops : list (op P)) g tr, launch keys get first last shuffle = Ok todo -> run block_msg limit todo ops = Some (g, tr) ->
  forall a b, tr = a ++ b -> (offers a <= length (answers a) + limit)%nat /\
    forall is, NoDup is -> (forall i, In i is -> chosen i 0 a <> [] /\ exists w, (w <= 3)%nat /\ ~ completed i w a) -> (length is <= limit)%nat.
Proof.
  intros keys get first last shuffle todo limit P ops g tr _ R a b E. destruct (run_prefix _ _ _ _ _ _ R a b E) as (ops1 & g1 & R1). split; [destruct (run_counts _ _ _ _ _ _ R1) as (X & Y & _); lia|].
  intros is Nd H. pose proof (run_active _ _ _ _ _ _ R1) as A. unfold active in A. etransitivity; [|exact A]. apply count_le; [exact Nd|]. intros i I. destruct (H i I) as (C & w & W & Nw).
  pose proof (run_told _ _ _ _ _ _ R1 i 0%nat) as Td. destruct (nth_error (g_tasks g1) i) as [t|] eqn:N; [|unfold content_at in Td; rewrite N in Td; destruct Td as (Td & _); contradiction].
  exists t. split; [reflexivity|]. destruct (tk_done t) eqn:Dn; [|reflexivity]. exfalso. apply Nw. apply (run_completed _ _ _ _ _ _ R1). rewrite (at_task _ _ _ _ N). apply (shaped_done block_msg); [apply (run_shaped _ _ _ _ _ _ R1); eapply nth_error_In; exact N|exact Dn|exact W].
Qed.

(** A report is made once, at the end, when every block has been offered with all four contents to all peers selected for them; it counts all answers. *)
Theorem C103_complete : forall keys get first last shuffle todo limit (P : Type) (ops : list (op P)) g tr, launch keys get first last shuffle = Ok todo -> run block_msg limit todo ops = Some (g, tr) ->
  forall c, In (Reported c) tr -> c = counts tr /\ (exists tr', tr = tr' ++ [Reported c] /\ ~ In Crashed tr') /\ forall i w, (i < length (spawned todo))%nat -> (w <= 3)%nat -> completed i w tr.
Proof.
  intros keys get first last shuffle todo limit P ops g tr La R c I. destruct (launch_sound _ _ _ _ _ _ La) as (Ss & _). destruct (run_reported _ _ _ _ _ _ Ss R c I) as (E & Dn & Ec & Nc & tr' & Et). split; [exact Ec|].
  split; [exists tr'; split; [exact Et|]; intros J; apply Nc; rewrite Et; apply in_or_app; left; exact J|]. intros i w Li Lw.
  destruct (run_script _ _ _ _ _ _ R) as (rest & Sp & Sc & _). destruct (Sc Nc) as (-> & _). rewrite E in Sp. cbn [spawned flat_map] in Sp. rewrite !app_nil_r in Sp. rewrite Sp, map_length in Li.
  destruct (nth_error (g_tasks g) i) as [t|] eqn:N; [|apply nth_error_None in N; lia]. apply (run_completed _ _ _ _ _ _ R). rewrite (at_task _ _ _ _ N). pose proof (nth_error_In _ _ N) as It. apply (shaped_done block_msg); [apply (run_shaped _ _ _ _ _ _ R); exact It|apply Dn; exact It|exact Lw].
Qed.
(** If the files are good the bridge gets there: with a limit above 0 there is always a next step until the report, *)
Theorem C103_progress : forall keys get first last shuffle todo limit (P : Type) (ops : list (op P)) g tr, launch keys get first last shuffle = Ok todo -> ~ In Crash todo -> (0 < limit)%nat -> run block_msg limit todo ops = Some (g, tr) ->
  (exists c, In (Reported c) tr) \/ exists o g' tr', run block_msg limit todo (ops ++ [o]) = Some (g', tr').
Proof.
  intros keys get first last shuffle todo limit P ops g tr La Nc Ll R. destruct (launch_sound _ _ _ _ _ _ La) as (Ss & Rp). destruct (run_passed _ _ _ _ _ _ R) as (Cr & Pa). destruct (can_step block_msg limit g Ll (run_shaped _ _ _ _ _ _ R)) as [(E & _)|(o & g' & ev & S)].
  - left. destruct Pa as (pre & Ep & _ & Pr); [intros I; apply Nc, Cr, I|]. apply Pr. rewrite E, app_nil_r in Ep. rewrite <- Ep. exact Rp.
  - right. exists o, g', (tr ++ ev). rewrite run_snoc, R. cbn [next]. rewrite S. reflexivity.
Qed.
(** and there are not more steps than there are blocks, epochs and selected peers. *)
Theorem C103_steps : forall keys get first last shuffle todo limit (P : Type) (ops : list (op P)) g tr, launch keys get first last shuffle = Ok todo -> run block_msg limit todo ops = Some (g, tr) ->
  (length ops <= 8 * length todo + 2 * selections tr)%nat.
Proof.
  intros keys get first last shuffle todo limit P ops g tr _ R. pose proof (run_length _ _ _ _ _ _ R) as L. assert (G : (list_sum (map (@todo_cost block) todo) <= 8 * length todo)%nat) by (clear; induction todo as [|a l IH]; [cbn; lia|]; change (list_sum (map (@todo_cost block) (a :: l))) with (todo_cost a + list_sum (map (@todo_cost block) l))%nat; cbn [length]; destruct a; cbn [todo_cost]; lia). lia.
Qed.

(** ** What goes wrong *)
(** With a limit of 0 no block is ever gossiped and no report is made. *)
Theorem C103_zero_refuted : forall keys get first last shuffle todo (P : Type) (ops : list (op P)) g tr, launch keys get first last shuffle = Ok todo -> spawned todo <> [] -> run block_msg 0 todo ops = Some (g, tr) ->
  offers tr = 0%nat /\ forall c, ~ In (Reported c) tr.
Proof.
  intros keys get first last shuffle todo P ops g tr La Ns R. pose proof (run_nothing block_msg 0 todo ops g tr eq_refl R) as Z. destruct (launch_sound _ _ _ _ _ _ La) as (Ss & _). split.
  - destruct (run_counts _ _ _ _ _ _ R) as (X & Y & _). pose proof (run_messages _ _ _ _ _ _ R) as M. destruct (offers tr) as [|k] eqn:O; [reflexivity|]. exfalso. destruct (sum_pos (fun e : event P => match e with Offered _ _ _ _ _ => 1%nat | _ => 0%nat end) tr) as (i & y & N & F); [unfold offers in O; lia|].
    destruct y as [| j w p kk v | | |]; cbn in F; try lia. destruct (M j w p kk v (nth_error_In _ _ N)) as (_ & b & Nb & _). rewrite Z in Nb. destruct j; discriminate.
  - intros c I. destruct (run_reported _ _ _ _ _ _ Ss R c I) as (E & _ & _ & Nc & _). destruct (run_script _ _ _ _ _ _ R) as (rest & Sp & Sc & _). destruct (Sc Nc) as (-> & _). rewrite E, Z in Sp. exact (Ns Sp).
Qed.
(** A range that goes past the last file stops the main loop: there is never a report. *)
Theorem C103_missing_refuted : forall keys count get first stop shuffle todo limit (P : Type) (ops : list (op P)) g tr, directory keys count -> (forall l, Permutation (shuffle l) l) -> launch keys get first (Some stop) shuffle = Ok todo ->
  first <= stop -> count * 8192 <= stop -> run block_msg limit todo ops = Some (g, tr) -> In Crash todo /\ forall c, ~ In (Reported c) tr.
Proof.
  intros keys count get first stop shuffle todo limit P ops g tr D Hs La Lf Lc R. destruct (launch_sound _ _ _ _ _ _ La) as (Ss & _).
  assert (Cr : In Crash todo).
  { destruct (launch_inv _ _ _ _ _ _ _ D Hs La) as (stop' & order & En & Ho & _ & ->). cbn [ends] in En. subst stop'. apply loop_crash. exists (entry_at first stop (stop / 8192)). split; [apply Ho; exists (stop / 8192); split; [lia|reflexivity]|].
    unfold act_of. cbn [entry_at fst]. unfold E2hsBridge_Model.epoch_actions. destruct (in_dec _ _ _) as [I|I]; [|left; reflexivity]. apply D in I. lia. }
  split; [exact Cr|]. intros c I. destruct (run_reported _ _ _ _ _ _ Ss R c I) as (E & _ & _ & Nc & _). destruct (run_passed _ _ _ _ _ _ R) as (_ & Pa). destruct (Pa Nc) as (pre & Ep & Np & _). rewrite E, app_nil_r in Ep. apply Np. rewrite <- Ep. exact Cr.
Qed.
Lemma file_spawned keys count get first last stop shuffle todo e ts t : directory keys count -> (forall l, Permutation (shuffle l) l) -> launch keys get first last shuffle = Ok todo -> ends count last stop -> In e keys -> first / 8192 <= e <= stop / 8192 ->
  file_has get e ts -> In t ts -> checked t -> (match snd (entry_at first stop e) with Some (a, b) => a <= number (fst (u_header t)) <= b | None => True end) -> In t (spawned todo).
Proof.
  intros D Hs La En Ie Re F It Ck Rg. destruct (launch_inv _ _ _ _ _ _ _ D Hs La) as (stop' & order & En' & Ho & _ & ->). assert (stop' = stop) by (destruct last; cbn [ends] in *; lia). subst stop'.
  rewrite loop_spawned. apply in_flat_map. exists (entry_at first stop e). split; [apply Ho; eauto|]. unfold act_of. change (fst (entry_at first stop e)) with e. rewrite (epoch_file _ _ _ _ _ Ie F).
  assert (Is : In t (spawned (block_actions e (snd (entry_at first stop e)) t))) by (apply block_spawned; auto). apply in_flat_map in Is as (a & Ia & I). apply in_flat_map. exists a. split; [apply in_flat_map; eauto|exact I].
Qed.
(** A server can have any header with a time after Capella gossiped: there is a proof of the right form that shows nothing, which the bridge does not look at.
    The body and the receipts need only match the header. *)
Theorem C103_unproved_refuted : forall (h : full_header) (b : @block_body tx wdl) (r : list rct), exists p, proof_ok p /\ (forall c, ~ backed sha fk c (number h) (timestamp h) (keccak (enc HC h)) p) /\
  (matching (mk_tuple3 (h, p) b r) -> forall keys count get first last stop shuffle todo e ts, directory keys count -> (forall l, Permutation (shuffle l) l) -> launch keys get first last shuffle = Ok todo -> ends count last stop -> In e keys ->
    file_has get e ts -> In (mk_tuple3 (h, p) b r) ts -> first <= number h <= stop -> e = number h / 8192 -> In (mk_tuple3 (h, p) b r) (spawned todo)).
Proof.
  intros h b r. set (q := {| beacon_block_proof := repeat (repeat 0 32) 13; beacon_block_root := repeat 0 32; execution_block_proof := repeat (repeat 0 32) 11; slot := 0 |}). exists (SummariesCapella q).
  assert (Z : hash32 (repeat 0 32)) by (split; [reflexivity|apply Forall_forall; intros x I; apply repeat_spec in I as ->; reflexivity]).
  assert (Fz : forall n, Forall hash32 (repeat (repeat 0 32) n)) by (intros n; apply Forall_forall; intros x I; apply repeat_spec in I as ->; exact Z).
  split; [split; [split; reflexivity|]; split; [apply Fz|]; split; [exact Z|]; split; [apply Fz|reflexivity]|]. split.
  - intros c (_ & L & _). vm_compute in L. apply L. reflexivity.
  - intros M keys count get first last stop shuffle todo e ts D Hs La En Ie F It Rg Ee. apply (file_spawned keys count get first last stop shuffle todo e ts); auto; [subst e; lia|split; [exact M|left; exact I]|].
    subst e. destruct (entry_in first stop (number h) Rg) as [_ X]. exact X.
Qed.
(** In an epoch that is wholly in the range, a block is gossiped whatever its number: also one that is not in the range. *)
Theorem C103_outside_refuted : forall keys count get first last stop shuffle todo e ts t, directory keys count -> (forall l, Permutation (shuffle l) l) -> launch keys get first last shuffle = Ok todo -> ends count last stop -> In e keys ->
  first <= e * 8192 -> e * 8192 + 8191 <= stop -> file_has get e ts -> In t ts -> checked t -> In t (spawned todo).
Proof.
  intros keys count get first last stop shuffle todo e ts t D Hs La En Ie L1 L2 F It Ck. apply (file_spawned keys count get first last stop shuffle todo e ts); auto; [lia|].
  cbn [entry_at snd]. replace ((first <=? e * 8192) && (e * 8192 + 8191 <=? stop)) with true by (symmetry; apply andb_true_intro; split; lia). exact I.
Qed.

(** ** What the nodes make of it *)
(** The offered contents of a block with all its withdrawals are accepted by every node with the same accumulators, the body and the receipts if the node finds the header. *)
Theorem C103_accepted : proper HC -> proper HL -> proper TC -> proper RC -> proper WC -> forall t w k v n source get,
  checked t -> content_of t w k v -> pre_merge_acc n = pre_merge_roots -> historical_roots n = roots_acc ->
  match w with
  | 0%nat | 1%nat => legacy_value_ok HC HL TC RC WC fk k (VHeader (u_header t)) /\ ~ from_summaries t
  | 2%nat => legacy_value_ok HC HL TC RC WC fk k (VBody (u_body t)) /\ same_withdrawals WC trie_root (u_body t) (fst (u_header t)) /\ find_header HC HL TC RC WC fk get (keccak (enc HC (fst (u_header t)))) = Ok (fst (u_header t))
  | _ => legacy_value_ok HC HL TC RC WC fk k (VReceipts (u_receipts t)) /\ find_header HC HL TC RC WC fk get (keccak (enc HC (fst (u_header t)))) = Ok (fst (u_header t))
  end -> snd (validate_legacy HC HL TC RC WC keccak trie_root sha fk n source get k v) = Ok CanonicallyValid.
Proof.
  intros PHC PHL PTC PRC PWC t w k v n source get [(M1 & M2 & M3 & M4) Ac] Co En Er H.
  assert (Ah : (w = 0 \/ w = 1)%nat -> legacy_value_ok HC HL TC RC WC fk k (VHeader (u_header t)) -> ~ from_summaries t ->
    snd (validate_legacy HC HL TC RC WC keccak trie_root sha fk n source get k (header_value HC (fst (u_header t)) [] (snd (u_header t)))) = Ok CanonicallyValid).
  { intros W OK Ns. destruct Ac as [Ac|Ac]; [contradiction|]. unfold E2hsBridge_Spec.accepted_header in Ac.
    assert (V : snd (validate_header_with_proof sha fk n source {| h_number := number (fst (u_header t)); h_timestamp := timestamp (fst (u_header t)); h_hash := keccak (enc HC (fst (u_header t))) |} (snd (u_header t))) = Ok tt).
    { unfold from_summaries in Ns. destruct (snd (u_header t)); try tauto; cbn [validate_header_with_proof snd] in *; unfold verify_pre_merge_header, verify_merge_to_capella_header, verify_historical_roots_proof in *; cbn [pre_merge_acc historical_roots] in *; rewrite ?En, ?Er; exact Ac. }
    destruct (validate_header_with_proof sha fk n source _ (snd (u_header t))) as [n' x] eqn:E. cbn [snd] in V. subst x.
    assert (O : blen (enc HC (fst (u_header t))) <= 2048 /\ LegacyHistory_Spec.era fk (fst (u_header t)) (snd (u_header t)) /\ proof_ok (snd (u_header t))).
    { destruct W as [-> | ->]; destruct Co as [-> _]; cbn [legacy_value_ok] in OK; destruct (u_header t); exact OK. }
    destruct O as (O1 & O2 & O3). destruct (C52_honest_header HC HL TC RC WC keccak trie_root sha fk PHC n source get _ _ n' O1 O2 O3 E) as [X Y]. destruct W as [-> | ->]; destruct Co as [-> _]; [rewrite X|rewrite Y]; reflexivity. }
  assert (Hv : (w = 0 \/ w = 1)%nat -> legacy_value_ok HC HL TC RC WC fk k (VHeader (u_header t)) -> forall v, legacy_encode HC HL TC RC WC (VHeader (u_header t)) = Ok v -> v = header_value HC (fst (u_header t)) [] (snd (u_header t))).
  { intros W OK v' E. assert (O : blen (enc HC (fst (u_header t))) <= 2048) by (destruct W as [-> | ->]; destruct Co as [-> _]; cbn [legacy_value_ok] in OK; destruct (u_header t); apply OK).
    injection E as <-. unfold encode_hwp, header_value, encode_header, encode_proof. rewrite app_nil_r, firstn_all2 by (unfold blen in O; lia). destruct (snd (u_header t)); rewrite ?enc_block_proof; reflexivity. }
  destruct w as [|[|[|[|w]]]]; [| | | |destruct Co].
  - destruct H as [H1 H2]. rewrite (Hv ltac:(auto) H1 v (proj2 Co)). apply Ah; auto.
  - destruct H as [H1 H2]. rewrite (Hv ltac:(auto) H1 v (proj2 Co)). apply Ah; auto.
  - destruct H as (H1 & H2 & H3). destruct Co as [-> Co]. rewrite (C52_honest_body HC HL TC RC WC keccak trie_root sha fk PHC PHL PTC PRC PWC n source get _ (fst (u_header t)) (u_body t) v H3 (conj M1 (conj M2 H2)) H1 Co). reflexivity.
  - destruct H as (H1 & H3). destruct Co as [-> Co]. rewrite (C52_honest_receipts HC HL TC RC WC keccak trie_root sha fk PHC PHL PTC PRC PWC n source get _ (fst (u_header t)) (u_receipts t) v H3 (eq_sym M4) H1 Co). reflexivity.
Qed.
End Loop.

(** ** Examples *)
(** Two blocks are gossiped with a limit of 2; for the second one the peers are others.  One offer is declined and one fails. *)
Module Sched.
Definition msg (t w : nat) : legacy_key * bytes := (BlockHeaderByNumber (N.of_nat (10 * t + w)), [N.of_nat w]).
Definition todo : list (action nat) := [Spawn 3 5%nat; Spawn 3 6%nat; Await 3; Report].
Definition ops : list (op nat) := [
  Main; Begin 0 0 [1; 2]%nat; Send 0 0; Main; Send 0 0; Begin 1 0 [3]%nat; Answer 0 0 1 (Some Accepted); Send 1 0; Answer 0 0 0 None; Next 0; Answer 1 0 0 (Some Accepted); Wake 0; Next 1; Begin 0 2 []; Begin 0 1 []; Begin 0 3 [9]%nat; Send 0 3;
  Answer 0 3 0 (Some AlreadyStored); Done 0; Wake 1; Begin 1 3 []; Begin 1 1 []; Begin 1 2 [4]%nat; Send 1 2; Answer 1 2 0 (Some Accepted); Done 1; Main; Main].
Definition result := run msg 2 todo ops.
End Sched.
Example C103_schedule_example : exists g tr, Sched.result = Some (g, tr) /\ In (Reported {| accepted := 3; declined := 1; failed := 1 |}) tr /\ In (Offered 1 2 4%nat (BlockHeaderByNumber 62) [2]) tr /\ offers tr = 5%nat /\
  (* a third offer, a body before the header by hash is through, and a report before the tasks are done: not possible *)
  run Sched.msg 2 Sched.todo (firstn 6 Sched.ops ++ [Send 1 0]) = None /\ run Sched.msg 2 Sched.todo (firstn 9 Sched.ops ++ [Wake 0]) = None /\ run Sched.msg 2 Sched.todo (firstn 26 Sched.ops) <> None /\ run Sched.msg 2 Sched.todo (firstn 25 Sched.ops ++ [Main]) = None.
Proof. destruct Sched.result as [[g tr]|] eqn:E; [|vm_compute in E; discriminate]. exists g, tr. split; [reflexivity|]. vm_compute in E. injection E as _ <-. split; [vm_compute; auto 40|]. split; [vm_compute; auto 40|]. split; [reflexivity|]. split; [vm_compute; reflexivity|]. split; [vm_compute; reflexivity|]. split; [vm_compute; discriminate|vm_compute; reflexivity]. Qed.

(** The second file of the toy chain, with blocks from before and after the merge; the range has two blocks of it. *)
Module Files.
Import E2hsWriter_Props.Toy.
Definition hp (n : N) : full_header * header_proof := match hp_unpack (le_bytes 8 n) with Some x => x | None => (old n, HistoricalHashes []) end.
Definition blk (n : N) : @tuple3 (full_header * header_proof) (@block_body N N) (list N) := mk_tuple3 (hp n) body [n].
Definition ts := map blk (numbers 8192 count).
Lemma early n : 8192 <= n < 8200 -> exists p, hp_unpack (le_bytes 8 n) = Some (old n, HistoricalHashes p) /\
  validate_header_with_proof Header_Props.toy_sha fk (fresh Header_Props.toy_sha ch) (Some []) (view toyHC toy_keccak (old n)) (HistoricalHashes p) = (fresh Header_Props.toy_sha ch, Ok tt).
Proof.
  intros L. assert (P8 : le_num (le_bytes 8 n) = n) by (apply le_num_le_bytes_id; change (256 ^ N.of_nat 8) with 18446744073709551616; lia).
  destruct (C23_honest_pre_merge Header_Props.toy_sha fk ch (fresh Header_Props.toy_sha ch) (Some []) false (view toyHC toy_keccak (old n)) records {| block_hash := toy_keccak (enc toyHC (old n)); total_difficulty := n |}) as (p & E & _ & V).
  - constructor.
  - exact (proj2 L).
  - cbn [view h_number old number]. replace (n / 8192) with 1 by lia. reflexivity.
  - vm_compute. discriminate.
  - cbn [view h_number old number]. unfold records. rewrite nth_error_map, nth_numbers by lia. replace (8192 + N.of_nat (N.to_nat (n mod 8192))) with n by lia. reflexivity.
  - reflexivity.
  - exists p. split; [|exact V]. unfold hp_unpack. cbv zeta. rewrite P8. replace (n <? 8200) with true by (symmetry; apply N.ltb_lt; lia). unfold sha in *. rewrite E. reflexivity.
Qed.
Lemma hp_fine n : 8192 <= n < 16384 -> hp_unpack (le_bytes 8 n) = Some (hp n) /\ number (fst (hp n)) = n /\ match snd (hp n) with HistoricalRoots q => slot q / 8192 < 576 | _ => True end.
Proof.
  intros L. unfold hp. destruct (N.ltb_spec n 8200) as [S|S].
  - destruct (early n) as (p & -> & _); [lia|]. split; [reflexivity|]. split; [reflexivity|exact I].
  - assert (P8 : le_num (le_bytes 8 n) = n) by (apply le_num_le_bytes_id; change (256 ^ N.of_nat 8) with 18446744073709551616; lia).
    unfold hp_unpack. rewrite P8. destruct (N.ltb_spec n 8200) as [X|_]; [lia|]. split; [reflexivity|]. split; [reflexivity|]. cbn [snd proof_for]. unfold build_historical_roots_proof. cbn [slot bl b_slot]. lia.
Qed.
Lemma fits n : 8192 <= n < 16384 -> tuple3_ok hp_pack hp_unpack b_pack b_unpack r_pack r_unpack (blk n).
Proof.
  intros L. destruct (hp_fine n L) as (U & Nn & _). assert (P8 : le_num (le_bytes 8 n) = n) by (apply le_num_le_bytes_id; change (256 ^ N.of_nat 8) with 18446744073709551616; lia).
  split; [|split]; cbn [blk u_header u_body u_receipts].
  - unfold packs, hp_pack. rewrite Nn. split; [apply le_bytes_ok|]. split; [unfold blen; rewrite le_bytes_length; vm_compute; reflexivity|exact U].
  - split; [constructor|split; [vm_compute; reflexivity|reflexivity]].
  - split; [apply le_bytes_ok|]. split; [unfold blen, r_pack; rewrite le_bytes_length; vm_compute; reflexivity|]. unfold r_unpack, r_pack. rewrite P8. reflexivity.
Qed.
Definition pre := map (epoch_root Header_Props.toy_sha) (epochs ch).
Definition acc := map (batch_root Header_Props.toy_sha) (batches ch).
End Files.
Example C103_example : exists get todo,
  launch toyHC (listc toyHC) Nc Nc Nc toy_keccak toy_root Header_Props.toy_sha Toy.fk true Files.pre Files.acc Toy.hp_unpack Toy.b_unpack Toy.r_unpack [1; 0] get 8193 (Some 8194) (@rev _) = Ok todo /\ ~ In Crash todo /\
  (forall t, In t (spawned todo) <-> t = Files.blk 8193 \/ t = Files.blk 8194) /\ ~ from_summaries (Files.blk 8193).
Proof.
  assert (In8 : forall t, In t Files.ts -> exists n, 8192 <= n < 16384 /\ t = Files.blk n) by (intros t I; apply in_map_iff in I as (n & <- & I); apply in_numbers in I; rewrite Toy.count_is in I; eauto).
  destruct (C74_writer (fun _ => @None unit) Toy.hp_pack Toy.hp_unpack Toy.b_pack Toy.b_unpack Toy.r_pack Toy.r_unpack 1 Files.ts) as (buf & x & _ & _ & Rd & Ht & _).
  { apply Forall_forall. intros t I. destruct (In8 t I) as (n & L & ->). apply Files.fits. exact L. }
  { unfold n_len, Files.ts. rewrite map_length, Toy.len_numbers. exact Toy.count_is. }
  { reflexivity. }
  destruct (C103_blocks toyHC (listc toyHC) Nc Nc Nc toy_keccak toy_root Header_Props.toy_sha Toy.fk true Files.pre Files.acc Toy.hp_unpack Toy.b_unpack Toy.r_unpack) with (c := Toy.ch) (keys := [1; 0]) (count := 2) (get := fun e => if e =? 1 then Ok buf else Err)
    (first := 8193) (last := Some 8194) (stop := 8194) (shuffle := @rev (N * option (N * N))) (file := fun _ : N => Files.ts) as (todo & La & Nc & _ & Sp).
  - split; [reflexivity|]. intros n. cbn [In]. lia.
  - intros l. apply Permutation_sym, Permutation_rev.
  - reflexivity.
  - reflexivity.
  - reflexivity.
  - reflexivity.
  - reflexivity.
  - reflexivity.
  - intros e R. change (8193 / 8192) with 1 in R. change (8194 / 8192) with 1 in R. assert (e = 1) by lia. subst e. split; [exists buf, x; split; [reflexivity|]; split; [exact Rd|exact Ht]|]. split.
    + unfold Files.ts. rewrite map_map. erewrite map_ext_in; [rewrite map_id; apply numbers_nodup|]. intros n I. apply in_numbers in I. rewrite Toy.count_is in I. cbn [Files.blk u_header]. apply Files.hp_fine. lia.
    + intros t I. destruct (In8 t I) as (n & L & ->). cbn [Files.blk u_header]. destruct (Files.hp_fine n L) as (_ & -> & S). split; [lia|]. change (blen (batches Toy.ch)) with 576. exact S.
  - exists (fun e => if e =? 1 then Ok buf else Err), todo. split; [exact La|]. split; [exact Nc|].
    assert (Ck : forall n, n = 8193 \/ n = 8194 -> checked toyHC (listc toyHC) LegacyHistory_Props.Nc LegacyHistory_Props.Nc LegacyHistory_Props.Nc toy_keccak toy_root Header_Props.toy_sha Toy.fk Files.pre Files.acc (Files.blk n)).
    { intros n Hn. destruct (Files.early n) as (p & Ep & V); [lia|]. assert (Eb : Files.blk n = mk_tuple3 (Toy.old n, HistoricalHashes p) Toy.body [n]) by (unfold Files.blk, Files.hp; rewrite Ep; reflexivity). rewrite Eb.
      split; [split; [reflexivity|]; split; [reflexivity|]; split; [left; reflexivity|reflexivity]|right]. unfold accepted_header. cbn [u_header fst snd].
      change {| pre_merge_acc := Files.pre; historical_roots := Files.acc; cache := [] |} with (fresh Header_Props.toy_sha Toy.ch). change {| h_number := _; h_timestamp := _; h_hash := _ |} with (view toyHC toy_keccak (Toy.old n)). rewrite V. reflexivity. }
    split; [|destruct (Files.early 8193) as (p & Ep & _); [lia|]; unfold from_summaries, Files.blk, Files.hp; rewrite Ep; auto]. intros t. rewrite Sp. split.
    + intros (R & I & _). destruct (In8 t I) as (n & L & ->). cbn [Files.blk u_header] in R. destruct (Files.hp_fine n L) as (_ & En & _). rewrite En in R. assert (Hn : n = 8193 \/ n = 8194) by lia. destruct Hn as [-> | ->]; auto.
    + intros Ht'. assert (Hn : exists n, (n = 8193 \/ n = 8194) /\ t = Files.blk n) by (destruct Ht' as [-> | ->]; eauto). destruct Hn as (n & Hn & ->). destruct (Files.hp_fine n) as (_ & En & _); [lia|]. split; [cbn [Files.blk u_header]; rewrite En; lia|]. split; [|apply Ck; exact Hn].
      apply in_map, in_numbers. rewrite Toy.count_is. lia.
Qed.
Print Assumptions C103_epochs.
Print Assumptions C103_last_refuted.
Print Assumptions C103_directory.
Print Assumptions C103_blocks.
Print Assumptions C103_valid.
Print Assumptions C103_order.
Print Assumptions C103_limits.
Print Assumptions C103_complete.
Print Assumptions C103_progress.
Print Assumptions C103_steps.
Print Assumptions C103_zero_refuted.
Print Assumptions C103_missing_refuted.
Print Assumptions C103_unproved_refuted.
Print Assumptions C103_outside_refuted.
Print Assumptions C103_accepted.
