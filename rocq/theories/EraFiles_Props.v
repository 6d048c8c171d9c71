(** C73-C76: era1, e2hs, era and e2ss files. *)
From Verif Require Import Base E2Store_Model E2Store_Spec E2Store_Proofs E2Store_Props EraFiles_Model EraFiles_Spec EraFiles_Proofs EraFiles_Proofs2.

Lemma Forall2_nth_error {A B} (P : A -> B -> Prop) l m : Forall2 P l m -> forall i y, nth_error m i = Some y -> exists x, nth_error l i = Some x /\ P x y.
Proof.
  induction 1 as [|a b l m H F IH]; intros [|i] y E; cbn [nth_error] in *; try discriminate.
  - injection E as <-. exists a. auto.
  - exact (IH i y E).
Qed.

Lemma Forall2_length {A B} (P : A -> B -> Prop) l m : Forall2 P l m -> length l = length m.
Proof. induction 1; cbn [length]; congruence. Qed.

Section Files.
Context {H HP B R : Type}.
Context (h_pack : H -> bytes) (h_unpack : bytes -> option H).
Context (hp_pack : HP -> bytes) (hp_unpack : bytes -> option HP).
Context (b_pack : B -> bytes) (b_unpack : bytes -> option B).
Context (r_pack : R -> bytes) (r_unpack : bytes -> option R).
Notation era1_entries := (era1_entries h_pack b_pack r_pack).
Notation era1_write := (era1_write h_pack b_pack r_pack).
Notation era1_read := (era1_read h_unpack b_unpack r_unpack).
Notation era1_iter := (era1_iter h_unpack b_unpack r_unpack).
Notation era1_body := (era1_body h_pack h_unpack b_pack b_unpack r_pack r_unpack).
Notation era1_ok := (era1_ok h_pack h_unpack b_pack b_unpack r_pack r_unpack).
Notation e2hs_entries := (e2hs_entries hp_pack b_pack r_pack).
Notation e2hs_write := (e2hs_write hp_pack b_pack r_pack).
Notation e2hs_read := (e2hs_read hp_unpack b_unpack r_unpack).
Notation e2hs_body := (e2hs_body hp_pack hp_unpack b_pack b_unpack r_pack r_unpack).
Notation e2hs_ok := (e2hs_ok hp_pack hp_unpack b_pack b_unpack r_pack r_unpack).
Notation tuple3_entries := (tuple3_entries hp_pack b_pack r_pack).
Notation tuple3_ok := (tuple3_ok hp_pack hp_unpack b_pack b_unpack r_pack r_unpack).

(** A whole era1 file is read back, by both readers. *)
Theorem C73_round_trip : forall x, era1_ok x ->
  exists b, era1_write x = Ok b /\ era1_read b = Ok x /\ era1_iter b = Ok (e1_tuples x).
Proof.
  intros x [E C]. exists (file (era1_entries x)). split; [exact (era1_writes _ _ _ _ _ _ x E)|].
  pose proof E as (V & F & _ & Ba & La & _). rewrite (era1_reads _ _ _ _ _ _ x E), (era1_iters _ _ _ _ _ _ x E), C.
  change (N.of_nat (length (e1_tuples x))) with (n_len (e1_tuples x)). rewrite (tuples4_read _ _ _ _ _ _ _ _ F). cbn [obind omap expect fst snd]. split; [|reflexivity].
  unfold accumulator_from, accumulator_entry. rewrite word_read by exact La. cbn [obind]. rewrite <- V. destruct x; reflexivity.
Qed.
(** What reading returns stands in the file: as many blocks as the index counts, in order, each
    with its four records, then the accumulator; and the index is the last record. *)
Lemma tuples4_sound n : forall rest ts left, read_tuples4 h_unpack b_unpack r_unpack n rest = Ok (ts, left) ->
  n_len ts = n /\ exists front, rest = front ++ left /\ n_len front = 4 * n /\
  Forall2 (fun q t => match q with (a, b, c, d) => unpack_from 0x0300 h_unpack a = Ok (t_header t) /\ unpack_from 0x0400 b_unpack b = Ok (t_body t) /\
                        unpack_from 0x0500 r_unpack c = Ok (t_receipts t) /\ difficulty_from d = Ok (t_difficulty t) end)
          (map (fun i => (nth (4 * i) front version_entry, nth (4 * i + 1) front version_entry, nth (4 * i + 2) front version_entry, nth (4 * i + 3) front version_entry)) (seq 0 (length ts))) ts.
Proof.
  intros rest. remember (length rest) as k eqn:Hk. assert (Le : (length rest <= k)%nat) by lia. clear Hk. revert n rest Le.
  induction k as [|k IH]; intros n rest Le ts left Rd.
  - destruct rest; [|cbn in Le; lia]. cbn [EraFiles_Model.read_tuples4] in Rd. destruct (n =? 0) eqn:Z; [|discriminate]. injection Rd as <- <-.
    apply N.eqb_eq in Z. subst n. split; [reflexivity|]. exists []. repeat split. constructor.
  - assert (Cases : (n = 0 /\ ts = [] /\ left = rest) \/ (n <> 0 /\ exists a b c d r' t ts', rest = a :: b :: c :: d :: r' /\ tuple4_from h_unpack b_unpack r_unpack a b c d = Ok t /\
       read_tuples4 h_unpack b_unpack r_unpack (n - 1) r' = Ok (ts', left) /\ ts = t :: ts')).
    { destruct (n =? 0) eqn:Z.
      - left. apply N.eqb_eq in Z. subst n. rewrite tuples4_zero in Rd. injection Rd as <- <-. auto.
      - right. split; [lia|]. destruct rest as [|a [|b [|c [|d r']]]]; cbn [EraFiles_Model.read_tuples4] in Rd; rewrite Z in Rd; try discriminate.
        destruct (tuple4_from h_unpack b_unpack r_unpack a b c d) as [t| |] eqn:T; try discriminate. cbn [obind] in Rd.
        destruct (read_tuples4 h_unpack b_unpack r_unpack (n - 1) r') as [[ts' l']| |] eqn:Q; try discriminate. cbn [obind fst snd] in Rd. injection Rd as <- <-.
        exists a, b, c, d, r', t, ts'. auto. }
    destruct Cases as [(-> & -> & ->)|(Z & a & b & c & d & r' & t & ts' & -> & T & Q & ->)].
    + split; [reflexivity|]. exists []. repeat split. constructor.
    + destruct (IH (n - 1) r' ltac:(cbn [length] in Le; lia) ts' left Q) as (Ln & front & -> & Lf & F2). split; [rewrite n_len_cons; lia|].
      exists (a :: b :: c :: d :: front). split; [reflexivity|]. split; [rewrite !n_len_cons; lia|]. cbn [length seq map]. constructor.
      * cbn [nth Nat.mul Nat.add]. unfold tuple4_from in T. destruct (unpack_from 768 h_unpack a) as [h| |] eqn:U1; try discriminate. cbn [obind] in T.
        destruct (unpack_from 1024 b_unpack b) as [bo| |] eqn:U2; try discriminate. cbn [obind] in T.
        destruct (unpack_from 1280 r_unpack c) as [re| |] eqn:U3; try discriminate. cbn [obind] in T.
        destruct (difficulty_from d) as [di| |] eqn:U4; try discriminate. cbn [obind] in T. injection T as <-. auto.
      * rewrite <- seq_shift, map_map. erewrite map_ext; [exact F2|]. intros i. cbn beta.
        replace (4 * S i)%nat with (S (S (S (S (4 * i))))) by lia. cbn [nth Nat.add]. reflexivity.
Qed.
Lemma era1_reads_the_file : forall b x, bytes_ok b -> era1_read b = Ok x ->
  exists es, Forall entry_ok es /\ b = file es /\ e1_version x = version_entry /\ nth_error es 0 = Some version_entry /\
    n_len (e1_tuples x) = ix_count (e1_index x) /\
    (forall i t, nth_error (e1_tuples x) i = Some t ->
       unpack_from 0x0300 h_unpack (nth (4 * i + 1) es version_entry) = Ok (t_header t) /\ unpack_from 0x0400 b_unpack (nth (4 * i + 2) es version_entry) = Ok (t_body t) /\
       unpack_from 0x0500 r_unpack (nth (4 * i + 3) es version_entry) = Ok (t_receipts t) /\ difficulty_from (nth (4 * i + 4) es version_entry) = Ok (t_difficulty t)) /\
    accumulator_from (nth (4 * length (e1_tuples x) + 1) es version_entry) = Ok (e1_accumulator x) /\
    index_from era1_lens (last es version_entry) = Ok (e1_index x).
Proof.
  intros b x Hb Rd. unfold EraFiles_Model.era1_read in Rd. destruct (mem_deserialize b) as [es| |] eqn:M; try discriminate. cbn [obind] in Rd.
  destruct (C46_canonical b es Hb M) as [F E]. destruct (negb _); [discriminate|]. destruct es as [|e0 rest]; [discriminate|].
  destruct (version_from e0) as [v| |] eqn:V; try discriminate. cbn [obind] in Rd. destruct (index_from era1_lens (last (e0 :: rest) e0)) as [ix| |] eqn:I; try discriminate. cbn [obind] in Rd.
  destruct (EraFiles_Model.read_tuples4 _ _ _ _ _) as [[ts left]| |] eqn:T; try discriminate. cbn [obind fst snd] in Rd. destruct left as [|a left]; [discriminate|].
  destruct (accumulator_from a) as [acc| |] eqn:A; try discriminate. cbn [obind] in Rd. injection Rd as <-. cbn [e1_version e1_tuples e1_accumulator e1_index].
  assert (Ve : e0 = version_entry /\ v = version_entry).
  { unfold version_from in V. destruct (e_type e0 =? _) eqn:V1; [|discriminate]. destruct (e_len e0 =? 0) eqn:V2; [|discriminate]. destruct (e_reserved e0 =? 0) eqn:V3; [|discriminate].
    destruct (blen (e_value e0) =? 0) eqn:V4; [|discriminate]. cbn [negb] in V. injection V as <-. assert (e0 = version_entry); [|auto].
    destruct e0 as [t l r w]. cbn [e_type e_len e_reserved e_value] in *. apply N.eqb_eq in V1, V2, V3, V4. subst. destruct w; [reflexivity|]. rewrite blen_cons in V4. lia. }
  destruct Ve as [-> ->]. destruct (tuples4_sound _ _ _ _ T) as (Ln & front & -> & Lf & F2). exists (version_entry :: front ++ a :: left). split; [exact F|]. split; [exact E|].
  split; [reflexivity|]. split; [reflexivity|]. split; [exact Ln|].
  assert (Lf' : length front = (4 * length ts)%nat) by (unfold n_len in *; lia). split; [|split].
  - intros i t Hi. assert (Li : (i < length ts)%nat) by (apply nth_error_Some; congruence).
    destruct (Forall2_nth_error _ _ _ F2 i t Hi) as (q & Hq & F3). clear F2. rename F3 into F2. rewrite nth_error_map in Hq.
    assert (Si : nth_error (seq 0 (length ts)) i = Some i). { rewrite nth_error_nth' with (d := 0%nat) by (rewrite seq_length; exact Li). rewrite seq_nth by exact Li. reflexivity. }
    rewrite Si in Hq. cbn [option_map] in Hq. injection Hq as <-.
    replace (4 * i + 2)%nat with (S (4 * i + 1)) by lia. replace (4 * i + 3)%nat with (S (4 * i + 2)) by lia. replace (4 * i + 4)%nat with (S (4 * i + 3)) by lia. replace (4 * i + 1)%nat with (S (4 * i)) at 1 by lia.
    cbn [nth]. rewrite !app_nth1 by lia. exact F2.
  - replace (4 * length ts + 1)%nat with (S (4 * length ts)) by lia. cbn [nth]. rewrite app_nth2 by lia. replace (4 * length ts - length front)%nat with 0%nat by lia. exact A.
  - exact I.
Qed.
(** The count in the index is not compared with the number of records: any count that is too large
    makes reading panic, although the writer takes it. *)
Theorem C73_count_refuted : forall x, era1_body x -> n_len (e1_tuples x) < ix_count (e1_index x) ->
  exists b, era1_write x = Ok b /\ era1_read b = Panic /\ era1_iter b = Panic.
Proof.
  intros x E C. exists (file (era1_entries x)). split; [exact (era1_writes _ _ _ _ _ _ x E)|].
  pose proof E as (V & F & _ & Ba & La & _). rewrite (era1_reads _ _ _ _ _ _ x E), (era1_iters _ _ _ _ _ _ x E).
  replace (ix_count (e1_index x)) with (n_len (e1_tuples x) + (ix_count (e1_index x) - n_len (e1_tuples x))) by lia. rewrite (tuples4_read_more _ _ _ _ _ _ _ _ _ F).
  rewrite tuples4_short; [split; reflexivity|lia|reflexivity].
Qed.

(** e2hs *)
Theorem C74_round_trip : forall x, e2hs_ok x -> exists b, e2hs_write x = Ok b /\ e2hs_read b = Ok x.
Proof.
  intros x [E C]. exists (file (e2hs_entries x)). split; [exact (e2hs_writes _ _ _ _ _ _ x E)|].
  pose proof E as (V & F & L & _). rewrite (e2hs_reads _ _ _ _ _ _ x E), C, <- L.
  change (N.of_nat (length (hs_tuples x))) with (n_len (hs_tuples x)). rewrite (tuples3_read _ _ _ _ _ _ _ _ F). cbn [obind fst]. rewrite <- V. destruct x; reflexivity.
Qed.
Theorem C74_count_refuted : forall x, e2hs_body x -> 8192 < ix_count (hs_index x) -> exists b, e2hs_write x = Ok b /\ e2hs_read b = Panic.
Proof.
  intros x E C. exists (file (e2hs_entries x)). split; [exact (e2hs_writes _ _ _ _ _ _ x E)|].
  pose proof E as (V & F & L & _). rewrite (e2hs_reads _ _ _ _ _ _ x E). fold (n_len (hs_tuples x)) in L.
  replace (ix_count (hs_index x)) with (n_len (hs_tuples x) + (ix_count (hs_index x) - n_len (hs_tuples x))) by lia. rewrite (tuples3_read_more _ _ _ _ _ _ _ _ _ F).
  rewrite tuples3_short; [reflexivity|lia|reflexivity].
Qed.
(** A smaller count gives the first blocks only, with no error. *)
Theorem C74_count_less_refuted : forall x n, e2hs_body x -> (n <= length (hs_tuples x))%nat -> ix_count (hs_index x) = N.of_nat n ->
  exists b, e2hs_write x = Ok b /\ e2hs_read b = Ok (mk_e2hs version_entry (firstn n (hs_tuples x)) (hs_index x)).
Proof.
  intros x n E Ln C. exists (file (e2hs_entries x)). split; [exact (e2hs_writes _ _ _ _ _ _ x E)|].
  pose proof E as (V & F & L & _). rewrite (e2hs_reads _ _ _ _ _ _ x E), C. rewrite <- (firstn_skipn n (hs_tuples x)) in F at 1. apply Forall_app in F as [F1 F2].
  rewrite <- (firstn_skipn n (hs_tuples x)) at 1. rewrite flat_map_app, <- app_assoc. replace (N.of_nat n) with (n_len (firstn n (hs_tuples x))) by (unfold n_len; rewrite firstn_length; lia).
  rewrite (tuples3_read _ _ _ _ _ _ _ _ F1). reflexivity.
Qed.
(** The streaming writer: from 8192 blocks it makes a file that is read back as those blocks, and
    whose index gives for each block the place where its three records stand. *)
Theorem C74_writer : forall epoch ts, Forall tuple3_ok ts -> n_len ts = 8192 -> epoch < 2 ^ 51 ->
  exists b x, hs_run hp_pack b_pack r_pack epoch ts = Ok b /\ e2hs_write x = Ok b /\ e2hs_read b = Ok x /\
    hs_tuples x = ts /\ ix_start (hs_index x) = epoch * 8192 /\ ix_count (hs_index x) = 8192 /\
    forall i t, nth_error ts i = Some t ->
      exists off, nth_error (ix_offsets (hs_index x)) i = Some off /\ exists rest, skipn (N.to_nat off) b = file (tuple3_entries t) ++ rest.
Proof.
  intros epoch ts F L Le. set (offs := offsets_of hp_pack b_pack r_pack (blen (file [version_entry])) ts).
  set (x := mk_e2hs version_entry ts (mk_index (epoch * 8192) offs 8192)).
  assert (Small : forall es n, (forall e, In e es -> blen (record e) < 2 ^ 32) -> n_len es <= n -> blen (file es) <= n * 2 ^ 32).
  { induction es as [|e es IH]; intros n He Ln; [change (blen (file [])) with 0; lia|]. rewrite n_len_cons in Ln. rewrite file_cons, blen_app.
    assert (blen (record e) < 2 ^ 32) by (apply He; left; reflexivity).
    specialize (IH (n - 1) (fun e' I => He e' (or_intror I)) ltac:(lia)). change (2 ^ 32) with 4294967296 in *. lia. }
  assert (Rl : forall e, entry_ok e -> blen (record e) < 2 ^ 32) by (intros e (_ & _ & Lv & _); rewrite record_len; lia).
  assert (Fo : Forall (fun o => o < 2 ^ 64) offs).
  { apply Forall_forall. intros o Ho. apply In_nth_error in Ho as (i & Hi).
    assert (Li : (i < length ts)%nat). { rewrite <- (offsets_len hp_pack b_pack r_pack ts (blen (file [version_entry]))). apply nth_error_Some. fold offs. congruence. }
    destruct (nth_error ts i) as [t|] eqn:Ht; [|apply nth_error_None in Ht; lia].
    unfold offs in Hi. rewrite (offsets_at hp_pack b_pack r_pack ts _ i t Ht) in Hi. injection Hi as <-. change (blen (file [version_entry])) with 8.
    assert (G : blen (file (flat_map tuple3_entries (firstn i ts))) <= 24576 * 2 ^ 32).
    { apply Small.
      - intros e Ie. apply Rl. apply (proj1 (Forall_forall _ _) (tuples3_ok _ _ _ _ _ _ ts F)). apply in_flat_map in Ie as (t' & It & Ie). apply in_flat_map. exists t'. split; [|exact Ie].
        rewrite <- (firstn_skipn i ts). apply in_or_app. left. exact It.
      - rewrite (tuples3_len hp_pack b_pack r_pack). unfold n_len in *. rewrite firstn_length. lia. }
    change (24576 * 2 ^ 32) with 105553116266496 in G. change (2 ^ 64) with 18446744073709551616. lia. }
  assert (X : e2hs_ok x).
  { split; [|reflexivity]. split; [reflexivity|]. split; [exact F|]. split; [exact L|]. split; [change (epoch * 8192 < 2 ^ 64); change (2 ^ 51) with 2251799813685248 in Le; change (2 ^ 64) with 18446744073709551616; lia|].
    split; [exact Fo|]. split; [reflexivity|]. cbn [hs_index ix_offsets x]. unfold offs. rewrite (offsets_len hp_pack b_pack r_pack). exact L. }
  destruct (C74_round_trip x X) as (b & W & Rd). exists b, x. rewrite (e2hs_writes _ _ _ _ _ _ x (proj1 X)) in W.
  assert (Eb : b = file ((version_entry :: flat_map tuple3_entries ts) ++ [index_entry 0x6632 (hs_index x)])) by (injection W as <-; reflexivity).
  split; [|split; [rewrite (e2hs_writes _ _ _ _ _ _ x (proj1 X)); exact W|split; [exact Rd|split; [reflexivity|split; [reflexivity|split; [reflexivity|]]]]]].
  - unfold hs_run. assert (Cr : hs_create = Ok (mk_hs_writer (file [version_entry]) (blen (file [version_entry])) [])) by reflexivity.
    rewrite Cr, (hs_appends _ _ _ _ _ _ ts _ _ F). 2: { constructor; [exact version_ok|constructor]. }
    cbn [obind app]. unfold hs_finish, hw_offsets, hw_file. fold offs.
    assert (Lo : (n_len offs =? 8192) = true) by (unfold offs, n_len; rewrite (offsets_len hp_pack b_pack r_pack); unfold n_len in L; lia). rewrite Lo. cbn [negb].
    rewrite append_ok; [rewrite Eb; reflexivity|]. apply (index_entry_ok _ _ 8192); [reflexivity|lia|apply (proj1 X)].
  - intros i t Ht. exists (8 + blen (file (flat_map tuple3_entries (firstn i ts)))). split.
    + cbn [hs_index ix_offsets x]. exact (offsets_at hp_pack b_pack r_pack ts _ i t Ht).
    + exists (file (flat_map tuple3_entries (skipn (S i) ts) ++ [index_entry 0x6632 (hs_index x)])). rewrite Eb.
      assert (Sp : ts = firstn i ts ++ t :: skipn (S i) ts).
      { clear - Ht. revert i Ht. induction ts as [|t0 ts IH]; intros [|i] Ht; cbn [nth_error] in Ht; try discriminate; cbn [firstn skipn app].
        - injection Ht as <-. reflexivity.
        - f_equal. exact (IH i Ht). }
      rewrite Sp at 2. rewrite flat_map_app. cbn [flat_map].
      replace ((version_entry :: flat_map tuple3_entries (firstn i ts) ++ tuple3_entries t ++ flat_map tuple3_entries (skipn (S i) ts)) ++ [index_entry 0x6632 (hs_index x)])
        with ((version_entry :: flat_map tuple3_entries (firstn i ts)) ++ tuple3_entries t ++ flat_map tuple3_entries (skipn (S i) ts) ++ [index_entry 0x6632 (hs_index x)])
        by (cbn [app]; rewrite <- !app_assoc; reflexivity).
      rewrite !file_app. apply skipn_app_len. rewrite file_cons, app_length. unfold blen. change (length (record version_entry)) with 8%nat. lia.
Qed.
End Files.

Section Era.
Context {Bk St : Type}.
Context (bk_pack : Bk -> bytes) (bk_unpack : era_fork -> bytes -> option Bk).
Context (st_pack : St -> bytes) (st_unpack : era_fork -> bytes -> option St).
Notation era_write := (@era_write Bk St bk_pack st_pack).
Notation era_read := (@era_read Bk St bk_unpack st_unpack).
(** An era file is read back: the blocks of the slots that are not empty, each decoded for the fork
    of its slot. *)
Theorem C75_round_trip : forall slots x, era_ok bk_pack bk_unpack st_pack st_unpack slots x ->
  exists b, era_write x = Ok b /\ era_read b = Ok x.
Proof.
  intros slots x (E & Hb & f & Hf & U). exists (file (era_entries bk_pack st_pack x)). split; [apply C46_round_trip, (era_entries_ok _ _ slots x E)|].
  rewrite (era_reads _ _ _ _ slots x E). rewrite (read_blocks_ok bk_pack bk_unpack st_unpack) by exact Hb. cbn [obind]. apply era_fork_spec in Hf. rewrite Hf. cbn [obind].
  rewrite unpack_new, U. cbn [of_option obind]. pose proof E as (V & Eb & _). rewrite <- V, <- Eb. destruct x; reflexivity.
Qed.
(** The fork of a slot, and what happens before the merge. *)
Theorem C75_forks : forall s, (forall f, era_fork_of s = Ok f <-> fork_at s f) /\ (era_fork_of s = Panic <-> s < 4636672).
Proof.
  intros s. split; [intros f; apply era_fork_spec|]. unfold era_fork_of. destruct (s <? 4636672) eqn:E; [split; [lia|reflexivity]|].
  destruct (s <? 6209536), (s <? 8626176), (s <? 11649024); (split; [discriminate|lia]).
Qed.
(** Every well-formed era file from before the merge makes reading panic. *)
Theorem C75_early_refuted : forall slots x, era_frame bk_pack st_pack slots x ->
  ix_start (er_block_index x) + 8192 <= 4636672 -> ix_start (er_state_index x) < 4636672 ->
  exists b, era_write x = Ok b /\ era_read b = Panic.
Proof.
  intros slots x E Lb Ls. exists (file (era_entries bk_pack st_pack x)). split; [apply C46_round_trip, (era_entries_ok _ _ slots x E)|].
  rewrite (era_reads _ _ _ _ slots x E). assert (Pf : forall s, s < 4636672 -> era_fork_of s = Panic) by (intros s L; apply C75_forks, L).
  pose proof E as (_ & _ & (_ & _ & _ & Lo) & _ & _ & _ & F2 & _). apply Forall2_length in F2. rewrite <- F2 in Lo. clear E F2.
  assert (G : slot_list (ix_start (er_block_index x)) slots = [] \/ exists s r, slot_list (ix_start (er_block_index x)) slots = s :: r /\ s < 4636672 /\ exists b r', present slots = b :: r').
  { assert (K : forall (l : list (option Bk)) st, st + N.of_nat (length l) <= 4636672 -> slot_list st l = [] \/ exists s r, slot_list st l = s :: r /\ s < 4636672 /\ exists b r', present l = b :: r').
    { induction l as [|[b|] l IH]; intros st L; [left; reflexivity| |]; cbn [length] in L.
      - right. exists st, (slot_list (st + 1) l). split; [reflexivity|]. split; [lia|]. exists b, (present l). reflexivity.
      - cbn [slot_list present flat_map app]. apply IH. lia. }
    apply K. lia. }
  destruct G as [Hn|(s & r & Hs & Lt & b & r' & Hp)].
  - rewrite Hn. cbn [read_blocks obind]. rewrite Pf by exact Ls. reflexivity.
  - rewrite Hs, Hp. cbn [map app read_blocks]. rewrite Pf by exact Lt. reflexivity.
Qed.
(** So does a file with no record, or with the version record alone. *)
Theorem C75_short_refuted : era_read (file []) = Panic /\ era_read (file [version_entry]) = Panic.
Proof. split; reflexivity. Qed.
End Era.

Section Snapshot.
Context {H A S : Type}.
Context (h_pack : H -> bytes) (h_unpack : bytes -> option H).
Context (a_pack : A -> bytes) (a_unpack : bytes -> option A) (storage_count : A -> N).
Context (s_pack : S -> bytes) (s_unpack : bytes -> option S) (items : S -> N).
Notation ss_entry := (@ss_entry A S a_pack s_pack).
Notation ss_appends := (@ss_appends A S a_pack storage_count s_pack items).
Notation ss_read := (@ss_read H A S h_unpack a_unpack storage_count s_unpack).
Notation ss_create := (@ss_create H h_pack).
Notation item_ok := (item_ok a_pack a_unpack s_pack s_unpack).

(** The writer takes exactly the sequences of accounts with their storage, and the reader returns
    them. *)
Theorem C76_round_trip : forall h l w, packs h_pack h_unpack h -> Forall item_ok l -> ss_create h = Ok w ->
  (Forall (eq (Ok tt)) (snd (ss_appends w l)) /\ ss_pending (fst (ss_appends w l)) = 0 <->
   exists gs, l = flatten gs /\ Forall (account_ok storage_count items) gs) /\
  (Forall (eq (Ok tt)) (snd (ss_appends w l)) ->
   ss_file (fst (ss_appends w l)) = file (version_entry :: entry_new 0x0300 (h_pack h) :: map ss_entry l) /\
   ss_read (ss_file (fst (ss_appends w l))) = Ok (h, l, if ss_pending (fst (ss_appends w l)) =? 0 then Ok tt else Panic)).
Proof.
  intros h l w P F Cr. rewrite (create_ok _ _ _ P) in Cr. injection Cr as <-.
  destruct (appends_iff a_pack a_unpack storage_count s_pack s_unpack items l (ss_prefix h_pack h) 0 F) as [I1 I2]. split.
  - split.
    + intros [Fo Z]. apply I1 in Fo as (p & X). rewrite (I2 p X) in Z. cbn [ss_pending] in Z. subst p. exact (accepted_groups storage_count items (length l) l (le_n _) X).
    + intros (gs & -> & G). pose proof (accepted_flatten storage_count items gs G) as X. split; [apply I1; exists 0; exact X|]. rewrite (I2 0 X). reflexivity.
  - intros Fo. apply I1 in Fo as (p & X). rewrite (I2 p X). cbn [ss_file ss_pending]. split; [reflexivity|].
    rewrite <- (app_nil_r (file (ss_prefix h_pack h ++ map ss_entry l))). apply (read_ok _ _ _ _ _ _ _ items); try assumption. reflexivity.
Qed.
(** Refused items leave the file as it was. *)
Theorem C76_refused_unchanged : forall w i, item_ok i -> (exists es, ss_file w = file es) ->
  snd (ss_append a_pack storage_count s_pack items w i) <> Ok tt -> fst (ss_append a_pack storage_count s_pack items w i) = w.
Proof.
  intros [f q] i P (es & Ef). cbn [ss_file] in Ef. subst f. rewrite (append_step a_pack a_unpack _ _ s_unpack) by exact P. destruct i as [a|s].
  - destruct (q =? 0); cbn [fst snd]; [congruence|reflexivity].
  - destruct (q =? 0); cbn [fst snd]; [reflexivity|]. destruct (if q =? 1 then _ else _); cbn [fst snd]; [congruence|reflexivity].
Qed.
(** A file cut anywhere inside an account record is read as if it ended before it: the reader
    reports the end, not an error. *)
Theorem C76_cut_refuted : forall h gs a n, packs h_pack h_unpack h -> Forall item_ok (flatten gs) -> Forall (account_ok storage_count items) gs ->
  packs a_pack a_unpack a -> (n < length (record (ss_entry (Account a))))%nat ->
  ss_read (file (version_entry :: entry_new 0x0300 (h_pack h) :: map ss_entry (flatten gs)) ++ firstn n (record (ss_entry (Account a)))) = Ok (h, flatten gs, Ok tt).
Proof.
  intros h gs a n P F G Pa Ln. pose proof (accepted_flatten storage_count items gs G) as X.
  exact (read_ok h_pack h_unpack a_pack a_unpack storage_count s_pack s_unpack items h (flatten gs) 0 _ P F X (next_cut _ n (packs_ok _ _ a 0x0800 eq_refl Pa) Ln)).
Qed.
(** Cut anywhere else after the header it is noticed only by a panic. *)
Theorem C76_cut : forall h l p q s n, packs h_pack h_unpack h -> Forall item_ok l -> p = N.succ q ->
  (exists w, ss_create h = Ok w /\ Forall (eq (Ok tt)) (snd (ss_appends w l)) /\ ss_pending (fst (ss_appends w l)) = p) ->
  packs s_pack s_unpack s -> (n < length (record (ss_entry (Storage s))))%nat ->
  ss_read (file (version_entry :: entry_new 0x0300 (h_pack h) :: map ss_entry l) ++ firstn n (record (ss_entry (Storage s)))) = Ok (h, l, Panic).
Proof.
  intros h l p q s n P F Ep (w & Cr & Fo & Pe) Ps Ln. rewrite (create_ok _ _ _ P) in Cr. injection Cr as <-.
  destruct (appends_iff a_pack a_unpack storage_count s_pack s_unpack items l (ss_prefix h_pack h) 0 F) as [I1 I2]. apply I1 in Fo as (p' & X). rewrite (I2 p' X) in Pe. cbn [ss_pending] in Pe. subst p'.
  pose proof (read_ok h_pack h_unpack a_pack a_unpack storage_count s_pack s_unpack items h l p _ P F X (next_cut _ n (packs_ok _ _ s 0x0900 eq_refl Ps) Ln)) as Rd.
  replace (p =? 0) with false in Rd by lia. exact Rd.
Qed.
End Snapshot.

(** Cases: values are byte strings that pack to themselves. *)
Definition self (b : bytes) : bytes := b.
Definition t4 : @tuple4 bytes bytes bytes := mk_tuple4 [1] [2] [3] 17.
Definition x1 (count : N) : @era1 bytes bytes bytes := mk_era1 version_entry (repeat t4 (N.to_nat 8192)) (repeat 7 32) (mk_index 0 (repeat 8 (N.to_nat 8192)) count).
Lemma self_packs b : bytes_ok b -> blen b < 2 ^ 32 - 8 -> packs self Some b.
Proof. intros B L. repeat split; assumption. Qed.
Lemma bytes_of n x : x < 256 -> bytes_ok (repeat x n).
Proof. intros L. apply Forall_forall. intros y Hy. apply repeat_spec in Hy. subst. exact L. Qed.
Example C73_case : era1_ok self Some self Some self Some (x1 8192) /\ era1_body self Some self Some self Some (x1 8193) /\
  n_len (e1_tuples (x1 8193)) < ix_count (e1_index (x1 8193)).
Proof.
  assert (T : tuple4_ok self Some self Some self Some t4). { repeat split; try (repeat constructor); reflexivity. }
  assert (Bd : forall c, c < 2 ^ 64 -> era1_body self Some self Some self Some (x1 c)).
  { intros c Lc. unfold x1. split; [reflexivity|]. split; [apply Forall_forall; intros t Ht; apply repeat_spec in Ht; subst; exact T|].
    split; [left; cbn [e1_tuples]; rewrite repeat_length; apply N2Nat.id|]. split; [apply bytes_of; reflexivity|]. split; [reflexivity|].
    exists 8192. split; [left; reflexivity|]. split; [reflexivity|]. cbn [e1_index ix_offsets ix_count]. split; [apply Forall_forall; intros o Ho; apply repeat_spec in Ho; subst; reflexivity|].
    split; [exact Lc|]. rewrite repeat_length. apply N2Nat.id. }
  split; [split; [apply Bd; reflexivity|cbn [x1 e1_index ix_count e1_tuples]; rewrite repeat_length; symmetry; apply N2Nat.id]|].
  split; [apply Bd; reflexivity|]. unfold n_len. cbn [x1 e1_index ix_count e1_tuples]. rewrite repeat_length, N2Nat.id. reflexivity.
Qed.
Definition t3 : @tuple3 bytes bytes bytes := mk_tuple3 [1] [2] [3].
Example C74_case : Forall (tuple3_ok self Some self Some self Some) (repeat t3 (N.to_nat 8192)) /\ n_len (repeat t3 (N.to_nat 8192)) = 8192 /\
  e2hs_ok self Some self Some self Some (mk_e2hs version_entry (repeat t3 (N.to_nat 8192)) (mk_index 0 (repeat 8 (N.to_nat 8192)) 8192)).
Proof.
  assert (T : tuple3_ok self Some self Some self Some t3). { repeat split; try (repeat constructor); reflexivity. }
  assert (F : Forall (tuple3_ok self Some self Some self Some) (repeat t3 (N.to_nat 8192))) by (apply Forall_forall; intros t Ht; apply repeat_spec in Ht; subst; exact T).
  assert (L : n_len (repeat t3 (N.to_nat 8192)) = 8192) by (unfold n_len; rewrite repeat_length; apply N2Nat.id).
  split; [exact F|]. split; [exact L|]. split; [|reflexivity]. split; [reflexivity|]. split; [exact F|]. split; [exact L|].
  split; [reflexivity|]. cbn [hs_index ix_offsets ix_count]. split; [apply Forall_forall; intros o Ho; apply repeat_spec in Ho; subst; reflexivity|]. split; [reflexivity|]. rewrite repeat_length. apply N2Nat.id.
Qed.
(** An era file whose slots are all empty but the first. *)
Definition era_slots1 : list (option bytes) := Some [5] :: repeat None (N.to_nat 8191).
Lemma present_some {A} (a : A) l : present (Some a :: l) = a :: present l.
Proof. reflexivity. Qed.
Lemma present_none {A} n : present (repeat (@None A) n) = [].
Proof. induction n as [|n IH]; [reflexivity|exact IH]. Qed.
Definition era1_mark : N := 2 ^ 64 - 26.
Definition xe : @era bytes bytes := mk_era version_entry [[5]] [6] (mk_index 6209536 (1 :: repeat era1_mark (N.to_nat 8191)) 8192) (mk_index 6217728 [2] 1).
Lemma xe_index : index_ok (er_block_index xe) 8192.
Proof.
  split; [reflexivity|]. split; [|split; [reflexivity|]].
  - constructor; [reflexivity|]. apply Forall_forall. intros o Ho. apply repeat_spec in Ho. subst. reflexivity.
  - cbn [xe er_block_index ix_offsets length]. rewrite repeat_length. lia.
Qed.
Lemma len_of (bs : list bytes) ix sx : index_ok ix 8192 -> index_ok sx 1 ->
  mem_length (era_entries self self (mk_era version_entry bs [6] ix sx)) = 65609 + mem_length (map (fun b => entry_new 0x0100 (self b)) bs).
Proof.
  intros X Y. unfold era_entries. cbn [er_version er_blocks er_state er_block_index er_state_index]. rewrite mem_length_cons, mem_length_app, !mem_length_cons.
  rewrite (index_record_len 0x6932 ix 8192 eq_refl (N.le_refl _) X). rewrite (index_record_len 0x6932 sx 1 eq_refl ltac:(discriminate) Y).
  change (entry_length version_entry) with 8. change (entry_length (entry_new 512 (self [6]))) with 9. change (mem_length []) with 0. lia.
Qed.
Lemma xe_len : mem_length (era_entries self self xe) = 65618.
Proof. unfold xe. rewrite len_of; [reflexivity|exact xe_index|repeat split; repeat constructor]. Qed.
Example C75_case : era_ok self (fun _ => Some) self (fun _ => Some) era_slots1 xe.
Proof.
  assert (Pr : present era_slots1 = [[5]]).
  { unfold era_slots1. rewrite present_some. rewrite present_none. reflexivity. }
  split; [|split].
  - unfold era_frame. rewrite xe_len, Pr. split; [reflexivity|]. split; [reflexivity|]. split; [exact xe_index|]. split; [repeat split; repeat constructor|].
    split; [cbn [xe er_block_index ix_start]; lia|]. split; [reflexivity|]. split.
    + cbn [xe er_block_index ix_offsets]. unfold era_slots1. constructor; [split; discriminate|]. change (empty_mark 65618) with era1_mark. generalize (N.to_nat 8191). intros n.
      induction n as [|n IH]; cbn [repeat]; constructor; [split; reflexivity|exact IH].
    + split; [constructor; [split; [repeat constructor|reflexivity]|constructor]|]. split; [apply (bytes_of 1 6); reflexivity|reflexivity].
  - intros [|i] b Hb; cbn [era_slots1 nth_error] in Hb.
    + injection Hb as <-. exists Capella. split; [cbn [xe er_block_index ix_start fork_at]; lia|reflexivity].
    + exfalso. apply nth_error_In, repeat_spec in Hb. discriminate.
  - exists Capella. split; [cbn [xe er_state_index ix_start fork_at]; lia|reflexivity].
Qed.
(** An early era file with no block. *)
Example C75_early_case : exists x : @era bytes bytes, era_frame self self (repeat None (N.to_nat 8192)) x /\ ix_start (er_block_index x) + 8192 <= 4636672 /\ ix_start (er_state_index x) < 4636672.
Proof.
  exists (mk_era version_entry [] [6] (mk_index 0 (repeat (2 ^ 64 - 17) (N.to_nat 8192)) 8192) (mk_index 8192 [2] 1)). split; [|split; cbn; lia].
  assert (X : index_ok (mk_index 0 (repeat (2 ^ 64 - 17) (N.to_nat 8192)) 8192) 8192).
  { split; [reflexivity|]. cbn [ix_offsets ix_count]. split; [apply Forall_forall; intros o Ho; apply repeat_spec in Ho; subst; reflexivity|]. split; [reflexivity|]. rewrite repeat_length. apply N2Nat.id. }
  assert (L : mem_length (era_entries self self (mk_era version_entry [] [6] (mk_index 0 (repeat (2 ^ 64 - 17) (N.to_nat 8192)) 8192) (mk_index 8192 [2] 1))) = 65609).
  { rewrite len_of; [reflexivity|exact X|repeat split; repeat constructor]. }
  assert (Pr : present (repeat (@None bytes) (N.to_nat 8192)) = []). { apply present_none. }
  unfold era_frame. rewrite L, Pr. cbn [er_version er_blocks er_state er_block_index er_state_index]. split; [reflexivity|]. split; [reflexivity|]. split; [exact X|]. split; [repeat split; repeat constructor|].
  split; [cbn [ix_start]; lia|]. split; [reflexivity|]. split.
  - cbn [ix_offsets]. change (empty_mark 65609) with (2 ^ 64 - 17). generalize (N.to_nat 8192). intros n. induction n as [|n IH]; cbn [repeat]; constructor; [split; reflexivity|exact IH].
  - split; [constructor|]. split; [apply (bytes_of 1 6); reflexivity|reflexivity].
Qed.
(** An account with one storage record, and one without. *)
Example C76_case :
  Forall (account_ok (fun a : bytes => blen a) (fun _ : bytes => 3)) [([9], [[1; 2]]); ([], [])] /\
  Forall (item_ok self Some self Some) (flatten [([9], [[1; 2]]); ([], [])]) /\
  ss_read Some Some (fun a : bytes => blen a) Some (file [version_entry; entry_new 0x0300 [8]; entry_new 0x0800 [9]; entry_new 0x0900 [1; 2]; entry_new 0x0800 []] ++ [8; 0; 1]) =
    Ok ([8], flatten [([9], [[1; 2]]); ([], [])], Ok tt).
Proof.
  split; [|split; [|reflexivity]].
  - constructor; [|constructor; [|constructor]]; (split; [reflexivity|]).
    + intros [|[|i]] s Hs; cbn in *; try discriminate; lia.
    + intros [|i] s Hs; discriminate.
  - repeat (apply Forall_cons || apply Forall_nil); (apply self_packs; [repeat constructor|reflexivity]).
Qed.

Print Assumptions C73_round_trip.
Print Assumptions C73_count_refuted.
Print Assumptions C74_round_trip.
Print Assumptions C74_count_refuted.
Print Assumptions C74_count_less_refuted.
Print Assumptions C74_writer.
Print Assumptions C75_round_trip.
Print Assumptions C75_forks.
Print Assumptions C75_early_refuted.
Print Assumptions C75_short_refuted.
Print Assumptions C76_round_trip.
Print Assumptions C76_refused_unchanged.
Print Assumptions C76_cut_refuted.
Print Assumptions C76_cut.
