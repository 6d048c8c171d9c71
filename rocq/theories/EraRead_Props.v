(** C73-C76: what is read from an era1, e2hs, era or e2ss file stands in it. *)
From Verif Require Import Base E2Store_Model E2Store_Spec E2Store_Proofs E2Store_Props EraFiles_Model EraFiles_Spec EraFiles_Proofs EraFiles_Proofs2 EraFiles_Props EraRead_Spec.

Lemma unpack_inv {A} t (u : bytes -> option A) e v : unpack_from t u e = Ok v -> holds t u e v.
Proof.
  unfold unpack_from, holds. destruct (N.eqb_spec (e_type e) t) as [T|]; [|discriminate]. cbn [negb]. destruct (e_reserved e =? 0); [|discriminate]. cbn [negb].
  destruct (u (e_value e)); [|discriminate]. intros H. injection H as ->. auto.
Qed.
Lemma word_inv t e w : word_from t e = Ok w -> holds_word t e w.
Proof.
  unfold word_from, holds_word. destruct (N.eqb_spec (e_type e) t) as [T|]; [|discriminate]. cbn [negb]. destruct (e_len e =? 32); [|discriminate]. cbn [negb]. destruct (e_reserved e =? 0); [|discriminate]. cbn [negb].
  destruct (N.eqb_spec (blen (e_value e)) 32) as [L|]; [|discriminate]. cbn [negb]. intros H. injection H as <-. auto.
Qed.
Lemma difficulty_inv e d : bytes_ok (e_value e) -> difficulty_from e = Ok d -> holds_word 0x0600 e (be_bytes 32 d) /\ d < 2 ^ 256.
Proof.
  intros B H. unfold difficulty_from in H. destruct (word_from 1536 e) as [w| |] eqn:W; try discriminate. cbn [omap] in H. injection H as <-. apply word_inv in W as (T & E & L). subst w.
  assert (Ln : length (e_value e) = 32%nat) by (unfold blen in L; lia).
  assert (X : be_bytes 32 (be_num (e_value e)) = e_value e) by (rewrite <- Ln at 1; apply be_bytes_be_num, B). split; [split; [exact T|]; rewrite X; auto|].
  pose proof (be_num_bound (e_value e) B) as Hb. rewrite Ln in Hb. exact Hb.
Qed.
Lemma read_u64s_inv n : forall v l, bytes_ok v -> blen v = 8 * N.of_nat n -> read_u64s n v = Ok l -> v = concat (map (le_bytes 8) l) /\ length l = n /\ Forall (fun o => o < 2 ^ 64) l.
Proof.
  induction n as [|n IH]; intros v l B L H; cbn [read_u64s] in H.
  - injection H as <-. destruct v; [auto|]. rewrite blen_cons in L. lia.
  - destruct (blen v <? 8) eqn:L8; [discriminate|]. destruct (read_u64s n (skipn 8 v)) as [r| |] eqn:R; try discriminate. cbn [obind] in H.
    assert (Hl : le_num (firstn 8 v) :: r = l) by congruence. clear H. subst l.
    assert (L1 : length (firstn 8 v) = 8%nat) by (rewrite firstn_length; unfold blen in *; lia).
    apply IH in R as (E & Ln & F); [|apply bytes_ok_skipn, B|unfold blen in *; rewrite skipn_length; lia].
    assert (B1 : bytes_ok (firstn 8 v)) by (apply bytes_ok_firstn, B). split; [|split; [cbn [length]; congruence|]].
    + cbn [map concat]. rewrite <- E. pose proof (le_bytes_le_num (firstn 8 v) B1) as X. rewrite L1 in X. rewrite X. symmetry. apply firstn_skipn.
    + constructor; [|exact F]. pose proof (le_num_bound (firstn 8 v) B1) as X. rewrite L1 in X. exact X.
Qed.
Lemma index_of_inv n v ix : bytes_ok v -> blen v = 8 * (n + 2) -> index_of v = Ok ix -> v = concat (map (le_bytes 8) (ix_start ix :: ix_offsets ix ++ [ix_count ix])) /\ index_ok ix n.
Proof.
  intros B L H. unfold index_of in H. rewrite L in H. replace ((8 * (n + 2) - 16) / 8) with n in H by (replace (8 * (n + 2) - 16) with (n * 8) by lia; symmetry; apply N.div_mul; discriminate). cbv zeta in H.
  destruct (read_u64s (N.to_nat (n + 2)) v) as [l| |] eqn:R; try discriminate. cbn [obind] in H. apply read_u64s_inv in R as (E & Ln & F); [|exact B|rewrite L; lia].
  assert (Hx : mk_index (hd 0 l) (firstn (N.to_nat n) (tl l)) (last l 0) = ix) by congruence. clear H. subst ix. cbn [ix_start ix_offsets ix_count].
  destruct l as [|s l]; [cbn in Ln; lia|]. cbn [hd tl]. assert (NE : l <> []) by (intros ->; cbn in Ln; lia).
  destruct (exists_last NE) as (o & c & ->). cbn [length] in Ln. rewrite app_length in Ln. cbn [length] in Ln.
  rewrite firstn_app_len by lia. replace (last (s :: o ++ [c]) 0) with c by (rewrite app_comm_cons, last_last; reflexivity). split; [exact E|]. inversion F as [|s' ? Hs F']; subst. apply Forall_app in F' as [F1 F2]. inversion F2; subst.
  split; [exact Hs|]. split; [exact F1|]. split; [assumption|]. cbn [ix_offsets]. lia.
Qed.
Lemma index_inv lens e ix : bytes_ok (e_value e) -> Forall (fun n => n mod 8 = 0 /\ 16 <= n) lens -> index_from lens e = Ok ix -> exists n, In (8 * (n + 2)) lens /\ holds_index 0x6632 n e ix.
Proof.
  intros B Fl H. unfold index_from in H. destruct (N.eqb_spec (e_type e) 0x6632) as [T|]; [|discriminate]. cbn [negb] in H. destruct (existsb (N.eqb (e_len e)) lens); [|discriminate]. cbn [negb] in H.
  destruct (e_reserved e =? 0); [|discriminate]. cbn [negb] in H. destruct (existsb (N.eqb (blen (e_value e))) lens) eqn:X; [|discriminate]. cbn [negb] in H.
  apply existsb_exists in X as (m & I & Em). apply N.eqb_eq in Em. rewrite Forall_forall in Fl. destruct (Fl m I) as [M G].
  assert (L : m = 8 * ((m / 8 - 2) + 2)) by lia. exists (m / 8 - 2). rewrite <- L. split; [exact I|]. rewrite L in Em. apply (index_of_inv (m / 8 - 2)) in H as [E X]; [|exact B|exact Em]. split; [exact T|]. split; [exact E|exact X].
Qed.
Lemma slot_index_inv n e ix : bytes_ok (e_value e) -> slot_index_from n e = Ok ix -> holds_index 0x6932 n e ix.
Proof.
  intros B H. unfold slot_index_from in H. destruct (N.eqb_spec (e_type e) 0x6932) as [T|]; [|discriminate]. cbn [negb] in H. destruct (e_len e =? _); [|discriminate]. cbn [negb] in H.
  destruct (e_reserved e =? 0); [|discriminate]. cbn [negb] in H. destruct (N.eqb_spec (blen (e_value e)) (8 * (1 + n + 1))) as [L|]; [|discriminate]. cbn [negb] in H.
  apply (index_of_inv n) in H as [E X]; [|exact B|rewrite L; lia]. split; [exact T|]. split; [exact E|exact X].
Qed.
Lemma version_inv e v : version_from e = Ok v -> e = version_entry /\ v = version_entry.
Proof.
  intros V. unfold version_from in V. destruct (e_type e =? _) eqn:V1; [|discriminate]. destruct (e_len e =? 0) eqn:V2; [|discriminate]. destruct (e_reserved e =? 0) eqn:V3; [|discriminate].
  destruct (blen (e_value e) =? 0) eqn:V4; [|discriminate]. cbn [negb] in V. injection V as <-. assert (e = version_entry); [|auto].
  destruct e as [t l r w]. cbn [e_type e_len e_reserved e_value] in *. apply N.eqb_eq in V1, V2, V3, V4. subst. destruct w; [reflexivity|]. rewrite blen_cons in V4. lia.
Qed.
Lemma value_ok es e : Forall entry_ok es -> In e es -> bytes_ok (e_value e).
Proof. rewrite Forall_forall. intros F I. destruct (F e I) as (_ & B & _). exact B. Qed.
Lemma nth_value_ok es i : Forall entry_ok es -> bytes_ok (e_value (nth i es version_entry)).
Proof. intros F. destruct (nth_in_or_default i es version_entry) as [I| ->]; [exact (value_ok es _ F I)|constructor]. Qed.
Lemma last_nth {A} (d : A) l : last l d = nth (length l - 1) l d.
Proof. induction l as [|x [|y l] IH]; [reflexivity|reflexivity|]. change (last (x :: y :: l) d) with (last (y :: l) d). rewrite IH. cbn [length Nat.sub nth]. rewrite Nat.sub_0_r. reflexivity. Qed.
Lemma last_value_ok es : Forall entry_ok es -> bytes_ok (e_value (last es version_entry)).
Proof. intros F. rewrite last_nth. apply nth_value_ok, F. Qed.

Lemma split_eq {A} (a b : list A) : forall x y, length a = length b -> a ++ x = b ++ y -> a = b /\ x = y.
Proof.
  revert b. induction a as [|z a IH]; intros [|w b] x y L E; cbn in *; try discriminate; [auto|]. injection E as -> E. injection L as L. destruct (IH b x y L E) as [-> ->]. auto.
Qed.

Section Files.
Context {H HP B R : Type}.
Context (h_unpack : bytes -> option H) (hp_unpack : bytes -> option HP) (b_unpack : bytes -> option B) (r_unpack : bytes -> option R).

(** era1: a file of records; the version, for each block its four records in order, then the
    accumulator; the index is the last record and counts the blocks. *)
Theorem C73_reads_the_file : forall b x, bytes_ok b -> era1_read h_unpack b_unpack r_unpack b = Ok x ->
  exists es, b = file es /\ (n_len es = 32771 \/ n_len es = 21451) /\ nth_error es 0 = Some version_entry /\ e1_version x = version_entry /\
    n_len (e1_tuples x) = ix_count (e1_index x) /\
    (forall i t, nth_error (e1_tuples x) i = Some t ->
       holds 0x0300 h_unpack (nth (4 * i + 1) es version_entry) (t_header t) /\ holds 0x0400 b_unpack (nth (4 * i + 2) es version_entry) (t_body t) /\
       holds 0x0500 r_unpack (nth (4 * i + 3) es version_entry) (t_receipts t) /\
       holds_word 0x0600 (nth (4 * i + 4) es version_entry) (be_bytes 32 (t_difficulty t)) /\ t_difficulty t < 2 ^ 256) /\
    holds_word 0x0700 (nth (4 * length (e1_tuples x) + 1) es version_entry) (e1_accumulator x) /\
    exists n, era1_blocks n /\ holds_index 0x6632 n (last es version_entry) (e1_index x).
Proof.
  intros b x Hb Rd. pose proof Rd as Rd'. apply (era1_reads_the_file _ hp_unpack) in Rd as (es & F & E & V & N0 & Ln & T & A & I); [|exact Hb]. exists es. split; [exact E|].
  split. { unfold era1_read in Rd'. destruct (mem_deserialize b) as [es2| |] eqn:M; try discriminate. destruct (C46_canonical b es2 Hb M) as [F2 E2]. rewrite E in E2. apply C46_distinct in E2; [|assumption..]. subst es2. cbn [obind] in Rd'. destruct (era1_count_ok (n_len es)) eqn:C; [|discriminate]. unfold era1_count_ok in C.
    apply Bool.orb_true_iff in C as [C|C]; apply N.eqb_eq in C; auto. }
  split; [exact N0|]. split; [exact V|]. split; [exact Ln|]. split; [|split].
  - intros i t Hi. destruct (T i t Hi) as (T1 & T2 & T3 & T4). apply unpack_inv in T1, T2, T3. apply difficulty_inv in T4 as [T4 T5]; [|apply nth_value_ok, F]. auto.
  - apply word_inv, A.
  - apply index_inv in I as (n & Inn & X); [|apply last_value_ok, F|repeat (apply Forall_cons || apply Forall_nil); split; (reflexivity || lia)]. exists n. split; [|exact X].
    cbn [In era1_lens] in Inn. unfold era1_blocks. lia.
Qed.

(** e2hs: the version, for each block its three records, and the index as the last record; blocks
    are read as far as the index counts. *)
Lemma tuples3_sound ts : forall n rest left, read_tuples3 hp_unpack b_unpack r_unpack n rest = Ok (ts, left) ->
  n_len ts = n /\ (3 * length ts <= length rest)%nat /\
  forall i t, nth_error ts i = Some t -> holds 0x0301 hp_unpack (nth (3 * i) rest version_entry) (u_header t) /\ holds 0x0400 b_unpack (nth (3 * i + 1) rest version_entry) (u_body t) /\
    holds 0x0500 r_unpack (nth (3 * i + 2) rest version_entry) (u_receipts t).
Proof.
  induction ts as [|t ts IH]; intros n rest left Rd.
  - assert (n = 0) as ->. { destruct (N.eq_dec n 0) as [Z|Z]; [exact Z|]. destruct rest as [|a [|b [|c r]]]; cbn [read_tuples3] in Rd; rewrite (proj2 (N.eqb_neq n 0) Z) in Rd; try discriminate.
      destruct (tuple3_from _ _ _ a b c); try discriminate. cbn [obind] in Rd. destruct (read_tuples3 _ _ _ (n - 1) r) as [[]| |]; discriminate. }
    split; [reflexivity|]. split; [cbn [length]; lia|]. intros [|i] t Hi; discriminate.
  - destruct rest as [|a [|b [|c r]]]; cbn [read_tuples3] in Rd; destruct (N.eqb_spec n 0) as [Z|Z]; try discriminate.
    destruct (tuple3_from hp_unpack b_unpack r_unpack a b c) as [t'| |] eqn:T; try discriminate. cbn [obind] in Rd.
    destruct (read_tuples3 hp_unpack b_unpack r_unpack (n - 1) r) as [[ts' l']| |] eqn:Q; try discriminate. cbn [obind fst snd] in Rd. injection Rd as <- <- <-.
    destruct (IH _ _ _ Q) as (Ln & Le & G). split; [rewrite n_len_cons; lia|]. split; [cbn [length]; lia|]. intros [|i] t Hi; cbn [nth_error] in Hi.
    + injection Hi as <-. cbn [Nat.mul Nat.add nth]. unfold tuple3_from in T. destruct (unpack_from 769 hp_unpack a) as [h| |] eqn:U1; try discriminate. cbn [obind] in T.
      destruct (unpack_from 1024 b_unpack b) as [bo| |] eqn:U2; try discriminate. cbn [obind] in T. destruct (unpack_from 1280 r_unpack c) as [re| |] eqn:U3; try discriminate. cbn [obind] in T.
      injection T as <-. cbn [u_header u_body u_receipts]. auto using unpack_inv.
    + replace (3 * S i)%nat with (S (S (S (3 * i)))) by lia. cbn [nth Nat.add]. exact (G i t Hi).
Qed.
Theorem C74_reads_the_file : forall b x, bytes_ok b -> e2hs_read hp_unpack b_unpack r_unpack b = Ok x ->
  exists es, b = file es /\ n_len es = 24578 /\ nth_error es 0 = Some version_entry /\ hs_version x = version_entry /\
    n_len (hs_tuples x) = ix_count (hs_index x) /\
    (forall i t, nth_error (hs_tuples x) i = Some t ->
       holds 0x0301 hp_unpack (nth (3 * i + 1) es version_entry) (u_header t) /\ holds 0x0400 b_unpack (nth (3 * i + 2) es version_entry) (u_body t) /\
       holds 0x0500 r_unpack (nth (3 * i + 3) es version_entry) (u_receipts t)) /\
    holds_index 0x6632 8192 (last es version_entry) (hs_index x).
Proof.
  intros b x Hb Rd. unfold e2hs_read in Rd. destruct (mem_deserialize b) as [es| |] eqn:M; try discriminate. cbn [obind] in Rd.
  destruct (C46_canonical b es Hb M) as [F E]. destruct (N.eqb_spec (n_len es) 24578) as [Le|]; [|discriminate]. cbn [negb] in Rd. destruct es as [|e0 rest]; [discriminate|].
  destruct (version_from e0) as [v| |] eqn:V; try discriminate. cbn [obind] in Rd. destruct (index_from [65552] (last (e0 :: rest) e0)) as [ix| |] eqn:I; try discriminate. cbn [obind] in Rd.
  destruct (read_tuples3 _ _ _ _ _) as [[ts left]| |] eqn:T; try discriminate. cbn [obind fst] in Rd. injection Rd as <-. cbn [hs_version hs_tuples hs_index].
  apply version_inv in V as [-> ->]. apply tuples3_sound in T as (Ln & _ & G). exists (version_entry :: rest). split; [exact E|]. split; [exact Le|]. split; [reflexivity|]. split; [reflexivity|]. split; [exact Ln|]. split.
  - intros i t Hi. replace (3 * i + 2)%nat with (S (3 * i + 1)) by lia. replace (3 * i + 3)%nat with (S (3 * i + 2)) by lia. replace (3 * i + 1)%nat with (S (3 * i)) at 1 by lia. cbn [nth]. exact (G i t Hi).
  - apply index_inv in I as (n & Inn & X); [|apply last_value_ok, F|repeat (apply Forall_cons || apply Forall_nil); split; (reflexivity || lia)]. destruct Inn as [Inn|[]]. replace n with 8192 in X by lia. exact X.
Qed.
End Files.

Section Era.
Context {Bk St : Type} (bk_unpack : era_fork -> bytes -> option Bk) (st_unpack : era_fork -> bytes -> option St).
Lemma read_blocks_inv slots : forall rest bs, read_blocks bk_unpack slots rest = Ok bs ->
  length bs = length slots /\ exists bes tl, rest = bes ++ tl /\ Forall2 (fun e sb => exists f, fork_at (fst sb) f /\ holds 0x0100 (bk_unpack f) e (snd sb)) bes (combine slots bs).
Proof.
  induction slots as [|s slots IH]; intros rest bs Rd; cbn [read_blocks] in Rd.
  - injection Rd as <-. split; [reflexivity|]. exists [], rest. split; [reflexivity|constructor].
  - destruct rest as [|e r]; [discriminate|]. destruct (era_fork_of s) as [f| |] eqn:Ef; try discriminate. cbn [obind] in Rd.
    destruct (unpack_from 256 (bk_unpack f) e) as [b| |] eqn:U; try discriminate. cbn [obind] in Rd. destruct (read_blocks bk_unpack slots r) as [bs'| |] eqn:Q; try discriminate. cbn [obind] in Rd. injection Rd as <-.
    destruct (IH _ _ Q) as (L & bes & tl & -> & F). split; [cbn [length]; congruence|]. exists (e :: bes), tl. split; [reflexivity|]. cbn [combine]. constructor; [|exact F].
    exists f. cbn [fst snd]. split; [apply era_fork_spec, Ef|apply unpack_inv, U].
Qed.
(** The slots and blocks put together again. *)
Lemma slots_of mark start offs : forall k bs, length bs = length (flat_map (fun p => if negb (snd p =? mark) then [(start + N.of_nat (fst p)) mod 2 ^ 64] else []) (combine (seq k (length offs)) offs)) ->
  exists slots : list (option Bk), present slots = bs /\ Forall2 (fun o off => o = None <-> off = mark) slots offs /\
    combine (flat_map (fun p => if negb (snd p =? mark) then [(start + N.of_nat (fst p)) mod 2 ^ 64] else []) (combine (seq k (length offs)) offs)) bs = numbered (start + N.of_nat k) slots.
Proof.
  induction offs as [|off offs IH]; intros k bs L.
  - destruct bs; [|discriminate]. exists []. split; [reflexivity|]. split; [constructor|reflexivity].
  - cbn [length seq combine flat_map fst snd] in *. replace (start + N.of_nat k + 1) with (start + N.of_nat (S k)) by lia. destruct (N.eqb_spec off mark) as [E|E]; cbn [negb app length] in *.
    + destruct (IH (S k) bs L) as (slots & P & F & C). exists (None :: slots). split; [exact P|]. split; [constructor; [split; auto|exact F]|]. cbn [numbered]. replace (start + N.of_nat k + 1) with (start + N.of_nat (S k)) by lia. exact C.
    + destruct bs as [|b bs]; [discriminate|]. cbn [length] in L. injection L as L. destruct (IH (S k) bs L) as (slots & P & F & C). exists (Some b :: slots). split; [rewrite present_some, P; reflexivity|].
      split; [constructor; [split; [discriminate|intros X; contradiction]|exact F]|]. cbn [numbered combine]. f_equal. replace (start + N.of_nat k + 1) with (start + N.of_nat (S k)) by lia. exact C.
Qed.
(** era: the version, a record for each slot that is not marked as empty, in the order of the
    slots and decoded for the fork of its slot, the state, and the two indexes. *)
Theorem C75_reads_the_file : forall b x, bytes_ok b -> blen b < 2 ^ 63 -> era_read bk_unpack st_unpack b = Ok x ->
  exists bes st bi si slots, b = file (version_entry :: bes ++ [st; bi; si]) /\ er_version x = version_entry /\ er_blocks x = present slots /\
    holds_index 0x6932 8192 bi (er_block_index x) /\ holds_index 0x6932 1 si (er_state_index x) /\
    Forall2 (fun o off => o = None <-> off = empty_mark (blen b)) slots (ix_offsets (er_block_index x)) /\
    Forall2 (fun e sb => exists f, fork_at (fst sb) f /\ holds 0x0100 (bk_unpack f) e (snd sb)) bes (numbered (ix_start (er_block_index x)) slots) /\
    exists f, fork_at (ix_start (er_state_index x)) f /\ holds 0x0200 (st_unpack f) st (er_state x).
Proof.
  intros b x Hb Lb Rd. unfold era_read in Rd. destruct (mem_deserialize b) as [es| |] eqn:M; try discriminate. cbn [obind] in Rd.
  destruct (C46_canonical b es Hb M) as [F E]. destruct es as [|e0 rest]; [discriminate|]. destruct (version_from e0) as [v| |] eqn:V; try discriminate. cbn [obind] in Rd. apply version_inv in V as [-> ->].
  destruct (rev (version_entry :: rest)) as [|si [|bi before]] eqn:Rv; try discriminate. destruct (slot_index_from 8192 bi) as [bx| |] eqn:Ib; try discriminate. cbn [obind] in Rd.
  destruct (slot_index_from 1 si) as [sx| |] eqn:Is; try discriminate. cbn [obind] in Rd. cbv zeta in Rd. destruct (N.eqb_spec (n_len (block_slots (blen b) bx) + 4) (n_len (version_entry :: rest))) as [Ln|]; [|discriminate]. cbn [negb] in Rd.
  destruct (read_blocks bk_unpack (block_slots (blen b) bx) rest) as [bs| |] eqn:Q; try discriminate. cbn [obind] in Rd. destruct (era_fork_of (ix_start sx)) as [f| |] eqn:Ef; try discriminate. cbn [obind] in Rd.
  destruct before as [|st before]; [discriminate|]. destruct (unpack_from 512 (st_unpack f) st) as [s| |] eqn:U; try discriminate. cbn [obind] in Rd. injection Rd as <-. cbn [er_version er_blocks er_state er_block_index er_state_index].
  assert (Es : version_entry :: rest = rev before ++ [st; bi; si]). { rewrite <- (rev_involutive (version_entry :: rest)), Rv. cbn [rev]. rewrite <- !app_assoc. reflexivity. }
  destruct (read_blocks_inv _ _ _ Q) as (Lbs & bes & tl & Er & F2).
  assert (Lbes : length bes = length bs). { apply Forall2_length in F2. rewrite combine_length in F2. lia. }
  assert (Lrest : length rest = (length bs + 3)%nat) by (unfold n_len in Ln; cbn [length] in Ln; lia).
  assert (Tl : version_entry :: bes = rev before /\ tl = [st; bi; si]).
  { apply split_eq; [|rewrite <- Es, Er; reflexivity]. apply (f_equal (@length entry)) in Es. cbn [length] in Es |- *. rewrite app_length in Es. cbn [length] in Es. lia. }
  destruct Tl as [_ ->]. subst rest. assert (Vo : forall e, In e [st; bi; si] -> bytes_ok (e_value e)) by (intros e I; apply (value_ok _ _ F); right; apply in_or_app; right; exact I).
  pose proof (slot_index_inv 8192 bi bx (Vo bi ltac:(cbn; auto)) Ib) as Hbi. pose proof (slot_index_inv 1 si sx (Vo si ltac:(cbn; auto)) Is) as Hsi.
  assert (Mark : (2 ^ 64 - (blen b - (8 + 65552) - (8 + 24))) mod 2 ^ 64 = empty_mark (blen b)).
  { unfold empty_mark. assert (Lg : 65592 < blen b).
    { rewrite E, file_cons, file_app, !blen_app. change (file [st; bi; si]) with (record st ++ record bi ++ record si ++ []). rewrite !blen_app, !record_len.
      destruct Hbi as (_ & Hv & X). apply index_len in X. fold (u64s (ix_start bx :: ix_offsets bx ++ [ix_count bx])) in Hv. fold (index_value bx) in Hv. rewrite <- Hv in X.
      destruct Hsi as (_ & Hv' & X'). apply index_len in X'. fold (u64s (ix_start sx :: ix_offsets sx ++ [ix_count sx])) in Hv'. fold (index_value sx) in Hv'. rewrite <- Hv' in X'. lia. }
    clear - Lb Lg. change (2 ^ 63) with 9223372036854775808 in Lb. change (2 ^ 64) with 18446744073709551616. rewrite N.mod_small by lia. lia. }
  unfold block_slots in *. cbv zeta in *. rewrite Mark in *. destruct (slots_of (empty_mark (blen b)) (ix_start bx) (ix_offsets bx) 0 bs Lbs) as (slots & P & Fo & C). rewrite C in F2. rewrite N.add_0_r in F2.
  exists bes, st, bi, si, slots. split; [exact E|]. split; [reflexivity|]. split; [symmetry; exact P|]. split; [exact Hbi|]. split; [exact Hsi|]. split; [exact Fo|]. split; [exact F2|].
  exists f. split; [apply era_fork_spec, Ef|apply unpack_inv, U].
Qed.
End Era.

(** e2ss: the version, the header, and a record for each item; the iteration stops after them, at
    the end or inside a record, only if every account was followed by its storage.  How full the storage
    records are is not looked at. *)
Section Snapshot.
Context {H A S : Type}.
Context (h_unpack : bytes -> option H) (a_unpack : bytes -> option A) (storage_count : A -> N) (s_unpack : bytes -> option S).
Definition item_in (e : entry) (i : @ss_item A S) : Prop :=
  match i with Account a => holds 0x0800 a_unpack e a | Storage s => holds 0x0900 s_unpack e s end.
Lemma iter_inv f : forall p b l, bytes_ok b -> ss_iter a_unpack storage_count s_unpack f p b = (l, Ok tt) ->
  exists es rest ss gs, b = file es ++ rest /\ next_entry rest = Eof /\ Forall2 item_in es l /\ l = map (@Storage A S) ss ++ flatten gs /\ N.of_nat (length ss) = p /\
    Forall (fun g => storage_count (fst g) = N.of_nat (length (snd g))) gs.
Proof.
  induction f as [|f IH]; intros p b l Hb Rd; cbn [ss_iter] in Rd; [discriminate|]. unfold ss_next in Rd. destruct (0 <? p) eqn:P.
  - destruct (next_entry b) as [e r| |] eqn:Ne; try discriminate. destruct (unpack_from 2304 s_unpack e) as [s| |] eqn:U; try discriminate.
    destruct (ss_iter a_unpack storage_count s_unpack f (p - 1) r) as [l' z] eqn:Q. injection Rd as <- ->.
    apply next_inv in Ne as (_ & _ & _ & _ & Ne); [|exact Hb]. assert (Hr : bytes_ok r) by (rewrite Ne, bytes_ok_app in Hb; apply Hb).
    destruct (IH _ _ _ Hr Q) as (es & rest & ss & gs & -> & Eo & F & -> & Ls & G). exists (e :: es), rest, (s :: ss), gs. rewrite file_cons, <- app_assoc. split; [exact Ne|]. split; [exact Eo|].
    split; [constructor; [apply unpack_inv, U|exact F]|]. split; [reflexivity|]. split; [cbn [length]; lia|exact G].
  - destruct (next_entry b) as [e r| |] eqn:Ne; try discriminate.
    + destruct (unpack_from 2048 a_unpack e) as [a| |] eqn:U; try discriminate. destruct (ss_iter a_unpack storage_count s_unpack f (storage_count a) r) as [l' z] eqn:Q. injection Rd as <- ->.
      apply next_inv in Ne as (_ & _ & _ & _ & Ne); [|exact Hb]. assert (Hr : bytes_ok r) by (rewrite Ne, bytes_ok_app in Hb; apply Hb).
      destruct (IH _ _ _ Hr Q) as (es & rest & ss & gs & -> & Eo & F & -> & Ls & G). exists (e :: es), rest, [], ((a, ss) :: gs). rewrite file_cons, <- app_assoc. split; [exact Ne|]. split; [exact Eo|].
      split; [constructor; [apply unpack_inv, U|exact F]|]. split; [reflexivity|]. split; [cbn [length]; lia|]. constructor; [cbn [fst snd]; lia|exact G].
    + injection Rd as <-. exists [], b, [], []. split; [reflexivity|]. split; [exact Ne|]. split; [constructor|]. split; [reflexivity|]. split; [cbn [length]; lia|constructor].
Qed.
Theorem C76_reads_the_file : forall b h l, bytes_ok b -> ss_read h_unpack a_unpack storage_count s_unpack b = Ok (h, l, Ok tt) ->
  exists eh es rest gs, b = file (version_entry :: eh :: es) ++ rest /\ next_entry rest = Eof /\ holds 0x0300 h_unpack eh h /\ Forall2 item_in es l /\
    l = flatten gs /\ Forall (fun g => storage_count (fst g) = N.of_nat (length (snd g))) gs.
Proof.
  intros b h l Hb Rd. unfold ss_read, ss_open in Rd. destruct (next_entry b) as [v b1| |] eqn:N1; try discriminate. destruct (version_from v) as [v'| |] eqn:V; try discriminate. cbn [obind] in Rd.
  apply version_inv in V as [-> ->]. destruct (next_entry b1) as [eh b2| |] eqn:N2; try discriminate. destruct (unpack_from 768 h_unpack eh) as [h'| |] eqn:U; try discriminate. cbn [omap obind fst snd] in Rd.
  destruct (ss_iter a_unpack storage_count s_unpack (Datatypes.S (length b2)) 0 b2) as [l' z] eqn:Q. injection Rd as <- <- ->.
  apply next_inv in N1 as (_ & _ & _ & _ & N1); [|exact Hb]. assert (H1 : bytes_ok b1) by (rewrite N1, bytes_ok_app in Hb; apply Hb). apply next_inv in N2 as (_ & _ & _ & _ & N2); [|exact H1].
  assert (H2 : bytes_ok b2) by (rewrite N2, bytes_ok_app in H1; apply H1). destruct (iter_inv _ _ _ _ H2 Q) as (es & rest & ss & gs & E & Eo & F & L & Ls & G).
  destruct ss; [|cbn [length] in Ls; lia]. exists eh, es, rest, gs. rewrite !file_cons, <- !app_assoc, <- E, <- N2. split; [exact N1|]. split; [exact Eo|]. split; [apply unpack_inv, U|]. split; [exact F|]. split; [exact L|exact G].
Qed.
End Snapshot.

Print Assumptions C73_reads_the_file.
Print Assumptions C74_reads_the_file.
Print Assumptions C75_reads_the_file.
Print Assumptions C76_reads_the_file.

(** Files of these kinds exist: see C73_case to C76_case and the theorems C73_round_trip to
    C76_round_trip, by which they are read.  A small snapshot: *)
Example C76_read_case : ss_read Some Some (fun a : bytes => blen a) Some
  (file [version_entry; entry_new 0x0300 [1]; entry_new 0x0800 [7; 7]; entry_new 0x0900 [5]; entry_new 0x0900 [6]; entry_new 0x0800 []]) =
  Ok ([1], [Account [7; 7]; Storage [5]; Storage [6]; Account []], Ok tt).
Proof. reflexivity. Qed.
