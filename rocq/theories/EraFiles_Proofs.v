From Verif Require Import Base E2Store_Model E2Store_Spec E2Store_Proofs E2Store_Props EraFiles_Model EraFiles_Spec.

Lemma entry_new_ok t v : t < 2 ^ 16 -> bytes_ok v -> blen v < 2 ^ 32 - 8 -> entry_ok (entry_new t v).
Proof. intros T B L. apply (C46_built_entries t v T B L). Qed.
Lemma version_ok : entry_ok version_entry.
Proof. apply entry_new_ok; [reflexivity|constructor|reflexivity]. Qed.
Lemma version_read : version_from version_entry = Ok version_entry.
Proof. reflexivity. Qed.
Lemma packs_ok {A} (pack : A -> bytes) unpack v t : t < 2 ^ 16 -> packs pack unpack v -> entry_ok (entry_new t (pack v)).
Proof. intros T (B & L & _). apply entry_new_ok; assumption. Qed.
Lemma packs_read {A} (pack : A -> bytes) unpack v t : packs pack unpack v -> unpack_from t unpack (entry_new t (pack v)) = Ok v.
Proof. intros (_ & _ & U). unfold unpack_from, entry_new, e_type, e_reserved, e_value. rewrite N.eqb_refl, U. reflexivity. Qed.
Lemma word_read t v : blen v = 32 -> word_from t (entry_new t v) = Ok v.
Proof. intros L. unfold word_from, entry_new, e_type, e_len, e_reserved, e_value. rewrite N.eqb_refl, L. reflexivity. Qed.
Lemma difficulty_ok d : entry_ok (difficulty_entry d).
Proof. apply entry_new_ok; [reflexivity|apply be_bytes_ok|]. unfold blen. rewrite be_bytes_length. reflexivity. Qed.
Lemma difficulty_read d : d < 2 ^ 256 -> difficulty_from (difficulty_entry d) = Ok d.
Proof.
  intros L. unfold difficulty_from, difficulty_entry. rewrite word_read by (unfold blen; rewrite be_bytes_length; reflexivity).
  cbn [omap]. rewrite be_num_be_bytes_id by exact L. reflexivity.
Qed.

(** Words of 64 bits. *)
Lemma u64s_len l : blen (u64s l) = 8 * N.of_nat (length l).
Proof.
  induction l as [|x l IH]; [reflexivity|]. unfold u64s in *. cbn [map concat length]. rewrite blen_app, IH.
  unfold blen at 1. rewrite le_bytes_length. lia.
Qed.
Lemma u64s_ok l : bytes_ok (u64s l).
Proof. apply bytes_ok_concat. apply Forall_map. apply Forall_forall. intros x _. apply le_bytes_ok. Qed.
Lemma u64s_read l : Forall (fun o => o < 2 ^ 64) l -> read_u64s (length l) (u64s l) = Ok l.
Proof.
  induction 1 as [|x l Hx F IH]; [reflexivity|]. cbn [length read_u64s]. rewrite u64s_len. cbn [length].
  replace (8 * N.of_nat (S (length l)) <? 8) with false by lia. change (u64s (x :: l)) with (le_bytes 8 x ++ u64s l).
  rewrite skipn_app_len by (rewrite le_bytes_length; reflexivity). rewrite firstn_app_len by (rewrite le_bytes_length; reflexivity).
  rewrite IH. cbn [obind]. rewrite le_num_le_bytes_id by exact Hx. reflexivity.
Qed.
Definition index_value (ix : index) : bytes := u64s (ix_start ix :: ix_offsets ix ++ [ix_count ix]).
Lemma index_len ix n : index_ok ix n -> blen (index_value ix) = 8 * (n + 2).
Proof. intros (_ & _ & _ & L). unfold index_value. rewrite u64s_len. cbn [length]. rewrite app_length. cbn [length]. lia. Qed.
Lemma index_of_value ix n : index_ok ix n -> index_of (index_value ix) = Ok ix.
Proof.
  intros X. pose proof (index_len ix n X) as L. destruct X as (S1 & O1 & C1 & Ln). unfold index_of. rewrite L.
  replace ((8 * (n + 2) - 16) / 8) with n by (replace (8 * (n + 2) - 16) with (n * 8) by lia; symmetry; apply N.div_mul; discriminate).
  cbv zeta. replace (N.to_nat (n + 2)) with (length (ix_start ix :: ix_offsets ix ++ [ix_count ix])) by (cbn [length]; rewrite app_length; cbn [length]; lia).
  unfold index_value. rewrite u64s_read. 2: { constructor; [exact S1|]. apply Forall_app. split; [exact O1|]. constructor; [exact C1|constructor]. }
  cbn [obind hd tl]. rewrite firstn_app_len by lia. replace (last (ix_start ix :: ix_offsets ix ++ [ix_count ix]) 0) with (ix_count ix); [destruct ix; reflexivity|].
  rewrite app_comm_cons. symmetry. apply last_last.
Qed.
Lemma index_entry_ok t ix n : t < 2 ^ 16 -> n <= 8192 -> index_ok ix n -> entry_ok (index_entry t ix).
Proof.
  intros T L X. apply entry_new_ok; [exact T|apply u64s_ok|]. change (u64s _) with (index_value ix). rewrite (index_len ix n X). lia.
Qed.
Lemma index_entry_val t ix n : index_ok ix n -> n <= 8192 -> index_entry t ix = mk_entry t (8 * (n + 2)) 0 (index_value ix).
Proof.
  intros X L. unfold index_entry, entry_new. change (u64s _) with (index_value ix). rewrite (index_len ix n X). rewrite N.mod_small by lia. reflexivity.
Qed.
Lemma index_read lens ix n : index_ok ix n -> n <= 8192 -> In (8 * (n + 2)) lens -> index_from lens (index_entry 0x6632 ix) = Ok ix.
Proof.
  intros X L I. rewrite (index_entry_val _ ix n X L). unfold index_from, e_type, e_len, e_reserved, e_value. cbn [N.eqb negb].
  assert (E : existsb (N.eqb (8 * (n + 2))) lens = true) by (apply existsb_exists; exists (8 * (n + 2)); split; [exact I|apply N.eqb_refl]).
  rewrite (index_len ix n X), E. cbn [negb]. change (0x6632 =? 0x6632) with true. cbn [negb]. change (0 =? 0) with true. cbn [negb]. apply (index_of_value ix n X).
Qed.
Lemma slot_index_read ix n : index_ok ix n -> n <= 8192 -> slot_index_from n (index_entry 0x6932 ix) = Ok ix.
Proof.
  intros X L. rewrite (index_entry_val _ ix n X L). unfold slot_index_from, e_type, e_len, e_reserved, e_value.
  replace (8 * (1 + n + 1)) with (8 * (n + 2)) by lia. rewrite (index_len ix n X), !N.eqb_refl. cbn [negb].
  apply (index_of_value ix n X).
Qed.
Lemma last_snoc {A} (d : A) l x : last (l ++ [x]) d = x.
Proof. apply last_last. Qed.
Lemma n_len_app {A} (l r : list A) : n_len (l ++ r) = n_len l + n_len r.
Proof. unfold n_len. rewrite app_length. lia. Qed.
Lemma n_len_cons {A} (x : A) l : n_len (x :: l) = 1 + n_len l.
Proof. unfold n_len. cbn [length]. lia. Qed.

Section Files.
Context {H HP B R : Type}.
Context (h_pack : H -> bytes) (h_unpack : bytes -> option H).
Context (hp_pack : HP -> bytes) (hp_unpack : bytes -> option HP).
Context (b_pack : B -> bytes) (b_unpack : bytes -> option B).
Context (r_pack : R -> bytes) (r_unpack : bytes -> option R).
Notation tuple4_ok := (tuple4_ok h_pack h_unpack b_pack b_unpack r_pack r_unpack).
Notation tuple4_entries := (tuple4_entries h_pack b_pack r_pack).
Notation read_tuples4 := (read_tuples4 h_unpack b_unpack r_unpack).
Notation tuple3_ok := (tuple3_ok hp_pack hp_unpack b_pack b_unpack r_pack r_unpack).
Notation tuple3_entries := (tuple3_entries hp_pack b_pack r_pack).
Notation read_tuples3 := (read_tuples3 hp_unpack b_unpack r_unpack).

Lemma tuple4_entries_ok t : tuple4_ok t -> Forall entry_ok (tuple4_entries t).
Proof.
  intros (Ph & Pb & Pr & _). unfold EraFiles_Model.tuple4_entries. repeat (apply Forall_cons || apply Forall_nil); first [apply difficulty_ok|eapply packs_ok; [reflexivity|eassumption]].
Qed.
Lemma tuple4_read t : tuple4_ok t -> match tuple4_entries t with [a; b; c; d] => tuple4_from h_unpack b_unpack r_unpack a b c d = Ok t | _ => False end.
Proof.
  intros (Ph & Pb & Pr & D). unfold EraFiles_Model.tuple4_entries, tuple4_from. rewrite (packs_read _ _ _ _ Ph), (packs_read _ _ _ _ Pb), (packs_read _ _ _ _ Pr).
  cbn [obind]. rewrite difficulty_read by exact D. cbn [obind]. destruct t; reflexivity.
Qed.
Lemma tuples4_ok ts : Forall tuple4_ok ts -> Forall entry_ok (flat_map tuple4_entries ts).
Proof. induction 1 as [|t ts P F IH]; [constructor|]. cbn [flat_map]. apply Forall_app. split; [apply tuple4_entries_ok, P|exact IH]. Qed.
Lemma tuples4_len ts : n_len (flat_map tuple4_entries ts) = 4 * n_len ts.
Proof. induction ts as [|t ts IH]; [reflexivity|]. cbn [flat_map]. rewrite n_len_app, IH, n_len_cons. change (n_len (tuple4_entries t)) with 4. lia. Qed.
Lemma tuples4_read_more ts : forall n rest, Forall tuple4_ok ts ->
  read_tuples4 (n_len ts + n) (flat_map tuple4_entries ts ++ rest) = obind (read_tuples4 n rest) (fun r => Ok (ts ++ fst r, snd r)).
Proof.
  induction ts as [|t ts IH]; intros n rest F.
  - change (n_len (@nil tuple4)) with 0. cbn [flat_map app]. rewrite N.add_0_l. destruct (read_tuples4 n rest) as [[? ?]| |]; reflexivity.
  - inversion F as [|? ? P F']; subst. rewrite n_len_cons. cbn [flat_map]. rewrite <- app_assoc. pose proof (tuple4_read t P) as Rd.
    unfold EraFiles_Model.tuple4_entries in Rd at 1. unfold EraFiles_Model.tuple4_entries at 1. cbn [app EraFiles_Model.read_tuples4].
    replace (1 + n_len ts + n =? 0) with false by lia. rewrite Rd. cbn [obind].
    replace (1 + n_len ts + n - 1) with (n_len ts + n) by lia. rewrite IH by exact F'. destruct (read_tuples4 n rest) as [[? ?]| |]; reflexivity.
Qed.
Lemma tuples4_zero rest : read_tuples4 0 rest = Ok ([], rest).
Proof. destruct rest; reflexivity. Qed.
Lemma tuples4_read ts rest : Forall tuple4_ok ts -> read_tuples4 (n_len ts) (flat_map tuple4_entries ts ++ rest) = Ok (ts, rest).
Proof.
  intros F. pose proof (tuples4_read_more ts 0 rest F) as E. rewrite N.add_0_r, tuples4_zero in E. cbn [obind fst snd] in E. rewrite app_nil_r in E. exact E.
Qed.
Lemma tuples4_short n rest : 0 < n -> n_len rest < 4 -> read_tuples4 n rest = Panic.
Proof.
  intros L S. destruct rest as [|a [|b [|c [|d rest]]]]; cbn [EraFiles_Model.read_tuples4]; replace (n =? 0) with false by lia; try reflexivity.
  rewrite !n_len_cons in S. lia.
Qed.

Lemma tuple3_entries_ok t : tuple3_ok t -> Forall entry_ok (tuple3_entries t).
Proof. intros (Ph & Pb & Pr). unfold EraFiles_Model.tuple3_entries. repeat (apply Forall_cons || apply Forall_nil); (eapply packs_ok; [reflexivity|eassumption]). Qed.
Lemma tuple3_read t : tuple3_ok t -> match tuple3_entries t with [a; b; c] => tuple3_from hp_unpack b_unpack r_unpack a b c = Ok t | _ => False end.
Proof.
  intros (Ph & Pb & Pr). unfold EraFiles_Model.tuple3_entries, tuple3_from. rewrite (packs_read _ _ _ _ Ph), (packs_read _ _ _ _ Pb), (packs_read _ _ _ _ Pr).
  cbn [obind]. destruct t; reflexivity.
Qed.
Lemma tuples3_ok ts : Forall tuple3_ok ts -> Forall entry_ok (flat_map tuple3_entries ts).
Proof. induction 1 as [|t ts P F IH]; [constructor|]. cbn [flat_map]. apply Forall_app. split; [apply tuple3_entries_ok, P|exact IH]. Qed.
Lemma tuples3_len ts : n_len (flat_map tuple3_entries ts) = 3 * n_len ts.
Proof. induction ts as [|t ts IH]; [reflexivity|]. cbn [flat_map]. rewrite n_len_app, IH, n_len_cons. change (n_len (tuple3_entries t)) with 3. lia. Qed.
Lemma tuples3_read_more ts : forall n rest, Forall tuple3_ok ts ->
  read_tuples3 (n_len ts + n) (flat_map tuple3_entries ts ++ rest) = obind (read_tuples3 n rest) (fun r => Ok (ts ++ fst r, snd r)).
Proof.
  induction ts as [|t ts IH]; intros n rest F.
  - change (n_len (@nil tuple3)) with 0. cbn [flat_map app]. rewrite N.add_0_l. destruct (read_tuples3 n rest) as [[? ?]| |]; reflexivity.
  - inversion F as [|? ? P F']; subst. rewrite n_len_cons. cbn [flat_map]. rewrite <- app_assoc. pose proof (tuple3_read t P) as Rd.
    unfold EraFiles_Model.tuple3_entries in Rd at 1. unfold EraFiles_Model.tuple3_entries at 1. cbn [app EraFiles_Model.read_tuples3].
    replace (1 + n_len ts + n =? 0) with false by lia. rewrite Rd. cbn [obind].
    replace (1 + n_len ts + n - 1) with (n_len ts + n) by lia. rewrite IH by exact F'. destruct (read_tuples3 n rest) as [[? ?]| |]; reflexivity.
Qed.
Lemma tuples3_zero rest : read_tuples3 0 rest = Ok ([], rest).
Proof. destruct rest; reflexivity. Qed.
Lemma tuples3_read ts rest : Forall tuple3_ok ts -> read_tuples3 (n_len ts) (flat_map tuple3_entries ts ++ rest) = Ok (ts, rest).
Proof.
  intros F. pose proof (tuples3_read_more ts 0 rest F) as E. rewrite N.add_0_r, tuples3_zero in E. cbn [obind fst snd] in E. rewrite app_nil_r in E. exact E.
Qed.
Lemma tuples3_short n rest : 0 < n -> n_len rest < 3 -> read_tuples3 n rest = Panic.
Proof.
  intros L S. destruct rest as [|a [|b [|c rest]]]; cbn [EraFiles_Model.read_tuples3]; replace (n =? 0) with false by lia; try reflexivity.
  rewrite !n_len_cons in S. lia.
Qed.

Notation era1_entries := (era1_entries h_pack b_pack r_pack).
Notation era1_write := (era1_write h_pack b_pack r_pack).
Notation era1_read := (era1_read h_unpack b_unpack r_unpack).
Notation era1_iter := (era1_iter h_unpack b_unpack r_unpack).
Notation era1_body := (era1_body h_pack h_unpack b_pack b_unpack r_pack r_unpack).

Lemma era1_entries_ok x : era1_body x -> Forall entry_ok (era1_entries x).
Proof.
  intros (V & F & _ & Ba & La & n & Bn & X). unfold EraFiles_Model.era1_entries. rewrite V. constructor; [exact version_ok|]. apply Forall_app. split; [apply tuples4_ok, F|].
  constructor; [|constructor; [|constructor]].
  - apply entry_new_ok; [reflexivity|exact Ba|rewrite La; reflexivity].
  - apply (index_entry_ok _ _ n); [reflexivity|unfold era1_blocks in Bn; lia|exact X].
Qed.
Lemma era1_count x : era1_body x -> era1_count_ok (n_len (era1_entries x)) = true.
Proof.
  intros (_ & _ & Bn & _). unfold EraFiles_Model.era1_entries, era1_count_ok. rewrite n_len_cons, n_len_app, tuples4_len. change (n_len [_; _]) with 2.
  unfold era1_blocks in Bn. fold (n_len (e1_tuples x)) in Bn. destruct Bn as [-> | ->]; reflexivity.
Qed.
Lemma era1_writes x : era1_body x -> era1_write x = Ok (file (era1_entries x)).
Proof.
  intros E. unfold EraFiles_Model.era1_write. rewrite era1_count by exact E. cbn [negb]. apply C46_round_trip, era1_entries_ok, E.
Qed.
Lemma era1_index x : era1_body x -> index_from era1_lens (last (era1_entries x) version_entry) = Ok (e1_index x).
Proof.
  intros (_ & _ & _ & _ & _ & n & Bn & X). unfold EraFiles_Model.era1_entries.
  replace (_ :: _ ++ [_; _]) with ((e1_version x :: flat_map tuple4_entries (e1_tuples x) ++ [accumulator_entry (e1_accumulator x)]) ++ [index_entry 0x6632 (e1_index x)])
    by (cbn [app]; rewrite <- app_assoc; reflexivity).
  rewrite last_snoc. unfold era1_blocks in Bn. apply (index_read _ _ n); [exact X|lia|]. destruct Bn as [-> | ->]; cbn; auto.
Qed.
Lemma era1_reads x : era1_body x -> era1_read (file (era1_entries x)) =
  obind (read_tuples4 (ix_count (e1_index x)) (flat_map tuple4_entries (e1_tuples x) ++ [accumulator_entry (e1_accumulator x); index_entry 0x6632 (e1_index x)])) (fun tr =>
             match snd tr with
             | [] => Panic
             | a :: _ => obind (accumulator_from a) (fun acc => Ok (mk_era1 version_entry (fst tr) acc (e1_index x)))
             end).
Proof.
  intros E. unfold EraFiles_Model.era1_read. pose proof (era1_entries_ok x E) as F. destruct (C46_round_trip _ F) as (_ & _ & ->). cbn [obind].
  rewrite era1_count by exact E. cbn [negb]. pose proof (era1_index x E) as I. pose proof E as (V & _). unfold EraFiles_Model.era1_entries in *. rewrite V in *.
  rewrite version_read. cbn [obind]. rewrite I. cbn [obind]. reflexivity.
Qed.
Lemma era1_iters x : era1_body x -> era1_iter (file (era1_entries x)) =
  expect (omap fst (read_tuples4 (ix_count (e1_index x)) (flat_map tuple4_entries (e1_tuples x) ++ [accumulator_entry (e1_accumulator x); index_entry 0x6632 (e1_index x)]))).
Proof.
  intros E. unfold EraFiles_Model.era1_iter. pose proof (era1_entries_ok x E) as F. destruct (C46_round_trip _ F) as (_ & _ & ->). cbn [obind].
  pose proof (era1_index x E) as I. pose proof E as (V & _). unfold EraFiles_Model.era1_entries in *. rewrite V in *. rewrite I. cbn [expect obind]. reflexivity.
Qed.

Notation e2hs_entries := (e2hs_entries hp_pack b_pack r_pack).
Notation e2hs_write := (e2hs_write hp_pack b_pack r_pack).
Notation e2hs_read := (e2hs_read hp_unpack b_unpack r_unpack).
Notation e2hs_body := (e2hs_body hp_pack hp_unpack b_pack b_unpack r_pack r_unpack).
Lemma e2hs_entries_ok x : e2hs_body x -> Forall entry_ok (e2hs_entries x).
Proof.
  intros (V & F & _ & X). unfold EraFiles_Model.e2hs_entries. rewrite V. constructor; [exact version_ok|]. apply Forall_app. split; [apply tuples3_ok, F|].
  constructor; [|constructor]. apply (index_entry_ok _ _ 8192); [reflexivity|lia|exact X].
Qed.
Lemma e2hs_count x : e2hs_body x -> (n_len (e2hs_entries x) =? 24578) = true.
Proof.
  intros (_ & _ & L & _). unfold EraFiles_Model.e2hs_entries. rewrite n_len_cons, n_len_app, tuples3_len. change (n_len [_]) with 1.
  fold (n_len (hs_tuples x)) in L. rewrite L. reflexivity.
Qed.
Lemma e2hs_writes x : e2hs_body x -> e2hs_write x = Ok (file (e2hs_entries x)).
Proof. intros E. unfold EraFiles_Model.e2hs_write. rewrite e2hs_count by exact E. cbn [negb]. apply C46_round_trip, e2hs_entries_ok, E. Qed.
Lemma e2hs_reads x : e2hs_body x -> e2hs_read (file (e2hs_entries x)) =
  obind (read_tuples3 (ix_count (hs_index x)) (flat_map tuple3_entries (hs_tuples x) ++ [index_entry 0x6632 (hs_index x)])) (fun tr => Ok (mk_e2hs version_entry (fst tr) (hs_index x))).
Proof.
  intros E. unfold EraFiles_Model.e2hs_read. pose proof (e2hs_entries_ok x E) as F. destruct (C46_round_trip _ F) as (_ & _ & ->). cbn [obind].
  rewrite e2hs_count by exact E. cbn [negb]. pose proof E as (V & _ & _ & X). unfold EraFiles_Model.e2hs_entries. rewrite V.
  rewrite version_read. cbn [obind]. rewrite app_comm_cons, last_snoc. rewrite (index_read _ _ 8192); [reflexivity|exact X|lia|]. cbn. auto.
Qed.

(** The writer. *)
Lemma file_app a b : file (a ++ b) = file a ++ file b.
Proof. unfold file. rewrite map_app, concat_app. reflexivity. Qed.
Lemma append_ok es e : entry_ok e -> append_entry (file es) e = Ok (file (es ++ [e])).
Proof.
  intros E. unfold append_entry, entry_serialize. rewrite entry_write_ok by exact E. cbn [omap]. rewrite file_app, file_cons. change (file []) with (@nil N). rewrite app_nil_r. reflexivity.
Qed.
Lemma hs_append_entries_ok l : forall es, Forall entry_ok l -> Forall entry_ok es ->
  hs_append_entries (file es) (blen (file es)) l = Ok (file (es ++ l), blen (file (es ++ l))).
Proof.
  induction l as [|e l IH]; intros es Fl Fe; cbn [hs_append_entries]; [rewrite app_nil_r; reflexivity|]. inversion Fl as [|? ? E Fl']; subst.
  rewrite append_ok by exact E. cbn [obind]. replace (blen (file es) + entry_length e) with (blen (file (es ++ [e]))).
  2: { rewrite file_app, blen_app, file_cons, blen_app, (entry_length_ok e E). change (blen (file [])) with 0. lia. }
  rewrite IH; [rewrite <- app_assoc; reflexivity|exact Fl'|]. apply Forall_app. split; [exact Fe|]. constructor; [exact E|constructor].
Qed.
(** where each tuple begins *)
Fixpoint offsets_of (off : N) (ts : list (@tuple3 HP B R)) : list N :=
  match ts with [] => [] | t :: r => off :: offsets_of (off + blen (file (tuple3_entries t))) r end.
Lemma hs_appends ts : forall es offs, Forall tuple3_ok ts -> Forall entry_ok es ->
  fold_left (fun w t => obind w (fun w => hs_append hp_pack b_pack r_pack w t)) ts (Ok (mk_hs_writer (file es) (blen (file es)) offs)) =
  Ok (mk_hs_writer (file (es ++ flat_map tuple3_entries ts)) (blen (file (es ++ flat_map tuple3_entries ts))) (offs ++ offsets_of (blen (file es)) ts)).
Proof.
  induction ts as [|t ts IH]; intros es offs F Fe.
  - cbn [fold_left flat_map offsets_of]. rewrite !app_nil_r. reflexivity.
  - inversion F as [|? ? T F']; subst. cbn [fold_left obind].
    assert (A : hs_append hp_pack b_pack r_pack (mk_hs_writer (file es) (blen (file es)) offs) t =
      Ok (mk_hs_writer (file (es ++ tuple3_entries t)) (blen (file (es ++ tuple3_entries t))) (offs ++ [blen (file es)]))).
    { unfold hs_append, hw_file, hw_offset, hw_offsets. rewrite hs_append_entries_ok; [reflexivity|apply tuple3_entries_ok, T|exact Fe]. }
    rewrite A, IH; [|exact F'|apply Forall_app; split; [exact Fe|apply tuple3_entries_ok, T]].
    cbn [flat_map offsets_of]. rewrite <- !app_assoc. cbn [app]. rewrite (file_app es (tuple3_entries t)), blen_app. reflexivity.
Qed.
Lemma offsets_len ts : forall off, length (offsets_of off ts) = length ts.
Proof. induction ts as [|t ts IH]; intros off; cbn [offsets_of length]; [reflexivity|]. rewrite IH. reflexivity. Qed.
Lemma offsets_at ts : forall off i t, nth_error ts i = Some t ->
  nth_error (offsets_of off ts) i = Some (off + blen (file (flat_map tuple3_entries (firstn i ts)))).
Proof.
  induction ts as [|t0 ts IH]; intros off [|i] t E; cbn [nth_error] in E; try discriminate.
  - cbn [offsets_of nth_error firstn flat_map]. change (blen (file [])) with 0. rewrite N.add_0_r. reflexivity.
  - cbn [offsets_of nth_error firstn flat_map]. rewrite (IH _ i t E), file_app, blen_app. f_equal. lia.
Qed.
End Files.
