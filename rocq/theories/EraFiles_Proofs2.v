From Verif Require Import Base E2Store_Model E2Store_Spec E2Store_Proofs E2Store_Props EraFiles_Model EraFiles_Spec EraFiles_Proofs.

Lemma era_fork_spec s f : era_fork_of s = Ok f <-> fork_at s f.
Proof.
  unfold era_fork_of, fork_at. destruct (s <? 4636672) eqn:E1; [split; [discriminate|destruct f; lia]|].
  destruct (s <? 6209536) eqn:E2; [split; [intros [= <-]; lia|destruct f; (reflexivity || lia)]|].
  destruct (s <? 8626176) eqn:E3; [split; [intros [= <-]; lia|destruct f; (reflexivity || lia)]|].
  destruct (s <? 11649024) eqn:E4; (split; [intros [= <-]; lia|destruct f; (reflexivity || lia)]).
Qed.

Lemma unpack_new {A} t (u : bytes -> option A) v : unpack_from t u (entry_new t v) = of_option (u v).
Proof. unfold unpack_from, entry_new, e_type, e_reserved, e_value. rewrite !N.eqb_refl. reflexivity. Qed.

Section Era.
Context {Bk St : Type}.
Context (bk_pack : Bk -> bytes) (bk_unpack : era_fork -> bytes -> option Bk).
Context (st_pack : St -> bytes) (st_unpack : era_fork -> bytes -> option St).
Notation era_frame := (@era_frame Bk St bk_pack st_pack).
Notation era_entries := (@era_entries Bk St bk_pack st_pack).
Notation era_read := (@era_read Bk St bk_unpack st_unpack).
Notation bk_entry := (fun b : Bk => entry_new 0x0100 (bk_pack b)).

Fixpoint slot_list (s : N) (slots : list (option Bk)) : list N :=
  match slots with
  | [] => []
  | Some _ :: r => s :: slot_list (s + 1) r
  | None :: r => slot_list (s + 1) r
  end.
Lemma block_slots_of mark start slots offs : forall k, Forall2 (fun o off => o = None <-> off = mark) slots offs ->
  start + N.of_nat k + N.of_nat (length offs) <= 2 ^ 64 ->
  flat_map (fun p => if negb (snd p =? mark) then [(start + N.of_nat (fst p)) mod 2 ^ 64] else []) (combine (seq k (length offs)) offs) = slot_list (start + N.of_nat k) slots.
Proof.
  intros k F. revert k. induction F as [|o off slots offs E F IH]; intros k L; [reflexivity|].
  cbn [length seq combine flat_map fst snd]. cbn [length] in L.
  assert (Ek : start + N.of_nat k + 1 = start + N.of_nat (S k)) by lia. rewrite IH by lia.
  rewrite N.mod_small by lia. destruct o as [b|]; cbn [slot_list]; rewrite Ek.
  - destruct (off =? mark) eqn:M; [|reflexivity]. apply N.eqb_eq in M. exfalso. destruct E as [_ E]. specialize (E M). discriminate.
  - destruct E as [E _]. rewrite (E eq_refl), N.eqb_refl. reflexivity.
Qed.
Lemma slot_list_len s slots : length (slot_list s slots) = length (present slots).
Proof. revert s. induction slots as [|[b|] slots IH]; intros s; cbn [slot_list present flat_map app length]; [reflexivity| |]; rewrite ?IH; reflexivity. Qed.
Lemma read_blocks_ok s slots : forall rest,
  (forall i b, nth_error slots i = Some (Some b) -> exists f, fork_at (s + N.of_nat i) f /\ bk_unpack f (bk_pack b) = Some b) ->
  read_blocks bk_unpack (slot_list s slots) (map bk_entry (present slots) ++ rest) = Ok (present slots).
Proof.
  revert s. induction slots as [|o slots IH]; intros s rest Hs; [reflexivity|].
  assert (Hn : forall i b, nth_error slots i = Some (Some b) -> exists f, fork_at (s + 1 + N.of_nat i) f /\ bk_unpack f (bk_pack b) = Some b).
  { intros i b Hi. destruct (Hs (S i) b Hi) as (f & Hf & U). exists f. split; [|exact U]. replace (s + 1 + N.of_nat i) with (s + N.of_nat (S i)) by lia. exact Hf. }
  destruct o as [b|]; cbn [slot_list present flat_map]; [|apply IH, Hn]. cbn [app map read_blocks].
  destruct (Hs 0%nat b eq_refl) as (f & Hf & U). replace (s + N.of_nat 0) with s in Hf by lia. apply era_fork_spec in Hf. rewrite Hf. cbn [obind].
  rewrite unpack_new, U. cbn [of_option obind].
  specialize (IH (s + 1) rest Hn). unfold present in IH. rewrite IH. reflexivity.
Qed.

Lemma era_entries_ok slots x : era_frame slots x -> Forall entry_ok (era_entries x).
Proof.
  intros (V & Eb & Xb & Xs & _ & _ & _ & F & Bs & Ls). unfold EraFiles_Model.era_entries. rewrite V, Eb. constructor; [exact version_ok|]. apply Forall_app. split.
  - apply Forall_map. eapply Forall_impl; [|exact F]. intros b [Bb Lb]. apply entry_new_ok; [reflexivity|exact Bb|exact Lb].
  - apply Forall_cons; [apply entry_new_ok; [reflexivity|exact Bs|exact Ls]|]. apply Forall_cons; [apply (index_entry_ok _ _ 8192); [reflexivity|lia|exact Xb]|].
    apply Forall_cons; [apply (index_entry_ok _ _ 1); [reflexivity|lia|exact Xs]|constructor].
Qed.
Lemma index_record_len t ix n : t < 2 ^ 16 -> n <= 8192 -> index_ok ix n -> entry_length (index_entry t ix) = 8 + 8 * (n + 2).
Proof. intros T L X. rewrite (index_entry_val t ix n X L). reflexivity. Qed.
Lemma mem_length_app a b : mem_length (a ++ b) = mem_length a + mem_length b.
Proof. induction a as [|e a IH]; [reflexivity|]. cbn [app]. rewrite !mem_length_cons, IH. lia. Qed.
Lemma era_slots slots x : era_frame slots x -> block_slots (blen (file (era_entries x))) (er_block_index x) = slot_list (ix_start (er_block_index x)) slots.
Proof.
  intros E. pose proof (era_entries_ok slots x E) as F. rewrite <- (mem_length_ok _ F). pose proof E as (V & Eb & Xb & Xs & Lw & Ll & F2 & _). unfold block_slots. cbv zeta.
  set (fl := mem_length (era_entries x)) in *.
  assert (G : 65592 + 8 <= fl).
  { unfold fl, EraFiles_Model.era_entries. rewrite mem_length_cons, mem_length_app, !mem_length_cons.
    rewrite (index_record_len _ _ 8192) by (try exact Xb; reflexivity || lia). rewrite (index_record_len _ _ 1) by (try exact Xs; reflexivity || lia).
    unfold entry_length at 1 2. lia. }
  assert (M : (2 ^ 64 - (fl - (8 + 65552) - (8 + 24))) mod 2 ^ 64 = empty_mark fl).
  { unfold empty_mark. rewrite N.mod_small; change (8 + 65552) with 65560; change (8 + 24) with 32; change (2 ^ 64) with 18446744073709551616; lia. }
  rewrite M. rewrite (block_slots_of (empty_mark fl) _ slots); [|exact F2|destruct Xb as (_ & _ & _ & Lo); lia]. replace (ix_start (er_block_index x) + N.of_nat 0) with (ix_start (er_block_index x)) by lia. reflexivity.
Qed.
Lemma era_reads slots x : era_frame slots x -> era_read (file (era_entries x)) =
  obind (read_blocks bk_unpack (slot_list (ix_start (er_block_index x)) slots)
           (map bk_entry (present slots) ++ [entry_new 0x0200 (st_pack (er_state x)); index_entry 0x6932 (er_block_index x); index_entry 0x6932 (er_state_index x)])) (fun bs =>
  obind (era_fork_of (ix_start (er_state_index x))) (fun f =>
  obind (unpack_from 0x0200 (st_unpack f) (entry_new 0x0200 (st_pack (er_state x)))) (fun s => Ok (mk_era version_entry bs s (er_block_index x) (er_state_index x))))).
Proof.
  intros E. pose proof (era_slots slots x E) as Sl. unfold EraFiles_Model.era_read. pose proof (era_entries_ok slots x E) as F. destruct (C46_round_trip _ F) as (_ & _ & ->). cbn [obind].
  set (fl := blen (file (era_entries x))) in *. clearbody fl. pose proof E as (V & Eb & Xb & Xs & _). unfold EraFiles_Model.era_entries. rewrite V, Eb, version_read. cbn [obind].
  set (st := entry_new 512 (st_pack (er_state x))). set (bi := index_entry 26930 (er_block_index x)). set (si := index_entry 26930 (er_state_index x)).
  assert (Rv : rev (version_entry :: map bk_entry (present slots) ++ [st; bi; si]) = si :: bi :: st :: rev (version_entry :: map bk_entry (present slots))).
  { rewrite app_comm_cons, rev_app_distr. reflexivity. }
  rewrite Rv. unfold bi, si. rewrite (slot_index_read _ 8192) by (exact Xb || lia). cbn [obind]. rewrite (slot_index_read _ 1) by (exact Xs || lia). cbn [obind]. cbv zeta. rewrite Sl.
  rewrite n_len_cons, n_len_app. unfold n_len at 1 2. rewrite slot_list_len, map_length. change (n_len [_; _; _]) with 3.
  replace (N.of_nat (length (present slots)) + 4 =? 1 + (N.of_nat (length (present slots)) + 3)) with true by lia. cbn [negb]. reflexivity.
Qed.
End Era.

Section Groups.
Context {A S : Type} (storage_count : A -> N) (items : S -> N).
(** the storage records due after [l], if all of it is accepted *)
Inductive accepted : N -> list (@ss_item A S) -> N -> Prop :=
| acc_nil p : accepted p [] p
| acc_account a l p : accepted (storage_count a) l p -> accepted 0 (Account a :: l) p
| acc_storage q s l p : 0 < q -> (if q =? 1 then items s <= 10000000 else items s = 10000000) -> accepted (q - 1) l p -> accepted q (Storage s :: l) p.

(** The sequences accepted in full. *)
Lemma accepted_app l : forall q p m r, accepted q l p -> accepted p m r -> accepted q (l ++ m) r.
Proof. induction l as [|i l IH]; intros q p m r X Y; inversion X; subst; [exact Y| |]; cbn [app]; constructor; eauto. Qed.
Lemma accepted_prefix l : forall q m r, accepted q (l ++ m) r -> exists p, accepted q l p /\ accepted p m r.
Proof.
  induction l as [|i l IH]; intros q m r X; cbn [app] in X; [exists q; split; [constructor|exact X]|].
  inversion X as [|a l' p' X'|q' s l' p' Q C X']; subst; destruct (IH _ _ _ X') as (p & Y & Z); exists p; (split; [constructor; assumption|exact Z]).
Qed.
Lemma accepted_det l : forall q p r, accepted q l p -> accepted q l r -> p = r.
Proof. induction l as [|i l IH]; intros q p r X Y; inversion X; subst; inversion Y; subst; [reflexivity|eauto|eauto]. Qed.
Lemma filled_cons s ss : filled items (s :: ss) <-> (match ss with [] => items s <= 10000000 | _ => items s = 10000000 end) /\ filled items ss.
Proof.
  split.
  - intros F. split.
    + specialize (F 0%nat s eq_refl). cbn [length] in F. destruct ss; exact F.
    + intros i t Hi. specialize (F (Datatypes.S i) t Hi). cbn [length Nat.eqb] in *. exact F.
  - intros [F1 F2] [|i] t Hi; cbn [nth_error] in Hi.
    + injection Hi as <-. destruct ss; exact F1.
    + exact (F2 i t Hi).
Qed.
Lemma accepted_storage ss : filled items ss -> accepted (N.of_nat (length ss)) (map (@Storage A S) ss) 0.
Proof.
  induction ss as [|s ss IH]; intros F; [constructor|]. apply filled_cons in F as [F1 F2]. cbn [length map]. constructor; [lia| |].
  - destruct ss as [|s' ss]; cbn [length] in *; [exact F1|]. replace (N.of_nat _ =? 1) with false by lia. exact F1.
  - replace (N.of_nat (Datatypes.S (length ss)) - 1) with (N.of_nat (length ss)) by lia. apply IH, F2.
Qed.
Lemma accepted_flatten gs : Forall (account_ok storage_count items) gs -> accepted 0 (flatten gs) 0.
Proof.
  induction 1 as [|[a ss] gs [C F] G IH]; [constructor|]. cbn [fst snd] in *. unfold flatten. cbn [flat_map app fst snd]. constructor. rewrite C.
  eapply accepted_app; [apply accepted_storage, F|exact IH].
Qed.
Lemma storage_prefix l : forall q, accepted q l 0 -> exists ss m, l = map (@Storage A S) ss ++ m /\ N.of_nat (length ss) = q /\ filled items ss /\ accepted 0 m 0.
Proof.
  induction l as [|i l IH]; intros q X.
  - inversion X; subst. exists [], []. repeat split; [|constructor]. intros i s Hi. destruct i; discriminate.
  - inversion X as [|a l' p' X'|q' s l' p' Q C X']; subst.
    + exists [], (Account a :: l). repeat split; [|exact X]. intros i s Hi. destruct i; discriminate.
    + destruct (IH _ X') as (ss & m & -> & L & F & Y). exists (s :: ss), m. split; [reflexivity|]. split; [cbn [length]; lia|]. split; [|exact Y].
      apply filled_cons. split; [|exact F]. destruct ss; cbn [length] in L.
      * replace (q =? 1) with true in C by lia. exact C.
      * replace (q =? 1) with false in C by lia. exact C.
Qed.
Lemma accepted_groups n : forall l, (length l <= n)%nat -> accepted 0 l 0 -> exists gs, l = flatten gs /\ Forall (account_ok storage_count items) gs.
Proof.
  induction n as [|n IH]; intros l L X.
  - destruct l; [|cbn in L; lia]. exists []. split; [reflexivity|constructor].
  - inversion X as [|a l' p' X'|q' s l' p' Q C X']; subst; [exists []; split; [reflexivity|constructor]| |lia].
    destruct (storage_prefix _ _ X') as (ss & m & -> & Ls & F & Y). cbn [length] in L. rewrite app_length in L.
    destruct (IH m ltac:(lia) Y) as (gs & -> & G). exists ((a, ss) :: gs). split; [reflexivity|]. constructor; [|exact G]. split; [symmetry; exact Ls|exact F].
Qed.
End Groups.

Section Items.
Context {A S : Type}.
Context (a_pack : A -> bytes) (a_unpack : bytes -> option A) (storage_count : A -> N).
Context (s_pack : S -> bytes) (s_unpack : bytes -> option S) (items : S -> N).
Notation ss_entry := (@ss_entry A S a_pack s_pack).
Notation ss_append := (@ss_append A S a_pack storage_count s_pack items).
Notation ss_appends := (@ss_appends A S a_pack storage_count s_pack items).
Notation ss_iter := (@ss_iter A S a_unpack storage_count s_unpack).
Notation accepted := (accepted storage_count items).
Definition item_ok (i : @ss_item A S) : Prop := match i with Account a => packs a_pack a_unpack a | Storage s => packs s_pack s_unpack s end.
Lemma item_entry_ok i : item_ok i -> entry_ok (ss_entry i).
Proof. destruct i; cbn [item_ok EraFiles_Model.ss_entry]; intros P; (eapply packs_ok; [reflexivity|exact P]). Qed.

Lemma append_step es q i : item_ok i ->
  ss_append (mk_ss_writer (file es) q) i =
  match i with
  | Account a => if q =? 0 then (mk_ss_writer (file (es ++ [ss_entry i])) (storage_count a), Ok tt) else (mk_ss_writer (file es) q, Err)
  | Storage s => if q =? 0 then (mk_ss_writer (file es) q, Err)
                 else if (if q =? 1 then items s <=? 10000000 else items s =? 10000000)
                      then (mk_ss_writer (file (es ++ [ss_entry i])) (q - 1), Ok tt) else (mk_ss_writer (file es) q, Err)
  end.
Proof.
  intros P. unfold EraFiles_Model.ss_append, ss_write, ss_pending, ss_file. pose proof (append_ok es (ss_entry i) (item_entry_ok i P)) as Ap. destruct i as [a|s].
  - destruct (q =? 0); cbn [negb]; [|reflexivity]. rewrite Ap. reflexivity.
  - destruct (q =? 0); [reflexivity|]. destruct (if q =? 1 then _ else _); cbn [negb]; [|reflexivity]. rewrite Ap. reflexivity.
Qed.
Lemma appends_iff l : forall es q, Forall item_ok l ->
  let r := ss_appends (mk_ss_writer (file es) q) l in
  (Forall (eq (Ok tt)) (snd r) <-> exists p, accepted q l p) /\
  (forall p, accepted q l p -> fst r = mk_ss_writer (file (es ++ map ss_entry l)) p).
Proof.
  induction l as [|i l IH]; intros es q F r; subst r.
  - cbn [EraFiles_Model.ss_appends fst snd]. split; [split; [intros _; exists q; constructor|constructor]|]. intros p X. inversion X; subst. rewrite app_nil_r. reflexivity.
  - inversion F as [|? ? P F']; subst. cbn [EraFiles_Model.ss_appends]. rewrite append_step by exact P.
    assert (Go : forall q', (forall p, accepted q (i :: l) p <-> accepted q' l p) ->
      let r := (let (w'', os) := ss_appends (mk_ss_writer (file (es ++ [ss_entry i])) q') l in (w'', Ok tt :: os)) in
      (Forall (eq (Ok tt)) (snd r) <-> exists p, accepted q (i :: l) p) /\
      (forall p, accepted q (i :: l) p -> fst r = mk_ss_writer (file (es ++ map ss_entry (i :: l))) p)).
    { intros q' Eq. destruct (IH (es ++ [ss_entry i]) q' F') as [I1 I2]. destruct (ss_appends _ l) as [w'' os]. cbn [fst snd] in *. split.
      - split.
        + intros Fo. inversion Fo as [|? ? _ Fo2]; subst. apply I1 in Fo2 as (p & X). exists p. apply Eq, X.
        + intros (p & X). constructor; [reflexivity|]. apply I1. exists p. apply Eq, X.
      - intros p X. rewrite (I2 p) by (apply Eq, X). rewrite <- app_assoc. reflexivity. }
    assert (Bad : (forall p, ~ accepted q (i :: l) p) ->
      let r := (let (w'', os) := ss_appends (mk_ss_writer (file es) q) l in (w'', @Err unit :: os)) in
      (Forall (eq (Ok tt)) (snd r) <-> exists p, accepted q (i :: l) p) /\
      (forall p, accepted q (i :: l) p -> fst r = mk_ss_writer (file (es ++ map ss_entry (i :: l))) p)).
    { intros No. destruct (ss_appends _ l) as [w'' os]. cbn [fst snd]. split.
      - split; [intros Fo; inversion Fo; discriminate|]. intros (p & X). destruct (No p X).
      - intros p X. destruct (No p X). }
    destruct i as [a|s].
    + destruct (q =? 0) eqn:Q.
      * apply N.eqb_eq in Q. subst q. apply Go. intros p. split; [intros X; inversion X; assumption|apply acc_account].
      * apply Bad. intros p X. inversion X; subst. discriminate.
    + destruct (q =? 0) eqn:Q; [apply Bad; intros p X; inversion X; subst; lia|].
      destruct (if q =? 1 then items s <=? 10000000 else items s =? 10000000) eqn:C.
      * apply Go. intros p. split; [intros X; inversion X; assumption|]. apply acc_storage; [lia|]. destruct (q =? 1); lia.
      * apply Bad. intros p X. inversion X; subst. destruct (q =? 1); lia.
Qed.

(** Reading. *)
Lemma iter_items l : forall q p fuel rest, Forall item_ok l -> accepted q l p ->
  ss_iter (length l + fuel) q (file (map ss_entry l) ++ rest) = (let (m, z) := ss_iter fuel p rest in (l ++ m, z)).
Proof.
  induction l as [|i l IH]; intros q p fuel rest F X.
  - inversion X; subst. cbn [length Nat.add map app]. change (file [] ++ rest) with rest. destruct (ss_iter fuel p rest); reflexivity.
  - inversion F as [|? ? P F']; subst. cbn [length Nat.add EraFiles_Model.ss_iter map]. rewrite file_cons, <- app_assoc. unfold ss_next.
    rewrite next_record by (apply item_entry_ok, P). inversion X as [|a l' p' X'|q' s l' p' Q C X']; subst.
    + cbn [N.ltb]. change (0 <? 0) with false. cbv iota. cbn [EraFiles_Model.ss_entry]. rewrite (packs_read _ _ _ _ P). rewrite (IH _ p fuel rest F' X'). destruct (ss_iter fuel p rest); reflexivity.
    + replace (0 <? q) with true by lia. cbn [EraFiles_Model.ss_entry]. rewrite (packs_read _ _ _ _ P). rewrite (IH _ p fuel rest F' X'). destruct (ss_iter fuel p rest); reflexivity.
Qed.
Lemma iter_eof fuel p rest : next_entry rest = Eof -> ss_iter (Datatypes.S fuel) p rest = ([], if p =? 0 then Ok tt else Panic).
Proof.
  intros E. cbn [EraFiles_Model.ss_iter]. unfold ss_next. rewrite E. destruct (p =? 0) eqn:Q.
  - replace (0 <? p) with false by lia. reflexivity.
  - replace (0 <? p) with true by lia. reflexivity.
Qed.
Lemma items_long l : (length l <= length (file (map ss_entry l)))%nat.
Proof. pose proof (file_long (map ss_entry l)) as L. rewrite map_length in L. exact L. Qed.
End Items.

Section Snapshot.
Context {H : Type} (h_pack : H -> bytes) (h_unpack : bytes -> option H).
Context {A S : Type}.
Context (a_pack : A -> bytes) (a_unpack : bytes -> option A) (storage_count : A -> N).
Context (s_pack : S -> bytes) (s_unpack : bytes -> option S) (items : S -> N).
Notation ss_entry := (@ss_entry A S a_pack s_pack).
Notation ss_append := (@ss_append A S a_pack storage_count s_pack items).
Notation ss_appends := (@ss_appends A S a_pack storage_count s_pack items).
Notation ss_iter := (@ss_iter A S a_unpack storage_count s_unpack).
Notation accepted := (accepted storage_count items).
Notation ss_read := (@ss_read H A S h_unpack a_unpack storage_count s_unpack).
Notation item_ok := (item_ok a_pack a_unpack s_pack s_unpack).
Definition ss_prefix (h : H) : list entry := [version_entry; entry_new 0x0300 (h_pack h)].
Lemma prefix_ok h : packs h_pack h_unpack h -> Forall entry_ok (ss_prefix h).
Proof. intros P. constructor; [exact version_ok|]. constructor; [eapply packs_ok; [reflexivity|exact P]|constructor]. Qed.
Lemma create_ok h : packs h_pack h_unpack h -> ss_create h_pack h = Ok (mk_ss_writer (file (ss_prefix h)) 0).
Proof.
  intros P. unfold ss_create. change (@nil N) with (file []). rewrite append_ok by exact version_ok. cbn [obind]. rewrite append_ok by (eapply packs_ok; [reflexivity|exact P]). reflexivity.
Qed.
Lemma open_ok h rest : packs h_pack h_unpack h -> ss_open h_unpack (file (ss_prefix h) ++ rest) = Ok (h, rest).
Proof.
  intros P. unfold ss_open, ss_prefix. rewrite !file_cons, <- !app_assoc. rewrite next_record by exact version_ok. rewrite version_read. cbn [obind].
  rewrite next_record by (eapply packs_ok; [reflexivity|exact P]). rewrite (packs_read _ _ _ _ P). reflexivity.
Qed.
Lemma read_ok h l p rest : packs h_pack h_unpack h -> Forall item_ok l -> accepted 0 l p -> next_entry rest = Eof ->
  ss_read (file (ss_prefix h ++ map ss_entry l) ++ rest) = Ok (h, l, if p =? 0 then Ok tt else Panic).
Proof.
  intros P F X E. unfold EraFiles_Model.ss_read. rewrite file_app, <- app_assoc, open_ok by exact P. cbn [obind fst snd].
  set (b := file (map ss_entry l) ++ rest). assert (L : exists f, Datatypes.S (length b) = (length l + Datatypes.S f)%nat).
  { exists (length b - length l)%nat. unfold b. rewrite app_length. pose proof (items_long a_pack s_pack l) as Il. clear - Il. lia. }
  destruct L as (f & ->). unfold b. rewrite (iter_items _ a_unpack _ _ s_unpack items l 0 p _ rest F X), iter_eof by exact E. rewrite app_nil_r. reflexivity.
Qed.

End Snapshot.
