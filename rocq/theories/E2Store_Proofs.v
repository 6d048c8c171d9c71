From Verif Require Import Base E2Store_Model E2Store_Spec.

Lemma be2_len x : blen (be_bytes 2 x) = 2.
Proof. unfold blen. rewrite be_bytes_length. reflexivity. Qed.
Lemma le4_len x : blen (le_bytes 4 x) = 4.
Proof. unfold blen. rewrite le_bytes_length. reflexivity. Qed.
Lemma record_len e : blen (record e) = 8 + blen (e_value e).
Proof. unfold record. rewrite !blen_app, be2_len, le4_len. change (blen [0; 0]) with 2. lia. Qed.
Lemma record_ok e : entry_ok e -> bytes_ok (record e).
Proof.
  intros (_ & B & _). unfold record. rewrite !bytes_ok_app. repeat split; auto using be_bytes_ok, le_bytes_ok.
  repeat constructor.
Qed.
Lemma file_ok es : Forall entry_ok es -> bytes_ok (file es).
Proof.
  intros F. unfold file. apply bytes_ok_concat. apply Forall_map. eapply Forall_impl; [|exact F]. exact record_ok.
Qed.
Lemma file_cons e es : file (e :: es) = record e ++ file es.
Proof. reflexivity. Qed.
Lemma header_record e : entry_ok e -> header_bytes e ++ e_value e = record e.
Proof.
  intros (_ & _ & _ & L & R). unfold header_bytes, record. rewrite L, R, <- !app_assoc. reflexivity.
Qed.
Lemma entry_length_ok e : entry_ok e -> entry_length e = blen (record e).
Proof. intros (_ & _ & _ & L & _). unfold entry_length. rewrite record_len, L. reflexivity. Qed.
Lemma entry_write_ok e : entry_ok e -> entry_write e (entry_length e) = Ok (record e).
Proof.
  intros H. unfold entry_write. rewrite N.eqb_refl. cbn [negb]. pose proof (entry_length_ok e H) as L. rewrite record_len in L.
  pose proof H as (_ & _ & B & E & _). replace (2 ^ 32 - 1 <? entry_length e) with false by lia.
  replace (blen (e_value e) =? e_len e) with true by lia. cbn [negb]. rewrite header_record by exact H. reflexivity.
Qed.
Lemma mem_length_cons e es : mem_length (e :: es) = entry_length e + mem_length es.
Proof. reflexivity. Qed.
Lemma mem_length_ok es : Forall entry_ok es -> mem_length es = blen (file es).
Proof.
  induction 1 as [|e es H F IH]; [reflexivity|]. rewrite mem_length_cons, file_cons, blen_app, IH, (entry_length_ok e H). reflexivity.
Qed.
Lemma mem_write_ok es : forall avail, Forall entry_ok es -> blen (file es) <= avail -> mem_write es avail = Ok (file es).
Proof.
  induction es as [|e es IH]; intros avail F L; [reflexivity|]. inversion F as [|? ? H F']; subst. cbn [mem_write].
  rewrite file_cons, blen_app in L. pose proof (entry_length_ok e H) as E. replace (avail <? entry_length e) with false by lia.
  rewrite entry_write_ok by exact H. cbn [obind]. rewrite IH; [reflexivity|exact F'|lia].
Qed.
Lemma mem_write_short es : forall avail, Forall entry_ok es -> avail < blen (file es) -> mem_write es avail = Panic.
Proof.
  induction es as [|e es IH]; intros avail F L; [exfalso; change (blen (file [])) with 0 in L; lia|]. inversion F as [|? ? H F']; subst. cbn [mem_write].
  rewrite file_cons, blen_app in L. pose proof (entry_length_ok e H) as E. destruct (avail <? entry_length e) eqn:A; [reflexivity|].
  rewrite entry_write_ok by exact H. cbn [obind]. rewrite IH; [reflexivity|exact F'|lia].
Qed.

(** Reading a header. *)
Lemma header_ok t n : t < 2 ^ 16 -> n < 2 ^ 32 -> header_deserialize (be_bytes 2 t ++ le_bytes 4 n ++ [0; 0]) = Ok (t, n).
Proof.
  intros T L. unfold header_deserialize. rewrite !blen_app, be2_len, le4_len. change (2 + (4 + blen [0; 0]) =? 8) with true. cbn [negb].
  assert (E : skipn 6 (be_bytes 2 t ++ le_bytes 4 n ++ [0; 0]) = [0; 0]).
  { rewrite app_assoc. apply skipn_app_len. rewrite app_length, be_bytes_length, le_bytes_length. reflexivity. }
  rewrite E. change (le_num [0; 0] =? 0) with true. cbn [negb].
  rewrite (firstn_app_len 2) by (rewrite be_bytes_length; reflexivity). rewrite (skipn_app_len 2) by (rewrite be_bytes_length; reflexivity).
  rewrite (firstn_app_len 4) by (rewrite le_bytes_length; reflexivity). rewrite be_num_be_bytes_id, le_num_le_bytes_id; [reflexivity|exact L|exact T].
Qed.
Lemma split8 (h : bytes) : length h = 8%nat -> exists a b c, h = a ++ b ++ c /\ length a = 2%nat /\ length b = 4%nat /\ length c = 2%nat.
Proof.
  intros L. exists (firstn 2 h), (firstn 4 (skipn 2 h)), (skipn 4 (skipn 2 h)). rewrite !firstn_skipn. split; [reflexivity|].
  rewrite !firstn_length, !skipn_length. lia.
Qed.
Lemma header_inv h t n : bytes_ok h -> header_deserialize h = Ok (t, n) ->
  t < 2 ^ 16 /\ n < 2 ^ 32 /\ h = be_bytes 2 t ++ le_bytes 4 n ++ [0; 0].
Proof.
  intros Hb H. unfold header_deserialize in H. destruct (blen h =? 8) eqn:L; [|discriminate]. cbn [negb] in H.
  destruct (split8 h) as (a & b & c & -> & La & Lb & Lc); [unfold blen in L; lia|].
  rewrite !bytes_ok_app in Hb. destruct Hb as (Ha & Hb & Hc).
  assert (E : skipn 6 (a ++ b ++ c) = c). { rewrite app_assoc. apply skipn_app_len. rewrite app_length. lia. }
  rewrite E in H. rewrite (firstn_app_len 2) in H by (symmetry; exact La). rewrite (skipn_app_len 2) in H by (symmetry; exact La).
  rewrite (firstn_app_len 4) in H by (symmetry; exact Lb).
  destruct (le_num c =? 0) eqn:Z; [|discriminate]. cbn [negb] in H. injection H as <- <-.
  pose proof (be_num_bound a Ha) as Ba. pose proof (le_num_bound b Hb) as Bb. rewrite La in Ba. rewrite Lb in Bb. split; [exact Ba|]. split; [exact Bb|].
  pose proof (be_bytes_be_num a Ha) as Ra. pose proof (le_bytes_le_num b Hb) as Rb. pose proof (le_bytes_le_num c Hc) as Rc.
  rewrite La in Ra. rewrite Lb in Rb. rewrite Lc in Rc. rewrite Ra, Rb. apply N.eqb_eq in Z. rewrite Z in Rc. rewrite <- Rc. reflexivity.
Qed.
(** The start of a record. *)
Lemma record_header e : record e = (be_bytes 2 (e_type e) ++ le_bytes 4 (blen (e_value e)) ++ [0; 0]) ++ e_value e.
Proof. unfold record. rewrite <- !app_assoc. reflexivity. Qed.
Lemma head_len t n : length (be_bytes 2 t ++ le_bytes 4 n ++ [0; 0]) = 8%nat.
Proof. rewrite !app_length, be_bytes_length, le_bytes_length. reflexivity. Qed.
Lemma record_entry e : entry_ok e -> mk_entry (e_type e) (blen (e_value e)) 0 (e_value e) = e.
Proof. intros (_ & _ & _ & L & R). destruct e; cbn in *. congruence. Qed.

Lemma entry_read e : entry_ok e -> entry_deserialize (record e) = Ok e.
Proof.
  intros H. unfold entry_deserialize. rewrite record_len. replace (8 + blen (e_value e) <? 8) with false by lia.
  rewrite record_header. rewrite firstn_app_len by (symmetry; apply head_len). rewrite skipn_app_len by (symmetry; apply head_len).
  pose proof H as (T & _ & L & _). rewrite header_ok by lia. cbn [obind fst snd]. rewrite N.add_comm, N.eqb_refl. cbn [negb]. rewrite record_entry by exact H. reflexivity.
Qed.
Lemma entry_read_inv b e : bytes_ok b -> entry_deserialize b = Ok e -> blen b < 2 ^ 32 -> entry_ok e /\ record e = b.
Proof.
  intros Hb H L. unfold entry_deserialize in H. destruct (blen b <? 8) eqn:L8; [discriminate|].
  destruct (header_deserialize (firstn 8 b)) as [[t n]| |] eqn:Hd; try discriminate. cbn [obind fst snd] in H.
  destruct (n + 8 =? blen b) eqn:E; [|discriminate]. cbn [negb] in H.
  assert (He : mk_entry t n 0 (skipn 8 b) = e) by congruence. clear H. subst e.
  apply header_inv in Hd as (T & Ln & Eh); [|apply bytes_ok_firstn, Hb].
  assert (Ls : blen (skipn 8 b) = n). { unfold blen in *. rewrite skipn_length. lia. }
  split.
  - unfold entry_ok, e_type, e_value, e_len, e_reserved. split; [exact T|]. split; [exact (bytes_ok_skipn 8 b Hb)|]. split; [change (blen (skipn 8 b) < 2 ^ 32 - 8); lia|]. split; [symmetry; exact Ls|reflexivity].
  - unfold record, e_type, e_value. rewrite Ls. rewrite <- (firstn_skipn 8 b) at 2. rewrite Eh, <- !app_assoc. reflexivity.
Qed.

Lemma mem_read_step f b : b <> [] -> mem_read (S f) b =
      if blen b <? 6 then Panic
      else
        let n := (le_num (firstn 4 (skipn 2 b)) + 8) mod 2 ^ 32 in
        if blen b <? n then Err
        else obind (entry_deserialize (firstn (N.to_nat n) b)) (fun e =>
             obind (mem_read f (skipn (N.to_nat n) b)) (fun r => Ok (e :: r))).
Proof. destruct b; [congruence|reflexivity]. Qed.
Lemma record_length_field e rest : entry_ok e -> le_num (firstn 4 (skipn 2 (record e ++ rest))) = blen (e_value e).
Proof.
  intros (_ & _ & L & _). unfold record. rewrite <- !app_assoc. rewrite skipn_app_len by (rewrite be_bytes_length; reflexivity).
  rewrite firstn_app_len by (rewrite le_bytes_length; reflexivity). apply le_num_le_bytes_id. change (256 ^ N.of_nat 4) with (2 ^ 32). lia.
Qed.
Lemma mem_read_record f e rest : entry_ok e ->
  mem_read (S f) (record e ++ rest) = obind (mem_read f rest) (fun r => Ok (e :: r)).
Proof.
  intros H. pose proof H as (_ & _ & L & _). pose proof (record_len e) as Rl.
  rewrite mem_read_step. 2: { intros E. apply (f_equal blen) in E. rewrite blen_app, blen_nil in E. lia. }
  rewrite record_length_field by exact H. rewrite blen_app.
  replace (blen (record e) + blen rest <? 6) with false by lia. cbv zeta.
  rewrite N.mod_small by lia. replace (blen (e_value e) + 8) with (blen (record e)) by lia.
  replace (blen (record e) + blen rest <? blen (record e)) with false by lia.
  rewrite firstn_app_len by (unfold blen; lia). rewrite skipn_app_len by (unfold blen; lia).
  rewrite entry_read by exact H. reflexivity.
Qed.
Lemma mem_read_file es : forall f rest, Forall entry_ok es ->
  mem_read (length es + f) (file es ++ rest) = obind (mem_read f rest) (fun r => Ok (es ++ r)).
Proof.
  induction es as [|e es IH]; intros f rest F.
  - cbn [length Nat.add file map concat app]. destruct (mem_read f rest); reflexivity.
  - inversion F as [|? ? H F']; subst. cbn [length Nat.add]. rewrite file_cons, <- app_assoc, mem_read_record by exact H.
    rewrite IH by exact F'. destruct (mem_read f rest); reflexivity.
Qed.
Lemma mem_read_more f : forall b g, (length b <= f)%nat -> (length b <= g)%nat -> mem_read f b = mem_read g b.
Proof.
  induction f as [|f IH]; intros b g Lf Lg.
  { destruct b; [|cbn in Lf; lia]. destruct g; reflexivity. }
  destruct b as [|x b]; [destruct g; reflexivity|]. destruct g as [|g]; [cbn in Lg; lia|].
  rewrite !mem_read_step by discriminate. destruct (blen (x :: b) <? 6) eqn:L6; [reflexivity|]. cbv zeta.
  set (n := (le_num (firstn 4 (skipn 2 (x :: b))) + 8) mod 2 ^ 32). destruct (blen (x :: b) <? n) eqn:Ln; [reflexivity|].
  destruct (entry_deserialize (firstn (N.to_nat n) (x :: b))) as [e| |] eqn:E; cbn [obind]; try reflexivity.
  assert (N8 : 8 <= n).
  { unfold entry_deserialize in E. destruct (blen (firstn (N.to_nat n) (x :: b)) <? 8) eqn:E8; [discriminate|]. unfold blen in E8. rewrite firstn_length in E8. lia. }
  rewrite (IH _ g); [reflexivity| |]; rewrite skipn_length; cbn [length] in *; lia.
Qed.
Lemma file_long es : (length es <= length (file es))%nat.
Proof.
  induction es as [|e es IH]; [apply le_n|]. rewrite file_cons, app_length. cbn [length]. pose proof (record_len e) as R. unfold blen in R. lia.
Qed.
Lemma mem_deserialize_file es rest : Forall entry_ok es ->
  mem_deserialize (file es ++ rest) = obind (mem_deserialize rest) (fun r => Ok (es ++ r)).
Proof.
  intros F. unfold mem_deserialize. pose proof (file_long es) as L.
  rewrite (mem_read_more _ _ (length es + (length (file es ++ rest)))) by lia.
  rewrite mem_read_file by exact F. rewrite (mem_read_more (length (file es ++ rest)) rest (length rest)) by (rewrite ?app_length; lia). reflexivity.
Qed.

(** Every byte string is a file and a rest that does not start with a record. *)
Inductive tail_shape : bytes -> outcome (list entry) -> Prop :=
| ts_end : tail_shape [] (Ok [])
| ts_short b : b <> [] -> blen b < 6 -> tail_shape b Panic
| ts_wrap b n : 6 <= blen b -> n = le_num (firstn 4 (skipn 2 b)) -> 2 ^ 32 <= n + 8 -> n + 8 - 2 ^ 32 <= blen b -> tail_shape b Panic
| ts_over b n : 6 <= blen b -> n = le_num (firstn 4 (skipn 2 b)) -> blen b < (n + 8) mod 2 ^ 32 -> tail_shape b Err
| ts_reserved b n : 8 <= blen b -> n = le_num (firstn 4 (skipn 2 b)) -> n + 8 <= blen b -> n + 8 < 2 ^ 32 -> firstn 2 (skipn 6 b) <> [0; 0] -> tail_shape b Err.
Lemma mem_read_shape f : forall b, bytes_ok b -> (length b <= f)%nat ->
  exists es rest z, Forall entry_ok es /\ b = file es ++ rest /\ tail_shape rest z /\ mem_read f b = obind z (fun r => Ok (es ++ r)).
Proof.
  induction f as [|f IH]; intros b Hb L.
  { destruct b; [|cbn in L; lia]. exists [], [], (Ok []). repeat split; constructor. }
  destruct b as [|x0 b0] eqn:Eb. { exists [], [], (Ok []). repeat split; constructor. }
  rewrite <- Eb in *. assert (NE : b <> []) by (subst; discriminate). clear x0 b0 Eb.
  rewrite mem_read_step by exact NE. destruct (blen b <? 6) eqn:L6.
  { exists [], b, Panic. repeat split; [constructor|]. apply ts_short; [exact NE|lia]. }
  cbv zeta. set (m := le_num (firstn 4 (skipn 2 b))).
  assert (Bm : m < 2 ^ 32).
  { unfold m. pose proof (le_num_bound (firstn 4 (skipn 2 b)) (bytes_ok_firstn _ _ (bytes_ok_skipn _ _ Hb))) as B.
    rewrite firstn_length, skipn_length in B. replace (Nat.min 4 (length b - 2)) with 4%nat in B by (unfold blen in L6; lia). exact B. }
  destruct (blen b <? (m + 8) mod 2 ^ 32) eqn:Ln.
  { exists [], b, Err. repeat split; [constructor|]. eapply ts_over; [lia|reflexivity|fold m; lia]. }
  destruct (N.lt_ge_cases (m + 8) (2 ^ 32)) as [S|S].
  - rewrite N.mod_small in * by exact S.
    set (h := firstn (N.to_nat (m + 8)) b). assert (Lh : blen h = m + 8). { unfold h, blen in *. rewrite firstn_length. lia. }
    destruct (entry_deserialize h) as [e| |] eqn:E; cbn [obind].
    + assert (Bh : bytes_ok h) by (apply bytes_ok_firstn, Hb). apply entry_read_inv in E as [Eo Er]; [|exact Bh|lia].
      destruct (IH (skipn (N.to_nat (m + 8)) b)) as (es & rest & z & F & Es & T & R); [apply bytes_ok_skipn, Hb|rewrite skipn_length; unfold blen in L6; lia|].
      exists (e :: es), rest, z. split; [constructor; assumption|]. split.
      * rewrite file_cons, <- app_assoc, <- Es, Er. symmetry. apply firstn_skipn.
      * split; [exact T|]. rewrite R. destruct z; reflexivity.
    + exists [], b, Err. repeat split; [constructor|]. eapply ts_reserved; try reflexivity; fold m; try lia.
      intros Z. unfold entry_deserialize in E. replace (blen h <? 8) with false in E by lia.
      assert (Hd : header_deserialize (firstn 8 h) = Ok (be_num (firstn 2 b), m)).
      { unfold h. rewrite firstn_firstn. replace (Nat.min 8 (N.to_nat (m + 8))) with 8%nat by lia.
        assert (B8 : (8 <= length b)%nat) by (unfold blen in Ln; lia). clear - Z B8.
        do 8 (destruct b as [|? b]; [cbn [length] in B8; lia|]). cbn in Z. injection Z as -> ->. reflexivity. }
      rewrite Hd in E. cbn [obind snd] in E. replace (m + 8 =? blen h) with true in E by lia. discriminate.
    + exfalso. unfold entry_deserialize in E. replace (blen h <? 8) with false in E by lia.
      unfold header_deserialize in E. destruct (negb (blen (firstn 8 h) =? 8)); [discriminate|].
      destruct (negb (le_num (skipn 6 (firstn 8 h)) =? 0)); [discriminate|]. cbn [obind snd] in E. destruct (negb _); discriminate.
  - exists [], b, Panic. split; [constructor|]. split; [reflexivity|]. assert (W : (m + 8) mod 2 ^ 32 = m + 8 - 2 ^ 32).
    { clear - S Bm. symmetry. apply (N.mod_unique (m + 8) (2 ^ 32) 1); lia. }
    rewrite W in *. split.
    + eapply ts_wrap; try reflexivity; fold m; lia.
    + unfold entry_deserialize. replace (blen (firstn (N.to_nat (m + 8 - 2 ^ 32)) b) <? 8) with true; [reflexivity|].
      symmetry. apply N.ltb_lt. unfold blen. rewrite firstn_length. lia.
Qed.

(** Streams. *)
Lemma next_record e rest : entry_ok e -> next_entry (record e ++ rest) = Got e rest.
Proof.
  intros H. pose proof H as (T & _ & L & _). unfold next_entry. rewrite blen_app, record_len. replace (8 + blen (e_value e) + blen rest <? 8) with false by lia.
  rewrite record_header, <- app_assoc. rewrite firstn_app_len by (symmetry; apply head_len). rewrite skipn_app_len by (symmetry; apply head_len).
  rewrite header_ok by lia. rewrite blen_app. replace (blen (e_value e) + blen rest <? blen (e_value e)) with false by lia.
  rewrite firstn_app_len by (unfold blen; lia). rewrite skipn_app_len by (unfold blen; lia). rewrite record_entry by exact H. reflexivity.
Qed.
Lemma next_cut e n : entry_ok e -> (n < length (record e))%nat -> next_entry (firstn n (record e)) = Eof.
Proof.
  intros H L. pose proof H as (T & _ & B & _). unfold next_entry. destruct (blen (firstn n (record e)) <? 8) eqn:L8; [reflexivity|].
  assert (N8 : (8 <= n)%nat). { unfold blen in L8. rewrite firstn_length in L8. lia. }
  rewrite firstn_firstn. replace (Nat.min 8 n) with 8%nat by lia. rewrite record_header. rewrite firstn_app_len by (symmetry; apply head_len).
  rewrite header_ok by lia. rewrite record_header in L. rewrite app_length, head_len in L.
  replace (blen (skipn 8 (firstn n _)) <? blen (e_value e)) with true; [reflexivity|]. symmetry. apply N.ltb_lt. unfold blen. rewrite skipn_length, firstn_length, app_length, head_len. lia.
Qed.
Lemma next_shorter b e rest : next_entry b = Got e rest -> (length rest < length b)%nat.
Proof.
  unfold next_entry. destruct (blen b <? 8) eqn:L; [discriminate|]. destruct (header_deserialize (firstn 8 b)) as [[t n]| |]; try discriminate.
  destruct (_ <? n); [discriminate|]. intros H. assert (R : skipn (N.to_nat n) (skipn 8 b) = rest) by congruence. rewrite <- R, !skipn_length. unfold blen in L. lia.
Qed.
Lemma read_all_more f : forall b g, (length b <= f)%nat -> (length b <= g)%nat -> read_all f b = read_all g b.
Proof.
  induction f as [|f IH]; intros b g Lf Lg.
  { destruct b; [|cbn in Lf; lia]. destruct g; reflexivity. }
  destruct g as [|g]. { destruct b; [reflexivity|cbn [length] in Lg; lia]. }
  cbn [read_all]. destruct (next_entry b) as [e rest| |] eqn:E; try reflexivity. apply next_shorter in E. rewrite (IH rest g); [reflexivity|lia|lia].
Qed.
Lemma read_file es : forall f rest, Forall entry_ok es ->
  read_all (length es + f) (file es ++ rest) = (es ++ fst (read_all f rest), snd (read_all f rest)).
Proof.
  induction es as [|e es IH]; intros f rest F.
  - cbn [length Nat.add file map concat app]. destruct (read_all f rest); reflexivity.
  - inversion F as [|? ? H F']; subst. cbn [length Nat.add read_all]. rewrite file_cons, <- app_assoc, next_record by exact H.
    rewrite IH by exact F'. reflexivity.
Qed.
