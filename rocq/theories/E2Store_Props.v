(** C46, C47, C72: reading and writing e2store files. *)
From Verif Require Import Base E2Store_Model E2Store_Spec E2Store_Proofs.

(** Every entry the program builds from a type and a value of less than 4 GiB can be written. *)
Theorem C46_built_entries : forall t v, t < 2 ^ 16 -> bytes_ok v -> blen v < 2 ^ 32 - 8 ->
  entry_ok (entry_new t v) /\ e_type (entry_new t v) = t /\ e_value (entry_new t v) = v.
Proof.
  intros t v T B L. unfold entry_new, entry_ok, e_type, e_len, e_value, e_reserved. rewrite N.mod_small by lia. repeat split; assumption.
Qed.
(** What is written is the file of the format, and reading it gives the entries back. *)
Theorem C46_round_trip : forall es, Forall entry_ok es ->
  mem_write es (mem_length es) = Ok (file es) /\ blen (file es) = mem_length es /\ mem_deserialize (file es) = Ok es.
Proof.
  intros es F. pose proof (mem_length_ok es F) as L. split; [apply mem_write_ok; [exact F|lia]|]. split; [symmetry; exact L|].
  rewrite <- (app_nil_r (file es)). rewrite mem_deserialize_file by exact F. unfold mem_deserialize. cbn [length mem_read obind]. rewrite app_nil_r. reflexivity.
Qed.
Lemma shape b : bytes_ok b -> exists es rest z, Forall entry_ok es /\ b = file es ++ rest /\ tail_shape rest z /\
  mem_deserialize b = obind z (fun r => Ok (es ++ r)).
Proof. intros B. apply mem_read_shape; [exact B|apply le_n]. Qed.
(** Only files of the format are read, and each in one way only. *)
Theorem C46_canonical : forall b es, bytes_ok b -> mem_deserialize b = Ok es -> Forall entry_ok es /\ b = file es.
Proof.
  intros b es B H. destruct (shape b B) as (es' & rest & z & F & E & T & R). rewrite R in H.
  inversion T; subst z rest; cbn [obind] in H; try discriminate. injection H as <-. rewrite app_nil_r. split; [exact F|]. rewrite app_nil_r in E. exact E.
Qed.
Theorem C46_distinct : forall es1 es2, Forall entry_ok es1 -> Forall entry_ok es2 -> file es1 = file es2 -> es1 = es2.
Proof.
  intros es1 es2 F1 F2 E. destruct (C46_round_trip es1 F1) as (_ & _ & R1). destruct (C46_round_trip es2 F2) as (_ & _ & R2). congruence.
Qed.

(** The conversion to bytes sums the length in 32 bits: it works up to 4 GiB and panics from there
    on, although each entry is fine and [write] works. *)
Lemma wrapped es : Forall entry_ok es ->
  fold_right (fun e n => (entry_length e mod 2 ^ 32 + n) mod 2 ^ 32) 0 es = blen (file es) mod 2 ^ 32.
Proof.
  induction 1 as [|e es H F IH]; [reflexivity|]. cbn [fold_right]. rewrite IH, file_cons, blen_app, (entry_length_ok e H).
  symmetry. apply N.add_mod. discriminate.
Qed.
Theorem C46_serialize : forall es, Forall entry_ok es ->
  (blen (file es) < 2 ^ 32 -> mem_serialize es = Ok (file es)) /\ (2 ^ 32 <= blen (file es) -> mem_serialize es = Panic).
Proof.
  intros es F. unfold mem_serialize. rewrite wrapped by exact F. split; intros L.
  - rewrite N.mod_small by exact L. apply mem_write_ok; [exact F|lia].
  - apply mem_write_short; [exact F|]. assert (blen (file es) mod 2 ^ 32 < 2 ^ 32) by (apply N.mod_lt; discriminate). lia.
Qed.
Lemma some_bytes n : exists v, bytes_ok v /\ blen v = n.
Proof.
  exists (repeat 0 (N.to_nat n)). split.
  - apply Forall_forall. intros x Hx. apply repeat_spec in Hx. subst. reflexivity.
  - unfold blen. rewrite repeat_length, N2Nat.id. reflexivity.
Qed.
Theorem C46_large_refuted : exists es, Forall entry_ok es /\ mem_write es (mem_length es) = Ok (file es) /\ mem_serialize es = Panic.
Proof.
  destruct (some_bytes (2 ^ 31)) as (v & B & L). pose proof (C46_built_entries 256 v eq_refl B ltac:(lia)) as (H & _ & V).
  set (big := entry_new 256 v) in *. clearbody big. exists [big; big].
  assert (F : Forall entry_ok [big; big]) by (constructor; [exact H|constructor; [exact H|constructor]]). split; [exact F|].
  split; [apply C46_round_trip, F|]. apply C46_serialize; [exact F|]. rewrite !file_cons, !blen_app, record_len. change (blen (file [])) with 0. rewrite V. lia.
Qed.

(** Reading panics exactly on these: whole records, then one to five bytes; or a record whose
    length field is at most 8 below 4 GiB (and the file has the few bytes left after the sum has
    wrapped). *)
Theorem C47_exact_partial : forall b, bytes_ok b ->
  (mem_deserialize b = Panic <->
   exists es rest, Forall entry_ok es /\ b = file es ++ rest /\
     (0 < blen rest < 6 \/
      (6 <= blen rest /\ 2 ^ 32 - 8 <= le_num (firstn 4 (skipn 2 rest)) /\ le_num (firstn 4 (skipn 2 rest)) + 8 - 2 ^ 32 <= blen rest))).
Proof.
  intros b B. split.
  - intros H. destruct (shape b B) as (es & rest & z & F & E & T & R). rewrite R in H. exists es, rest. split; [exact F|]. split; [exact E|].
    inversion T as [|r NE L|r n L En Ov Wr|r n L En Ov|r n L En Le Lt Nz]; subst z; cbn [obind] in H; try discriminate.
    + left. destruct rest; [congruence|]. rewrite blen_cons in *. lia.
    + right. subst n. lia.
  - intros (es & rest & F & -> & C). rewrite mem_deserialize_file by exact F.
    replace (mem_deserialize rest) with (@Panic (list entry)); [reflexivity|]. symmetry. unfold mem_deserialize.
    assert (NE : rest <> []). { intros ->. change (blen []) with 0 in C. lia. }
    assert (El : exists f, length rest = S f) by (destruct rest; [congruence|eexists; reflexivity]). destruct El as (fu & ->).
    rewrite mem_read_step by exact NE. destruct C as [C|(L & O & W)].
    + replace (blen rest <? 6) with true by lia. reflexivity.
    + replace (blen rest <? 6) with false by lia. cbv zeta. set (m := le_num (firstn 4 (skipn 2 rest))) in *.
      assert (Br : bytes_ok rest) by (rewrite bytes_ok_app in B; apply B).
      assert (Bm : m < 2 ^ 32).
      { unfold m. pose proof (le_num_bound (firstn 4 (skipn 2 rest)) (bytes_ok_firstn _ _ (bytes_ok_skipn _ _ Br))) as Bd.
        rewrite firstn_length, skipn_length in Bd. replace (Nat.min 4 (length rest - 2)) with 4%nat in Bd by (unfold blen in L; lia). exact Bd. }
      replace ((m + 8) mod 2 ^ 32) with (m + 8 - 2 ^ 32) by (apply (N.mod_unique (m + 8) (2 ^ 32) 1); lia).
      replace (blen rest <? m + 8 - 2 ^ 32) with false by lia. unfold entry_deserialize.
      replace (blen (firstn (N.to_nat (m + 8 - 2 ^ 32)) rest) <? 8) with true; [reflexivity|].
      symmetry. apply N.ltb_lt. unfold blen. rewrite firstn_length. lia.
Qed.
Theorem C47_trailing_refuted : forall es junk, Forall entry_ok es -> bytes_ok junk -> 0 < blen junk < 6 -> mem_deserialize (file es ++ junk) = Panic.
Proof.
  intros es junk F B L. apply C47_exact_partial; [rewrite bytes_ok_app; split; [apply file_ok, F|exact B]|]. exists es, junk. auto.
Qed.
(** The same for any download that stops inside the first six bytes of a record. *)
Theorem C47_cut_refuted : forall es e n, Forall entry_ok es -> entry_ok e -> (0 < n < 6)%nat -> mem_deserialize (file es ++ firstn n (record e)) = Panic.
Proof.
  intros es e n F H L. apply C47_trailing_refuted; [exact F|apply bytes_ok_firstn, record_ok, H|].
  pose proof (record_len e) as R. unfold blen in *. rewrite firstn_length. lia.
Qed.
Definition entry1 : entry := entry_new 1024 [1; 2; 3].
Lemma entry1_ok : entry_ok entry1.
Proof. apply C46_built_entries; [reflexivity| |reflexivity]. repeat constructor. Qed.
Example C46_case : Forall entry_ok [entry1; entry_new 25906 []; entry1] /\ file [entry1; entry_new 25906 []] = [4; 0; 3; 0; 0; 0; 0; 0; 1; 2; 3; 101; 50; 0; 0; 0; 0; 0; 0].
Proof.
  split; [|reflexivity]. constructor; [exact entry1_ok|]. constructor; [|constructor; [exact entry1_ok|constructor]].
  apply C46_built_entries; [reflexivity|constructor|reflexivity].
Qed.
Example C47_case : mem_deserialize (file [entry1] ++ [0]) = Panic /\ mem_deserialize [0; 0; 250; 255; 255; 255; 0; 0] = Panic.
Proof. split; reflexivity. Qed.

(** Streams: entries appended one by one make the same file. *)
Theorem C72_append : forall es done, Forall entry_ok es ->
  fold_left (fun f e => obind f (fun b => append_entry b e)) es (Ok (file done)) = Ok (file (done ++ es)).
Proof.
  induction es as [|e es IH]; intros done F; [rewrite app_nil_r; reflexivity|]. inversion F as [|? ? H F']; subst. cbn [fold_left].
  assert (A : obind (Ok (file done)) (fun b => append_entry b e) = Ok (file (done ++ [e]))).
  { cbn [obind]. unfold append_entry, entry_serialize. rewrite entry_write_ok by exact H. cbn [omap]. unfold file. rewrite map_app, concat_app. cbn [map concat]. rewrite app_nil_r. reflexivity. }
  rewrite A, IH by exact F'. rewrite <- app_assoc. reflexivity.
Qed.
Lemma read_all_file es rest : Forall entry_ok es ->
  read_all (length (file es ++ rest)) (file es ++ rest) = (es ++ fst (read_all (length rest) rest), snd (read_all (length rest) rest)).
Proof.
  intros F. pose proof (file_long es) as L. rewrite (read_all_more _ _ (length es + length (file es ++ rest))) by lia. rewrite read_file by exact F.
  rewrite (read_all_more (length (file es ++ rest)) rest (length rest)) by (rewrite ?app_length; lia). reflexivity.
Qed.
Lemma cut_file n : forall es, Forall entry_ok es ->
  exists k c, firstn n (file es) = file (firstn k es) ++ c /\ (k <= length es)%nat /\
    (length (file (firstn k es)) <= n)%nat /\ ((k < length es)%nat -> (n < length (file (firstn (S k) es)))%nat) /\ next_entry c = Eof.
Proof.
  intros es. revert n. induction es as [|e es IH]; intros n F.
  - exists 0%nat, []. change (file []) with (@nil N). rewrite firstn_nil. cbn. repeat split; lia.
  - inversion F as [|? ? H F']; subst. destruct (Nat.lt_ge_cases n (length (record e))) as [L|L].
    + exists 0%nat, (firstn n (record e)). rewrite file_cons, firstn_app. replace (n - length (record e))%nat with 0%nat by lia.
      cbn [firstn length]. rewrite app_nil_r. change (file []) with (@nil N). cbn [app length]. split; [reflexivity|]. split; [lia|]. split; [lia|].
      split; [|apply next_cut; assumption]. intros _. rewrite file_cons, app_length. lia.
    + destruct (IH (n - length (record e))%nat F') as (k & c & E & Lk & L1 & L2 & Ec). exists (S k), c. cbn [firstn]. rewrite !file_cons.
      rewrite firstn_app, firstn_all2 by lia. rewrite E, <- app_assoc. split; [reflexivity|]. cbn [length]. split; [lia|]. split; [rewrite app_length; lia|].
      split; [|exact Ec]. intros Hk. rewrite app_length. cbn [firstn] in L2. specialize (L2 ltac:(lia)). lia.
Qed.
(** A stream cut anywhere, by a crash of the writer or of the download, gives exactly the records
    that are whole, in order, then the end of file. *)
Theorem C72_cut : forall es n, Forall entry_ok es ->
  exists k, (k <= length es)%nat /\ read_all n (firstn n (file es)) = (firstn k es, Eof) /\
    (length (file (firstn k es)) <= n)%nat /\ ((k < length es)%nat -> (n < length (file (firstn (S k) es)))%nat).
Proof.
  intros es n F. destruct (cut_file n es F) as (k & c & E & Lk & L1 & L2 & Ec). exists k. split; [exact Lk|]. split; [|split; assumption].
  rewrite (read_all_more n _ (length (firstn n (file es)))) by (rewrite ?firstn_length; lia). rewrite E, read_all_file.
  2: { apply Forall_forall. intros x Hx. rewrite Forall_forall in F. apply F. rewrite <- (firstn_skipn k es). apply in_or_app. left. exact Hx. }
  assert (R : read_all (length c) c = ([], Eof)) by (destruct c; [reflexivity|]; cbn [length read_all]; rewrite Ec; reflexivity).
  rewrite R. cbn [fst snd]. rewrite app_nil_r. reflexivity.
Qed.
Theorem C72_read : forall es, Forall entry_ok es -> read_all (length (file es)) (file es) = (es, Eof).
Proof.
  intros es F. pose proof (read_all_file es [] F) as R. rewrite app_nil_r in R. rewrite R. cbn. rewrite app_nil_r. reflexivity.
Qed.
(** Both readers agree wherever the one in memory accepts. *)
Theorem C72_readers_agree : forall b es, bytes_ok b -> mem_deserialize b = Ok es -> read_all (length b) b = (es, Eof).
Proof. intros b es B H. apply C46_canonical in H as [F ->]; [|exact B]. apply C72_read, F. Qed.
(** What the stream reader returns from any bytes are records that stand one after another at the
    front of them. *)
Lemma next_inv b e rest : bytes_ok b -> next_entry b = Got e rest ->
  e_type e < 2 ^ 16 /\ e_len e = blen (e_value e) /\ e_reserved e = 0 /\ blen (e_value e) < 2 ^ 32 /\ b = record e ++ rest.
Proof.
  intros B. unfold next_entry. destruct (blen b <? 8) eqn:L8; [discriminate|]. destruct (header_deserialize (firstn 8 b)) as [[t n]| |] eqn:Hd; try discriminate.
  destruct (blen (skipn 8 b) <? n) eqn:Ln; [discriminate|]. intros H.
  assert (He : mk_entry t n 0 (firstn (N.to_nat n) (skipn 8 b)) = e) by congruence.
  assert (Hr : skipn (N.to_nat n) (skipn 8 b) = rest) by congruence. clear H. subst e rest.
  apply header_inv in Hd as (T & N32 & Eh); [|apply bytes_ok_firstn, B].
  assert (Lv : blen (firstn (N.to_nat n) (skipn 8 b)) = n). { unfold blen in *. rewrite firstn_length. lia. }
  unfold e_type, e_len, e_value, e_reserved. rewrite Lv. repeat split; try assumption. unfold record, e_type, e_value. rewrite Lv.
  rewrite <- !app_assoc, firstn_skipn. rewrite <- (firstn_skipn 8 b) at 1. rewrite Eh, <- !app_assoc. reflexivity.
Qed.
Theorem C72_only_records : forall f b es z, bytes_ok b -> read_all f b = (es, z) -> exists rest, b = file es ++ rest.
Proof.
  induction f as [|f IH]; intros b es z B H; cbn [read_all] in H.
  - injection H as <- _. exists b. reflexivity.
  - destruct (next_entry b) as [e rest| |] eqn:E; try (injection H as <- _; exists b; reflexivity).
    destruct (read_all f rest) as [es' z'] eqn:R. injection H as <- _. apply next_inv in E as (_ & _ & _ & _ & E); [|exact B].
    assert (Br : bytes_ok rest) by (rewrite E, bytes_ok_app in B; apply B). destruct (IH rest es' z' Br R) as (r & Er). exists r. rewrite file_cons, <- app_assoc, <- Er. exact E.
Qed.
Example C72_case : read_all 13 (firstn 13 (file [entry1; entry1])) = ([entry1], Eof).
Proof. reflexivity. Qed.

Print Assumptions C46_built_entries.
Print Assumptions C46_round_trip.
Print Assumptions C46_canonical.
Print Assumptions C46_distinct.
Print Assumptions C46_serialize.
Print Assumptions C46_large_refuted.
Print Assumptions C47_exact_partial.
Print Assumptions C47_trailing_refuted.
Print Assumptions C47_cut_refuted.
Print Assumptions C72_append.
Print Assumptions C72_cut.
Print Assumptions C72_read.
Print Assumptions C72_readers_agree.
Print Assumptions C72_only_records.
