(** C124: the texts of keys, signatures, commitments, numbers and transactions in beacon data. *)
From Verif Require Import Base Hex_Model Hex_Spec Hex_Proofs Providers_Model Providers_Proofs BeaconText_Model BeaconText_Spec.

Lemma fixed_from_length n v : length (fixed_from n v) = n.
Proof. unfold fixed_from. rewrite firstn_length, app_length, repeat_length. lia. Qed.
Lemma fixed_from_exact n v : length v = n -> fixed_from n v = v.
Proof. intros <-. unfold fixed_from. rewrite firstn_app, Nat.sub_diag, firstn_all. cbn. apply app_nil_r. Qed.
Lemma hex_decode_spells s b : hex_decode s = Ok b <-> spells s b.
Proof. exact (hex_decode_spec s b). Qed.
Lemma hex_encode_decode b : bytes_ok b -> hex_decode (hex_encode b) = Ok b.
Proof. intros K. exact (proj1 (hex_round_trip b K)). Qed.
Lemma blen_nat (b : bytes) n : blen b = N.of_nat n <-> length b = n.
Proof. unfold blen. lia. Qed.

(** ** Keys *)
(** A key is read as it was written; whatever is read as a key has 48 bytes, and a text of 48 bytes is read as these. *)
Theorem C124_keys :
  (forall k, bytes_ok k -> length k = 48%nat -> pubkey_read (pubkey_text k) = Ok k /\ pubkey_ssz k = Ok k) /\
  (forall s k, pubkey_read s = Ok k -> length k = 48%nat) /\
  (forall s b, spells s b -> length b = 48%nat -> pubkey_read s = Ok b) /\
  (forall s, (forall b, ~ spells s b) -> pubkey_read s = Err).
Proof.
  unfold pubkey_read, pubkey_text, pubkey_ssz. split; [|split; [|split]].
  - intros k K L. rewrite hex_encode_decode by exact K. cbn [omap obind]. rewrite fixed_from_exact by exact L. split; reflexivity.
  - intros s k. destruct (hex_decode s) as [b| |]; [|discriminate..]. cbn [omap]. intros [= <-]. apply fixed_from_length.
  - intros s b S L. apply hex_decode_spells in S. rewrite S. cbn [omap]. rewrite fixed_from_exact by exact L. reflexivity.
  - intros s N. destruct (hex_decode s) as [b| |] eqn:E; [|reflexivity|destruct (hex_decode_no_panic _ E)]. apply hex_decode_spells in E. destruct (N _ E).
Qed.
(** Not so: that a text of another length is refused.  It is cut, or filled with zeros. *)
Theorem C124_keys_refuted :
  (forall b, bytes_ok b -> (length b <= 48)%nat -> pubkey_read (pubkey_text b) = Ok (b ++ repeat 0 (48 - length b))) /\
  (forall b r, bytes_ok (b ++ r) -> length b = 48%nat -> pubkey_read (pubkey_text (b ++ r)) = Ok b).
Proof.
  unfold pubkey_read, pubkey_text. split.
  - intros b K L. rewrite hex_encode_decode by exact K. cbn [omap]. do 1 f_equal. unfold fixed_from. rewrite firstn_app, firstn_all2 by exact L. f_equal.
    assert (G : forall a c, (a <= c)%nat -> firstn a (repeat 0 c) = repeat 0 a)
      by (induction a as [|a IH]; intros [|c] H; cbn; [reflexivity..|lia|rewrite IH by lia; reflexivity]).
    apply G. lia.
  - intros b r K L. rewrite hex_encode_decode by exact K. cbn [omap]. do 1 f_equal. unfold fixed_from. rewrite <- app_assoc, firstn_app, <- L, Nat.sub_diag, firstn_all. cbn. apply app_nil_r.
Qed.

(** ** Signatures *)
Theorem C124_signatures :
  (forall b, bytes_ok b -> length b = 96%nat -> signature_read (signature_text b) = Ok b /\ signature_ssz b = Ok b) /\
  (forall s b, signature_read s = Ok b <-> spells s b /\ length b = 96%nat) /\
  (forall s, (forall b, ~ spells s b) -> signature_read s = Err).
Proof.
  unfold signature_read, signature_text, signature_ssz, copied. split; [|split].
  - intros b K L. rewrite hex_encode_decode by exact K. cbn [obind]. apply blen_nat in L. change (N.of_nat 96) with 96 in L. rewrite L. split; reflexivity.
  - intros s b. rewrite <- hex_decode_spells. destruct (hex_decode s) as [x| |] eqn:E; cbn [obind]; [|split; [discriminate|intros [? _]; discriminate]..].
    destruct (N.eqb_spec (blen x) 96) as [L|L]; split.
    + intros [= <-]. split; [reflexivity|]. unfold blen in L. lia.
    + intros [[= ->] _]. reflexivity.
    + discriminate.
    + intros [[= ->] M]. unfold blen in L. lia.
  - intros s N. destruct (hex_decode s) as [b| |] eqn:E; [|reflexivity|destruct (hex_decode_no_panic _ E)]. apply hex_decode_spells in E. destruct (N _ E).
Qed.
(** Not so: that a text of another length is refused.  The program stops. *)
Theorem C124_signatures_refuted : forall s b, spells s b -> length b <> 96%nat -> signature_read s = Panic /\ signature_ssz b = Panic.
Proof.
  intros s b S L. apply hex_decode_spells in S. unfold signature_read, signature_ssz, copied. rewrite S. cbn [obind].
  destruct (N.eqb_spec (blen b) 96) as [E|E]; [unfold blen in E; lia|]. split; reflexivity.
Qed.

(** ** Commitments *)
Theorem C124_commitments :
  (forall b, bytes_ok b -> length b = 48%nat -> commitment_read (commitment_text b) = Ok b) /\
  (forall s b, commitment_read s = Ok b <-> spells s b /\ length b = 48%nat) /\ (forall s, commitment_read s <> Panic).
Proof.
  unfold commitment_read, commitment_text. split; [|split].
  - intros b K L. rewrite hex_encode_decode by exact K. cbn [obind]. apply blen_nat in L. change (N.of_nat 48) with 48 in L. rewrite L. reflexivity.
  - intros s b. rewrite <- hex_decode_spells. destruct (hex_decode s) as [x| |] eqn:E; cbn [obind]; [|split; [discriminate|intros [? _]; discriminate]..].
    destruct (N.eqb_spec (blen x) 48) as [L|L]; split.
    + intros [= <-]. split; [reflexivity|]. unfold blen in L. lia.
    + intros [[= ->] _]. reflexivity.
    + discriminate.
    + intros [[= ->] M]. unfold blen in L. lia.
  - intros s. destruct (hex_decode s) as [b| |] eqn:E; cbn [obind]; [destruct (_ =? _); discriminate|discriminate|destruct (hex_decode_no_panic _ E)].
Qed.
(** In logs a commitment is its first two and its last two bytes. *)
Theorem C124_display : forall a b mid c d, bytes_ok [a; b; c; d] -> length mid = 44%nat ->
  exists x y, commitment_display (a :: b :: mid ++ [c; d]) = 48 :: 120 :: x ++ [226; 128; 166] ++ y /\ hex_spells x [a; b] /\ hex_spells y [c; d].
Proof.
  intros a b mid c d K L. unfold commitment_display. change (skipn (48 - 2) (a :: b :: mid ++ [c; d])) with (skipn 44 (mid ++ [c; d])). change (firstn 2 (a :: b :: mid ++ [c; d])) with [a; b].
  rewrite skipn_app, <- L, skipn_all, Nat.sub_diag. cbn [skipn app].
  assert (P : forall p q, bytes_ok [p; q] -> hex_spells (hex_chars hex_digit [p; q]) [p; q]).
  { intros p q Q. apply hex_decode_raw_spec. pose proof (hex_encode_decode _ Q) as R. exact R. }
  eexists _, _. split; [reflexivity|]. inversion K as [|? ? K1 K2]; subst. inversion K2 as [|? ? K3 K4]; subst.
  split; apply P; [repeat constructor; assumption|exact K4].
Qed.
(** The versioned hash of a commitment is its SHA-256 with 1 in place of the first byte. *)
Theorem C124_versioned : forall sha256 b x h, sha256 b = x :: h -> length (x :: h) = 32%nat ->
  versioned_hash sha256 b = 1 :: h /\ length (versioned_hash sha256 b) = 32%nat.
Proof. intros sha256 b x h E L. unfold versioned_hash. rewrite E. cbn [tl]. split; [reflexivity|exact L]. Qed.

(** ** Vectors and lists *)
Lemma prefixed_spells s b : prefixed s = Ok b <-> spells_small s b.
Proof.
  unfold prefixed, spells_small. destruct s as [|c1 [|c2 h]]; [split; [discriminate|intros (h & [=] & _)]..|].
  destruct (N.eqb_spec c1 48) as [->|N1]; cbn [andb]; [|split; [discriminate|intros (h' & [= -> _] & _); congruence]].
  destruct (N.eqb_spec c2 120) as [->|N2]; [|split; [discriminate|intros (h' & [= -> _] & _); congruence]].
  rewrite hex_decode_raw_spec. split; [intros S; exists h; auto|intros (h' & [= <-] & S); exact S].
Qed.
Lemma prefixed_no_panic s : prefixed s <> Panic.
Proof. unfold prefixed. destruct s as [|c1 [|c2 h]]; [discriminate..|]. destruct ((c1 =? 48) && (c2 =? 120)); [apply hex_decode_raw_no_panic|discriminate]. Qed.
Lemma prefixed_encode b : bytes_ok b -> prefixed (hex_encode b) = Ok b.
Proof. intros K. exact (hex_encode_decode b K). Qed.
Theorem C124_fixed : forall n,
  (forall b, bytes_ok b -> blen b = n -> fixed_read n (fixed_text b) = Ok b) /\
  (forall s b, fixed_read n s = Ok b <-> spells_small s b /\ blen b = n) /\ (forall s, fixed_read n s <> Panic).
Proof.
  intros n. unfold fixed_read, fixed_text. split; [|split].
  - intros b K L. rewrite prefixed_encode by exact K. cbn [obind]. rewrite L, N.eqb_refl. reflexivity.
  - intros s b. rewrite <- prefixed_spells. destruct (prefixed s) as [x| |]; cbn [obind]; [|split; [discriminate|intros [? _]; discriminate]..].
    destruct (N.eqb_spec (blen x) n) as [L|L]; split; [intros [= <-]; auto|intros [[= ->] _]; reflexivity|discriminate|intros [[= ->] M]; congruence].
  - intros s. destruct (prefixed s) eqn:E; cbn [obind]; [destruct (_ =? _); discriminate|discriminate|destruct (prefixed_no_panic _ E)].
Qed.
Theorem C124_lists : forall n,
  (forall b, bytes_ok b -> blen b <= n -> list_read n (list_text b) = Ok b) /\
  (forall s b, list_read n s = Ok b <-> spells_small s b /\ blen b <= n) /\ (forall s, list_read n s <> Panic).
Proof.
  intros n. unfold list_read, list_text. split; [|split].
  - intros b K L. rewrite prefixed_encode by exact K. cbn [obind]. apply N.leb_le in L. rewrite L. reflexivity.
  - intros s b. rewrite <- prefixed_spells. destruct (prefixed s) as [x| |]; cbn [obind]; [|split; [discriminate|intros [? _]; discriminate]..].
    destruct (N.leb_spec (blen x) n) as [L|L]; split; [intros [= <-]; auto|intros [[= ->] _]; reflexivity|discriminate|intros [[= ->] M]; lia].
  - intros s. destruct (prefixed s) eqn:E; cbn [obind]; [destruct (_ <=? _); discriminate|discriminate|destruct (prefixed_no_panic _ E)].
Qed.

(** ** Numbers *)
Lemma number_read_snoc s c : number_read (s ++ [c]) = number_step (number_read s) c.
Proof. unfold number_read. rewrite fold_left_app. reflexivity. Qed.
Lemma number_read_spec s : forall n, number_read s = Ok n <-> reads_as s n /\ n < 2 ^ 256.
Proof.
  induction s as [|c s IH] using rev_ind; intros n.
  - split; [intros [= <-]; split; [constructor|reflexivity]|]. intros [R _]. inversion R as [|s ? ? ? ? E|s ? ? E]; [reflexivity|destruct s; discriminate..].
  - rewrite number_read_snoc. split.
    + unfold number_step. destruct (number_read s) as [a| |]; cbn [obind]; [|discriminate..]. destruct (proj1 (IH a) eq_refl) as [R L].
      destruct (N.eqb_spec c 95) as [->|N95]; [intros [= <-]; split; [constructor; exact R|exact L]|].
      destruct ((48 <=? c) && (c <=? 57)) eqn:D; [|discriminate]. apply Bool.andb_true_iff in D as [D1 D2]. apply N.leb_le in D1, D2.
      destruct (N.ltb_spec (a * 10 + (c - 48)) (2 ^ 256)) as [B|B]; [|discriminate]. intros [= <-]. split; [|exact B].
      replace (a * 10 + (c - 48)) with (10 * a + (c - 48)) by lia. replace c with (48 + (c - 48)) at 1 by lia. constructor; [exact R|lia].
    + intros [R B]. inversion R as [E|s' m d R' D E|s' m R' E]; [destruct s; discriminate|..]; apply app_inj_tail in E as [-> <-]; subst.
      * assert (M : m < 2 ^ 256) by lia. rewrite (proj2 (IH m) (conj R' M)). cbn [number_step obind].
        destruct (N.eqb_spec (48 + d) 95) as [X|_]; [lia|]. assert (T : (48 <=? 48 + d) && (48 + d <=? 57) = true) by (apply Bool.andb_true_iff; split; apply N.leb_le; lia).
        rewrite T. replace (m * 10 + (48 + d - 48)) with (10 * m + d) by lia. apply N.ltb_lt in B. rewrite B. reflexivity.
      * rewrite (proj2 (IH n) (conj R' B)). reflexivity.
Qed.
Lemma radix_reads n x : x < 2 ^ N.of_nat n -> x <> 0 \/ n <> O -> reads_as (radix n 10 hex_digit x) x.
Proof.
  revert x. induction n as [|n IH]; intros x L NZ.
  - assert (x = 0) by (change (2 ^ N.of_nat 0) with 1 in L; lia). lia.
  - cbn [radix]. pose proof (N.div_mod x 10 ltac:(lia)) as Q. pose proof (N.mod_lt x 10 ltac:(lia)) as M.
    assert (H : hex_digit (x mod 10) = 48 + x mod 10) by (unfold hex_digit; apply N.ltb_lt in M; rewrite M; reflexivity). rewrite H.
    set (l := if x / 10 =? 0 then [] else radix n 10 hex_digit (x / 10)). assert (K : reads_as l (x / 10)); [|rewrite Q at 2; apply one_more; assumption].
    unfold l. destruct (N.eqb_spec (x / 10) 0) as [Z|Z]; [rewrite Z; constructor|].
    apply IH; [|left; exact Z]. replace (N.of_nat (S n)) with (N.succ (N.of_nat n)) in L by lia. rewrite N.pow_succ_r' in L. lia.
Qed.
(** A number below 2^256 is read as it was written; a text is read as the number it shows in decimals, if it shows one below 2^256. *)
Theorem C124_numbers :
  (forall n, n < 2 ^ 256 -> number_read (number_text n) = Ok n) /\
  (forall s n, number_read s = Ok n <-> reads_as s n /\ n < 2 ^ 256) /\ (forall s, number_read s <> Panic).
Proof.
  split; [|split; [exact number_read_spec|]].
  - intros n L. apply number_read_spec. split; [|exact L]. apply radix_reads; [exact L|right; discriminate].
  - induction s as [|c s IH] using rev_ind; [discriminate|]. rewrite number_read_snoc. unfold number_step. destruct (number_read s); cbn [obind]; [|discriminate|congruence].
    destruct (c =? 95); [discriminate|]. destruct (_ && _); [|discriminate]. destruct (_ <? _); discriminate.
Qed.
(** Not so: that a text without any digit is refused. *)
Theorem C124_numbers_refuted : forall n, number_read (repeat 95 n) = Ok 0.
Proof. intros n. unfold number_read. induction n as [|n IH]; [reflexivity|]. cbn [repeat fold_left]. exact IH. Qed.

(** ** Transactions *)
Lemma list_from_le v : blen v <= 2 ^ 30 -> list_from max_transaction v = v.
Proof. intros L. unfold list_from. apply N.leb_le in L. unfold max_transaction. rewrite L. reflexivity. Qed.
Lemma read_txs_spec l txs bs : Forall2 spells l bs ->
  read_txs l txs = if blen txs + blen l <=? N.max max_transactions (blen txs) then Ok (txs ++ map (list_from max_transaction) bs) else Err.
Proof.
  intros F. revert txs. induction F as [|s b l bs S F IH]; intros txs.
  - cbn [read_txs map]. rewrite app_nil_r. assert (E : blen txs + blen (@nil bytes) <=? N.max max_transactions (blen txs) = true) by (apply N.leb_le; unfold blen; cbn [length]; lia).
    rewrite E. reflexivity.
  - cbn [read_txs map]. apply hex_decode_spells in S. rewrite S. cbn [obind]. destruct (N.ltb_spec (blen txs) max_transactions) as [L|L].
    + rewrite IH. rewrite <- app_assoc. cbn [app].
      replace (blen (txs ++ [list_from max_transaction b])) with (blen txs + 1) by (unfold blen; rewrite app_length; cbn [length]; lia).
      replace (blen txs + blen (s :: l)) with (blen txs + 1 + blen l) by (unfold blen; cbn [length]; lia).
      rewrite !N.max_l by lia. reflexivity.
    + assert (E : blen txs + blen (s :: l) <=? N.max max_transactions (blen txs) = false) by (apply N.leb_gt; rewrite N.max_r by lia; unfold blen; cbn [length]; lia).
      rewrite E. reflexivity.
Qed.
Lemma encode_spells l : Forall bytes_ok l -> Forall2 spells (txs_text l) l.
Proof. intros F. unfold txs_text. induction F as [|b l K F IH]; cbn; constructor; [apply hex_decode_spells, hex_encode_decode, K|exact IH]. Qed.
(** Up to 2^20 transactions of up to 2^30 bytes are read as they were written.  More than 2^20 are refused, and so is a text that is not hex. *)
Theorem C124_transactions :
  (forall l, Forall bytes_ok l -> Forall (fun b => blen b <= 2 ^ 30) l -> blen l <= 2 ^ 20 -> txs_read (txs_text l) = Ok l) /\
  (forall l bs, Forall2 spells l bs -> Forall (fun b => blen b <= 2 ^ 30) bs -> txs_read l = if blen l <=? 2 ^ 20 then Ok bs else Err) /\
  (forall l s, In s l -> (forall b, ~ spells s b) -> txs_read l = Err).
Proof.
  assert (M : forall bs, Forall (fun b => blen b <= 2 ^ 30) bs -> map (list_from max_transaction) bs = bs).
  { intros bs F. induction F as [|b bs L F IH]; [reflexivity|]. cbn [map]. rewrite IH, list_from_le by exact L. reflexivity. }
  assert (B : forall l bs, Forall2 spells l bs -> Forall (fun b => blen b <= 2 ^ 30) bs -> txs_read l = if blen l <=? 2 ^ 20 then Ok bs else Err).
  { intros l bs F S. unfold txs_read. rewrite (read_txs_spec l [] bs F), (M bs S). change (blen (@nil bytes)) with 0. rewrite N.max_l, N.add_0_l by (unfold max_transactions; lia).
    unfold max_transactions. reflexivity. }
  split; [|split; [exact B|]].
  - intros l K S L. rewrite (B _ l (encode_spells l K) S). assert (E : blen (txs_text l) = blen l) by (unfold blen, txs_text; rewrite map_length; reflexivity).
    rewrite E. apply N.leb_le in L. rewrite L. reflexivity.
  - intros l s H N. unfold txs_read. generalize (@nil bytes). induction l as [|t l IH]; intros txs; [destruct H|]. cbn [read_txs].
    destruct (hex_decode t) as [b| |] eqn:E; cbn [obind]; [|reflexivity|destruct (hex_decode_no_panic _ E)].
    destruct H as [->|H]; [apply hex_decode_spells in E; destruct (N _ E)|]. destruct (_ <? _); [apply IH, H|reflexivity].
Qed.
(** Not so: that a longer transaction is refused.  It is cut. *)
Theorem C124_transactions_refuted : forall b r, bytes_ok (b ++ r) -> blen b = 2 ^ 30 -> txs_read (txs_text [b ++ r]) = Ok [b].
Proof.
  intros b r K L. unfold txs_read, txs_text. cbn [map read_txs]. rewrite hex_encode_decode by exact K. cbn [obind].
  change (blen (@nil bytes) <? max_transactions) with true. cbn [app]. do 2 f_equal. unfold list_from, max_transaction.
  assert (E : N.to_nat (2 ^ 30) = length b) by (unfold blen in L; rewrite <- L; apply Nat2N.id). rewrite E, firstn_app, Nat.sub_diag, firstn_all, app_nil_r.
  destruct (N.leb_spec (blen (b ++ r)) (2 ^ 30)) as [X|X]; [|reflexivity]. destruct r as [|y r]; [apply app_nil_r|]. exfalso.
  unfold blen in X, L. rewrite app_length in X. cbn [length] in X. lia.
Qed.

Example C124_example :
  pubkey_read (hex_encode (repeat 7 48)) = Ok (repeat 7 48) /\ pubkey_read [48; 120] = Ok (repeat 0 48) /\
  signature_read (hex_encode (repeat 7 95)) = Panic /\ commitment_read (hex_encode (repeat 7 47)) = Err /\
  number_text 1234 = [49; 50; 51; 52] /\ number_read [49; 95; 50] = Ok 12 /\ number_read [49; 97] = Err /\
  txs_read [[48; 120; 48; 49]; [48; 88]] = Ok [[1]; []] /\ list_read 32 [48; 88] = Err /\
  commitment_display (repeat 0 46 ++ [10; 11]) = [48; 120; 48; 48; 48; 48; 226; 128; 166; 48; 97; 48; 98].
Proof. repeat split; vm_compute; reflexivity. Qed.

Print Assumptions C124_keys.
Print Assumptions C124_keys_refuted.
Print Assumptions C124_signatures.
Print Assumptions C124_signatures_refuted.
Print Assumptions C124_commitments.
Print Assumptions C124_display.
Print Assumptions C124_versioned.
Print Assumptions C124_fixed.
Print Assumptions C124_lists.
Print Assumptions C124_numbers.
Print Assumptions C124_numbers_refuted.
Print Assumptions C124_transactions.
Print Assumptions C124_transactions_refuted.
