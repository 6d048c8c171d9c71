From Verif Require Import Base Distance_Model Distance_Spec.

Lemma lxor_shift_add k a b r s :
  r < 2 ^ k -> s < 2 ^ k ->
  N.lxor (a * 2 ^ k + r) (b * 2 ^ k + s) = N.lxor a b * 2 ^ k + N.lxor r s.
Proof.
  intros Hr Hs.
  assert (Hx : N.lxor r s < 2 ^ k).
  { destruct (N.eq_dec (N.lxor r s) 0) as [->|Hn]; [lia|].
    apply N.log2_lt_pow2; [lia|].
    pose proof (N.log2_lxor r s) as Hl.
    assert (Hk : 0 < k).
    { destruct (N.eq_dec k 0) as [->|]; [|lia].
      assert (r = 0) by (change (2^0) with 1 in Hr; lia).
      assert (s = 0) by (change (2^0) with 1 in Hs; lia). subst. now elim Hn. }
    assert (Hb : forall q, q < 2 ^ k -> N.log2 q < k).
    { intros q Hq. destruct (N.eq_dec q 0) as [->|]; [cbn; lia|].
      apply N.log2_lt_pow2; [lia|exact Hq]. }
    pose proof (Hb r Hr). pose proof (Hb s Hs). lia. }
  assert (Hsplit : forall q t, t < 2 ^ k -> forall m,
    N.testbit (q * 2 ^ k + t) m = if m <? k then N.testbit t m else N.testbit q (m - k)).
  { intros q t Ht m. rewrite <- N.shiftl_mul_pow2.
    rewrite N.add_nocarry_lxor.
    - rewrite N.lxor_spec. destruct (N.ltb_spec m k).
      + rewrite N.shiftl_spec_low by assumption. destruct (N.testbit t m); reflexivity.
      + rewrite N.shiftl_spec_high' by assumption.
        replace (N.testbit t m) with false; [destruct (N.testbit q (m-k)); reflexivity|].
        symmetry. rewrite <- (N.mod_small t (2^k) Ht). apply N.mod_pow2_bits_high. assumption.
    - apply N.bits_inj. intros i. rewrite N.land_spec, N.bits_0.
      destruct (N.lt_ge_cases i k).
      + rewrite N.shiftl_spec_low by assumption. reflexivity.
      + rewrite <- (N.mod_small t (2^k) Ht), N.mod_pow2_bits_high by assumption.
        apply andb_false_r. }
  apply N.bits_inj. intros m.
  rewrite N.lxor_spec, !Hsplit by assumption.
  destruct (m <? k); rewrite N.lxor_spec; reflexivity.
Qed.

Lemma pow256_pow2 n : 256 ^ N.of_nat n = 2 ^ (8 * N.of_nat n).
Proof. rewrite N.pow_mul_r. reflexivity. Qed.

Lemma be_num_xor x y :
  length x = length y -> bytes_ok x -> bytes_ok y ->
  be_num (xor_bytes x y) = N.lxor (be_num x) (be_num y).
Proof.
  revert y. induction x as [|a x IH]; intros [|b y] Hl Hx Hy; try discriminate; [reflexivity|].
  injection Hl as Hl. apply bytes_ok_cons in Hx as [Ha Hx]. apply bytes_ok_cons in Hy as [Hb Hy].
  unfold xor_bytes in *. cbn [combine map fst snd].
  rewrite !be_num_cons, map_length, combine_length, <- Hl, Nat.min_id.
  rewrite IH by assumption. rewrite pow256_pow2.
  pose proof (be_num_bound x Hx) as Bx. pose proof (be_num_bound y Hy) as By.
  rewrite <- Hl in By. rewrite pow256_pow2 in Bx, By.
  symmetry. apply lxor_shift_add; assumption.
Qed.

Lemma lxor_byte a b : a < 256 -> b < 256 -> N.lxor a b < 256.
Proof.
  intros Ha Hb.
  pose proof (lxor_shift_add 8 0 0 a b Ha Hb) as _.
  destruct (N.eq_dec (N.lxor a b) 0) as [->|Hn]; [lia|].
  change 256 with (2 ^ 8). apply N.log2_lt_pow2; [lia|].
  pose proof (N.log2_lxor a b).
  assert (HB : forall q, q < 256 -> N.log2 q < 8).
  { intros q Hq. destruct (N.eq_dec q 0) as [->|]; [cbn; lia|].
    apply N.log2_lt_pow2; [lia|exact Hq]. }
  pose proof (HB a Ha). pose proof (HB b Hb). lia.
Qed.

Lemma xor_bytes_ok x y : bytes_ok x -> bytes_ok y -> bytes_ok (xor_bytes x y).
Proof.
  revert y. induction x as [|a x IH]; intros [|b y] Hx Hy; try constructor.
  - apply bytes_ok_cons in Hx, Hy. apply lxor_byte; tauto.
  - apply bytes_ok_cons in Hx, Hy. apply IH; tauto.
Qed.

Lemma xor_bytes_length x y : length x = length y -> length (xor_bytes x y) = length x.
Proof. intros H. unfold xor_bytes. rewrite map_length, combine_length, H. lia. Qed.

Lemma lxor_le_add a b : N.lxor a b <= a + b.
Proof.
  revert b. induction a as [|a IH|a IH] using N.binary_ind; intros b;
    rewrite ?N.double_spec, ?N.succ_double_spec.
  - rewrite N.lxor_0_l. lia.
  - destruct (N.even b) eqn:E.
    + apply N.even_spec in E as [c ->].
      replace (N.lxor (2 * a) (2 * c)) with (2 * N.lxor a c).
      * specialize (IH c). lia.
      * apply N.bits_inj. intros m. destruct (N.zero_or_succ m) as [->|[n ->]].
        -- rewrite N.lxor_spec, !N.testbit_even_0. reflexivity.
        -- rewrite N.lxor_spec, !N.testbit_even_succ, N.lxor_spec by lia. reflexivity.
    + rewrite <- N.negb_odd in E. apply negb_false_iff, N.odd_spec in E as [c ->].
      replace (N.lxor (2 * a) (2 * c + 1)) with (2 * N.lxor a c + 1).
      * specialize (IH c). lia.
      * apply N.bits_inj. intros m. destruct (N.zero_or_succ m) as [->|[n ->]].
        -- rewrite N.lxor_spec, N.testbit_even_0, !N.testbit_odd_0. reflexivity.
        -- rewrite N.lxor_spec, N.testbit_even_succ, !N.testbit_odd_succ, N.lxor_spec by lia. reflexivity.
  - destruct (N.even b) eqn:E.
    + apply N.even_spec in E as [c ->].
      replace (N.lxor (2 * a + 1) (2 * c)) with (2 * N.lxor a c + 1).
      * specialize (IH c). lia.
      * apply N.bits_inj. intros m. destruct (N.zero_or_succ m) as [->|[n ->]].
        -- rewrite N.lxor_spec, N.testbit_even_0, !N.testbit_odd_0. reflexivity.
        -- rewrite N.lxor_spec, N.testbit_even_succ, !N.testbit_odd_succ, N.lxor_spec by lia. reflexivity.
    + rewrite <- N.negb_odd in E. apply negb_false_iff, N.odd_spec in E as [c ->].
      replace (N.lxor (2 * a + 1) (2 * c + 1)) with (2 * N.lxor a c).
      * specialize (IH c). lia.
      * apply N.bits_inj. intros m. destruct (N.zero_or_succ m) as [->|[n ->]].
        -- rewrite N.lxor_spec, N.testbit_even_0, !N.testbit_odd_0. reflexivity.
        -- rewrite N.lxor_spec, N.testbit_even_succ, !N.testbit_odd_succ, N.lxor_spec by lia. reflexivity.
Qed.

Lemma id32_bound x : id32 x -> be_num x < 2 ^ 256.
Proof.
  intros [Hl Hx]. pose proof (be_num_bound x Hx) as H. rewrite Hl in H. exact H.
Qed.

Lemma distance_lxor x y : id32 x -> id32 y -> distance x y = N.lxor (be_num x) (be_num y).
Proof. intros [Hx1 Hx2] [Hy1 Hy2]. apply be_num_xor; congruence. Qed.

Lemma distance_bound x y : id32 x -> id32 y -> distance x y < 2 ^ 256.
Proof.
  intros [Hx1 Hx2] [Hy1 Hy2]. apply id32_bound. split.
  - rewrite xor_bytes_length; congruence.
  - apply xor_bytes_ok; assumption.
Qed.

Lemma id32_be_bytes n : id32 (be_bytes 32 n).
Proof. split; [apply be_bytes_length | apply be_bytes_ok]. Qed.

Lemma id32_be_num_inj x y : id32 x -> id32 y -> be_num x = be_num y -> x = y.
Proof. intros [Lx Hx] [Ly Hy] H. apply be_num_inj; congruence. Qed.

Lemma distance_sym x y : id32 x -> id32 y -> distance x y = distance y x.
Proof. intros. rewrite !distance_lxor by assumption. apply N.lxor_comm. Qed.

Lemma distance_zero x y : id32 x -> id32 y -> distance x y = 0 <-> x = y.
Proof.
  intros Hx Hy. rewrite distance_lxor by assumption. rewrite N.lxor_eq_0_iff. split.
  - apply id32_be_num_inj; assumption.
  - congruence.
Qed.

Lemma distance_triangle x y z :
  id32 x -> id32 y -> id32 z -> distance x z <= distance x y + distance y z.
Proof.
  intros. rewrite !distance_lxor by assumption.
  replace (N.lxor (be_num x) (be_num z))
    with (N.lxor (N.lxor (be_num x) (be_num y)) (N.lxor (be_num y) (be_num z))).
  - apply lxor_le_add.
  - rewrite N.lxor_assoc, <- (N.lxor_assoc (be_num y)), N.lxor_nilpotent, N.lxor_0_l. reflexivity.
Qed.

Lemma lxor_bound256 a b : a < 2^256 -> b < 2^256 -> N.lxor a b < 2^256.
Proof.
  intros Ha Hb.
  pose proof (distance_bound (be_bytes 32 a) (be_bytes 32 b) (id32_be_bytes a) (id32_be_bytes b)) as H.
  rewrite distance_lxor in H by apply id32_be_bytes.
  rewrite !be_num_be_bytes_id in H by assumption. exact H.
Qed.

Lemma distance_unidirectional x d :
  id32 x -> d < 2 ^ 256 -> exists! y, id32 y /\ distance x y = d.
Proof.
  intros Hx Hd. pose proof (id32_bound x Hx) as Bx.
  exists (be_bytes 32 (N.lxor (be_num x) d)). split.
  - split; [apply id32_be_bytes|]. rewrite distance_lxor by (try apply id32_be_bytes; assumption).
    rewrite be_num_be_bytes_id by (apply lxor_bound256; assumption).
    rewrite <- N.lxor_assoc, N.lxor_nilpotent. apply N.lxor_0_l.
  - intros y [Hy He]. rewrite distance_lxor in He by assumption. subst d.
    rewrite <- N.lxor_assoc, N.lxor_nilpotent, N.lxor_0_l.
    destruct Hy as [Hl Hy]. rewrite <- Hl. apply be_bytes_be_num, Hy.
Qed.

(** ** log2 and byte order *)

Lemma log2_spec d : d < 2 ^ 256 ->
  (log2 d = None <-> d = 0) /\
  (forall k, log2 d = Some k <-> 1 <= k /\ k <= 256 /\ 2 ^ (k - 1) <= d /\ d < 2 ^ k).
Proof.
  intros Hd. unfold log2, leading_zeros256. destruct (N.eqb_spec d 0) as [->|Hn].
  - split; [tauto|]. intros k. split; [discriminate|].
    intros (H1 & H2 & H3 & H4). pose proof (N.pow_nonzero 2 (k-1)). lia.
  - split; [split; [discriminate|congruence]|].
    rewrite N.size_log2 by assumption.
    destruct (N.log2_spec d ltac:(lia)) as [L1 L2].
    assert (Hlog : N.log2 d < 256) by (apply N.log2_lt_pow2; lia).
    intros k. split.
    + intros [= <-].
      replace (256 - (256 - N.succ (N.log2 d))) with (N.succ (N.log2 d)) by lia.
      replace (N.succ (N.log2 d) - 1) with (N.log2 d) by lia. repeat split; lia.
    + intros (K1 & K2 & K3 & K4). f_equal.
      assert (N.log2 d = k - 1); [|lia].
      apply N.log2_unique; [lia|]. split; [exact K3|].
      replace (N.succ (k - 1)) with k by lia. exact K4.
Qed.

Lemma be_num_lex a b :
  length a = length b -> bytes_ok a -> bytes_ok b -> lex_lt a b <-> be_num a < be_num b.
Proof.
  revert b. induction a as [|x a IH]; intros [|y b] Hl Ha Hb; try discriminate.
  - cbn. lia.
  - injection Hl as Hl. apply bytes_ok_cons in Ha as [Hx Ha]. apply bytes_ok_cons in Hb as [Hy Hb].
    cbn [lex_lt]. rewrite (IH b Hl Ha Hb), !be_num_cons, <- Hl.
    pose proof (be_num_bound a Ha) as Ba. pose proof (be_num_bound b Hb) as Bb. rewrite <- Hl in Bb.
    set (P := 256 ^ N.of_nat (length a)) in *. split.
    + intros [H|[-> H]]; nia.
    + intros H. destruct (N.lt_trichotomy x y) as [|[->|]]; [left; assumption|right; split; [reflexivity|nia]|nia].
Qed.

Lemma big_endian_lex d e : d < 2 ^ 256 -> e < 2 ^ 256 ->
  d < e <-> lex_lt (big_endian d) (big_endian e).
Proof.
  intros Hd He. unfold big_endian. rewrite be_num_lex.
  - rewrite !be_num_be_bytes_id by assumption. reflexivity.
  - rewrite !be_bytes_length. reflexivity.
  - apply be_bytes_ok.
  - apply be_bytes_ok.
Qed.

Lemma big_endian_u32_div d : d < 2 ^ 256 -> big_endian_u32 d = d / 2 ^ 224.
Proof.
  intros Hd. unfold big_endian_u32.
  pose proof (be_num_be_bytes_id 32 d Hd) as H. fold (big_endian d) in H.
  rewrite <- (firstn_skipn 4 (big_endian d)), be_num_app in H.
  assert (Hl : length (skipn 4 (big_endian d)) = 28%nat).
  { rewrite skipn_length. unfold big_endian. rewrite be_bytes_length. reflexivity. }
  rewrite Hl in H.
  assert (Hb : be_num (skipn 4 (big_endian d)) < 2 ^ 224).
  { change (2 ^ 224) with (256 ^ N.of_nat 28). rewrite <- Hl. apply be_num_bound.
    apply bytes_ok_skipn, be_bytes_ok. }
  change (256 ^ N.of_nat 28) with (2 ^ 224) in H.
  set (P := 2 ^ 224) in *. apply (N.div_unique d P _ (be_num (skipn 4 (big_endian d)))); lia.
Qed.

Lemma big_endian_u32_mono d e : e < 2 ^ 256 -> d <= e -> big_endian_u32 d <= big_endian_u32 e.
Proof.
  intros He Hde. rewrite !big_endian_u32_div by lia. apply N.div_le_mono; [discriminate|assumption].
Qed.

Lemma le_max d : d <= u256_max <-> d < 2 ^ 256.
Proof. unfold u256_max. lia. Qed.

Lemma xor_distance_metric (x y z : bytes) : id32 x -> id32 y -> id32 z ->
    distance x y <= u256_max /\
    distance x y = distance y x /\
    (distance x y = 0 <-> x = y) /\
    distance x z <= distance x y + distance y z.
Proof.
  intros Hx Hy Hz. split; [apply le_max, distance_bound; assumption|].
  split; [apply distance_sym; assumption|].
  split; [apply distance_zero; assumption|]. apply distance_triangle; assumption.
Qed.

Lemma xor_unidirectional (x : bytes) (d : N) : id32 x -> d <= u256_max ->
    exists! y, id32 y /\ distance x y = d.
Proof. intros Hx Hd. apply distance_unidirectional; [assumption|apply le_max, Hd]. Qed.

Lemma log2_brackets d : d <= u256_max ->
    (log2 d = None <-> d = 0) /\
    (forall k, log2 d = Some k <-> 1 <= k /\ k <= 256 /\ 2 ^ (k - 1) <= d /\ d < 2 ^ k).
Proof. intros Hd. apply log2_spec, le_max, Hd. Qed.

Lemma big_endian_order d e : d <= u256_max -> e <= u256_max ->
    id32 (big_endian d) /\
    be_num (big_endian d) = d /\
    (d < e <-> lex_lt (big_endian d) (big_endian e)) /\
    (d <= e -> big_endian_u32 d <= big_endian_u32 e) /\
    big_endian_u32 d = d / 2 ^ 224.
Proof.
  intros Hd He. apply le_max in Hd, He.
  split; [apply id32_be_bytes|].
  split; [apply be_num_be_bytes_id; assumption|].
  split; [apply big_endian_lex; assumption|].
  split; [apply big_endian_u32_mono; assumption|].
  apply big_endian_u32_div; assumption.
Qed.
