From Verif Require Import Base Ssz_Model Ssz_Proofs Keys_Model.

(** ** Containers of one, two and three fields *)
Definition part_of (f : option N) (x : bytes) : part := match f with Some _ => PFix x | None => PVar x end.
Definition fits (f : option N) (x : bytes) : Prop := match f with Some n => blen x = n | None => True end.

Lemma field_part f x : fits f x -> field (part_of f x) = f.
Proof. destruct f as [n|]; cbn; [intros ->|]; reflexivity. Qed.
Lemma part_bytes_part f x : part_bytes (part_of f x) = x.
Proof. destruct f; reflexivity. Qed.
Lemma make_part_of f x : make_part f x = part_of f x.
Proof. destruct f; reflexivity. Qed.
Lemma field_fits f x : field (part_of f x) = f -> fits f x.
Proof. destruct f as [n|]; cbn; [intros [= E]; exact E|auto]. Qed.

Lemma container1_ok f x : fits f x -> blen (encode_container [part_of f x]) < 2 ^ 32 ->
  container1 f (encode_container [part_of f x]) = Ok x.
Proof.
  intros F L. unfold container1. pose proof (decode_encode_container _ L) as D. cbn [map] in D.
  rewrite field_part, part_bytes_part in D by exact F. rewrite D. reflexivity.
Qed.
Lemma container1_inv f b x : bytes_ok b -> container1 f b = Ok x -> fits f x /\ encode_container [part_of f x] = b.
Proof.
  intros Hb. unfold container1. destruct (decode_container [f] b) as [l| |] eqn:D; cbn [obind]; try discriminate.
  destruct (decode_container_canonical _ _ _ Hb D) as (L & F & E). destruct l as [|y [|? ?]]; try discriminate.
  intros [= ->]. cbn [combine map fst snd] in F, E. rewrite make_part_of in F, E. injection F as F. split; [apply field_fits, F|exact E].
Qed.
Lemma container2_ok f g x y : fits f x -> fits g y -> blen (encode_container [part_of f x; part_of g y]) < 2 ^ 32 ->
  container2 f g (encode_container [part_of f x; part_of g y]) = Ok (x, y).
Proof.
  intros F G L. unfold container2. pose proof (decode_encode_container _ L) as D. cbn [map] in D.
  rewrite !field_part, !part_bytes_part in D by assumption. rewrite D. reflexivity.
Qed.
Lemma container2_inv f g b x y : bytes_ok b -> container2 f g b = Ok (x, y) ->
  fits f x /\ fits g y /\ encode_container [part_of f x; part_of g y] = b.
Proof.
  intros Hb. unfold container2. destruct (decode_container [f; g] b) as [l| |] eqn:D; cbn [obind]; try discriminate.
  destruct (decode_container_canonical _ _ _ Hb D) as (L & F & E). destruct l as [|u [|v [|? ?]]]; try discriminate.
  intros [= -> ->]. cbn [combine map fst snd] in F, E. rewrite !make_part_of in F, E. injection F as F G.
  split; [apply field_fits, F|]. split; [apply field_fits, G|exact E].
Qed.
Lemma container3_ok f g h x y z : fits f x -> fits g y -> fits h z ->
  blen (encode_container [part_of f x; part_of g y; part_of h z]) < 2 ^ 32 ->
  container3 f g h (encode_container [part_of f x; part_of g y; part_of h z]) = Ok (x, y, z).
Proof.
  intros F G H L. unfold container3. pose proof (decode_encode_container _ L) as D. cbn [map] in D.
  rewrite !field_part, !part_bytes_part in D by assumption. rewrite D. reflexivity.
Qed.
Lemma container3_inv f g h b x y z : bytes_ok b -> container3 f g h b = Ok (x, y, z) ->
  fits f x /\ fits g y /\ fits h z /\ encode_container [part_of f x; part_of g y; part_of h z] = b.
Proof.
  intros Hb. unfold container3. destruct (decode_container [f; g; h] b) as [l| |] eqn:D; cbn [obind]; try discriminate.
  destruct (decode_container_canonical _ _ _ Hb D) as (L & F & E). destruct l as [|u [|v [|w [|? ?]]]]; try discriminate.
  intros [= -> -> ->]. cbn [combine map fst snd] in F, E. rewrite !make_part_of in F, E. injection F as F G H.
  split; [apply field_fits, F|]. split; [apply field_fits, G|]. split; [apply field_fits, H|exact E].
Qed.

Lemma uint_ok n x : x < 256 ^ N.of_nat n -> decode_uint n (le_bytes n x) = Ok x.
Proof. intros H. unfold decode_uint. rewrite le_bytes_length, Nat.eqb_refl, le_num_le_bytes_id by exact H. reflexivity. Qed.
Lemma uint_inv n b x : bytes_ok b -> decode_uint n b = Ok x -> x < 256 ^ N.of_nat n /\ b = le_bytes n x.
Proof.
  intros Hb. unfold decode_uint. destruct (Nat.eqb_spec (length b) n) as [<-|]; [|discriminate]. intros [= <-].
  split; [apply le_num_bound, Hb|symmetry; apply le_bytes_le_num, Hb].
Qed.

(** ** Paths *)
Lemma byte_cases (P : N -> bool) : forallb P (map N.of_nat (seq 0 256)) = true -> forall b, b < 256 -> P b = true.
Proof.
  intros H b Hb. rewrite forallb_forall in H. apply H. apply in_map_iff. exists (N.to_nat b). split; [lia|]. apply in_seq. lia.
Qed.
Lemma pack_unpack b : b < 256 -> pack (N.shiftr b 4) (N.land b 15) = b /\ N.shiftr b 4 <= 15 /\ N.land b 15 <= 15.
Proof.
  intros H. pose proof (byte_cases (fun b => (pack (N.shiftr b 4) (N.land b 15) =? b) && (N.shiftr b 4 <=? 15) && (N.land b 15 <=? 15)) ltac:(vm_compute; reflexivity) b H) as C.
  cbv beta in C. apply andb_prop in C as [C C3]. apply andb_prop in C as [C1 C2].
  split; [apply N.eqb_eq, C1|]. split; [apply N.leb_le, C2|apply N.leb_le, C3].
Qed.
Lemma pack_arith a b : a <= 15 -> b <= 15 -> pack a b = 16 * a + b.
Proof.
  intros Ha Hb. assert (H : 16 * a + b < 256) by lia.
  assert (Q : a = (16 * a + b) / 16 /\ b = (16 * a + b) mod 16) by lia. destruct Q as [Q1 Q2].
  pose proof (byte_cases (fun b => pack (b / 16) (b mod 16) =? b) ltac:(vm_compute; reflexivity) _ H) as C. cbv beta in C.
  rewrite <- Q1, <- Q2 in C. apply N.eqb_eq, C.
Qed.
Lemma unpack_pack a b : a <= 15 -> b <= 15 -> unpack_pair (pack a b) = [a; b].
Proof.
  intros Ha Hb. rewrite pack_arith by assumption. unfold unpack_pair. rewrite N.shiftr_div_pow2. change 15 with (N.ones 4). rewrite N.land_ones.
  change (2 ^ 4) with 16. f_equal; [|f_equal]; lia.
Qed.
Lemma or16 n : n <= 15 -> N.lor 16 n = 16 + n.
Proof.
  intros H. assert (H' : n < 256) by lia. pose proof (byte_cases (fun n => (15 <? n) || (N.lor 16 n =? 16 + n)) ltac:(vm_compute; reflexivity) n H') as C.
  cbv beta in C. apply orb_prop in C as [C|C]; [apply N.ltb_lt in C; lia|apply N.eqb_eq, C].
Qed.

Definition path_ok (l : bytes) : Prop := blen l <= 64 /\ Forall (fun n => n <= 15) l.
Lemma unpacked_ok l : path_ok l -> try_from_unpacked l = Ok l.
Proof.
  intros [L F]. unfold try_from_unpacked. destruct (N.ltb_spec 64 (blen l)); [lia|].
  assert (X : forallb (fun n => n <=? 15) l = true).
  { apply forallb_forall. intros x Hx. apply N.leb_le. rewrite Forall_forall in F. auto. }
  rewrite X. reflexivity.
Qed.
Lemma unpacked_inv l m : try_from_unpacked l = Ok m -> m = l /\ path_ok l.
Proof.
  unfold try_from_unpacked. destruct (N.ltb_spec 64 (blen l)); [discriminate|]. destruct (forallb _ l) eqn:F; [|discriminate].
  intros [= <-]. split; [reflexivity|]. split; [assumption|]. apply Forall_forall. intros x Hx. rewrite forallb_forall in F. apply N.leb_le, F, Hx.
Qed.
Lemma pairs_ind (P : bytes -> Prop) : P [] -> (forall a b l, P l -> P (a :: b :: l)) -> forall l, (Nat.Even (length l)) -> P l.
Proof.
  intros H0 H2. fix IH 1. intros [|a [|b l]] E.
  - exact H0.
  - destruct E as [k E]. cbn in E. lia.
  - apply H2. apply IH. destruct E as [k E]. cbn in E. exists (k - 1)%nat. lia.
Qed.
Lemma unpack_pack_pairs l : Nat.Even (length l) -> Forall (fun n => n <= 15) l -> unpack_nibbles (pack_pairs l) = l.
Proof.
  intros E. pattern l. apply pairs_ind; [reflexivity| |exact E]. clear. intros a b l IH F.
  inversion F as [|? ? Ha F']; subst. inversion F' as [|? ? Hb F2]; subst.
  cbn [pack_pairs unpack_nibbles flat_map]. rewrite unpack_pack by assumption. cbn [app]. do 2 f_equal. apply IH, F2.
Qed.
Lemma pack_unpack_pairs b : bytes_ok b -> pack_pairs (unpack_nibbles b) = b /\ Forall (fun n => n <= 15) (unpack_nibbles b).
Proof.
  induction b as [|x b IH]; intros H; [split; [reflexivity|constructor]|]. apply bytes_ok_cons in H as [Hx Hb]. destruct (IH Hb) as [E F].
  destruct (pack_unpack x Hx) as (P & A & B). cbn [unpack_nibbles flat_map unpack_pair app pack_pairs]. rewrite P.
  change (flat_map unpack_pair b) with (unpack_nibbles b). rewrite E. split; [reflexivity|]. repeat constructor; assumption.
Qed.
Lemma unpack_len b : length (unpack_nibbles b) = (2 * length b)%nat.
Proof. induction b as [|x b IH]; [reflexivity|]. cbn [unpack_nibbles flat_map unpack_pair app length]. unfold unpack_nibbles in IH. rewrite IH. lia. Qed.
Lemma parity (l : bytes) : if blen l mod 2 =? 0 then Nat.Even (length l) else exists n r, l = n :: r /\ Nat.Even (length r).
Proof.
  unfold blen. destruct (N.eqb_spec (N.of_nat (length l) mod 2) 0) as [E|E].
  - exists (N.to_nat (N.of_nat (length l) / 2)). lia.
  - destruct l as [|n r]; [exfalso; apply E; reflexivity|]. exists n, r. split; [reflexivity|]. cbn [length] in E.
    exists (N.to_nat (N.of_nat (length r) / 2)). lia.
Qed.
Lemma nibbles_round_trip l : path_ok l -> nibbles_decode (nibbles_encode l) = Ok l.
Proof.
  intros H. pose proof (parity l) as P. unfold nibbles_encode. destruct (blen l mod 2 =? 0).
  - cbn [nibbles_decode]. change (N.shiftr 0 4 =? 0) with true. cbn iota. change (N.land 0 15 =? 0) with true. cbn [negb].
    rewrite unpack_pack_pairs by (auto; apply H). apply unpacked_ok, H.
  - destruct P as (n & r & -> & Er). destruct H as [L F]. inversion F as [|? ? Hn Hr]; subst. cbn [nibbles_decode].
    rewrite or16 by exact Hn. assert (Q1 : N.shiftr (16 + n) 4 = 1) by (rewrite N.shiftr_div_pow2; change (2 ^ 4) with 16; lia).
    assert (Q2 : N.land (16 + n) 15 = n) by (change 15 with (N.ones 4); rewrite N.land_ones; change (2 ^ 4) with 16; lia).
    rewrite Q1, Q2. change (1 =? 0) with false. change (1 =? 1) with true. cbn iota.
    rewrite unpack_pack_pairs by assumption. apply unpacked_ok. split; [exact L|]. constructor; assumption.
Qed.
Lemma nibbles_canonical b l : bytes_ok b -> nibbles_decode b = Ok l -> path_ok l /\ nibbles_encode l = b.
Proof.
  destruct b as [|x b]; [discriminate|]. intros Hb. apply bytes_ok_cons in Hb as [Hx Hb]. cbn [nibbles_decode].
  destruct (pack_unpack x Hx) as (P & A & B). destruct (pack_unpack_pairs b Hb) as [E F].
  destruct (N.eqb_spec (N.shiftr x 4) 0) as [Z|Z].
  - destruct (N.eqb_spec (N.land x 15) 0) as [Y|Y]; [|discriminate]. cbn [negb]. intros H. apply unpacked_inv in H as [-> H].
    split; [exact H|]. unfold nibbles_encode. unfold blen. rewrite unpack_len.
    replace (N.of_nat (2 * length b) mod 2 =? 0) with true by (symmetry; apply N.eqb_eq; lia). rewrite E. f_equal. rewrite <- P, Z, Y. reflexivity.
  - destruct (N.eqb_spec (N.shiftr x 4) 1) as [Y|Y]; [|discriminate]. intros H. apply unpacked_inv in H as [-> H]. split; [exact H|].
    unfold nibbles_encode, blen. cbn [length]. rewrite unpack_len. replace (N.of_nat (S (2 * length b)) mod 2 =? 0) with false by (symmetry; apply N.eqb_neq; lia).
    rewrite E. f_equal. rewrite or16 by exact B. rewrite <- P at 2. rewrite Y. rewrite pack_arith by lia. reflexivity.
Qed.
Lemma pack_pairs_ok l : Forall (fun n => n <= 15) l -> bytes_ok (pack_pairs l).
Proof.
  assert (G : forall n l, (length l <= n)%nat -> Forall (fun n => n <= 15) l -> bytes_ok (pack_pairs l)).
  { clear. induction n as [|n IH]; intros [|a [|b l]] L F; try constructor; cbn in L; try lia.
    - inversion F as [|? ? Ha F']; subst. inversion F' as [|? ? Hb F2]; subst. unfold byte_ok. rewrite pack_arith by assumption. lia.
    - inversion F as [|? ? Ha F']; subst. inversion F' as [|? ? Hb F2]; subst. apply IH; [lia|exact F2]. }
  apply (G (length l)). apply le_n.
Qed.
Lemma pack_pairs_len l : length (pack_pairs l) = (length l / 2)%nat.
Proof.
  assert (G : forall n l, (length l <= n)%nat -> length (pack_pairs l) = (length l / 2)%nat).
  { clear. induction n as [|n IH]; intros [|a [|b l]] L; cbn in L; try lia; try reflexivity. cbn [pack_pairs length]. rewrite IH by lia.
    change (S (S (length l))) with (1 * 2 + length l)%nat at 1 || idtac. replace (S (S (length l))) with (1 * 2 + length l)%nat by lia.
    rewrite Nat.div_add_l by lia. lia. }
  apply (G (length l)). apply le_n.
Qed.
Lemma nibbles_encode_ok l : path_ok l -> bytes_ok (nibbles_encode l).
Proof.
  intros [_ F]. unfold nibbles_encode. destruct (_ =? 0).
  - apply bytes_ok_cons. split; [lia|apply pack_pairs_ok, F].
  - destruct l as [|n r]; [constructor|]. inversion F as [|? ? Hn Hr]; subst. apply bytes_ok_cons. split; [rewrite or16; lia|apply pack_pairs_ok, Hr].
Qed.
Lemma nibbles_encode_len l : length (nibbles_encode l) = (1 + length l / 2)%nat.
Proof.
  pose proof (parity l) as P. unfold nibbles_encode. destruct (_ =? 0).
  - cbn [length]. rewrite pack_pairs_len. reflexivity.
  - destruct P as (n & r & -> & k & Ek). cbn [length]. rewrite pack_pairs_len. f_equal. rewrite Ek.
    replace (2 * k)%nat with (k * 2)%nat by lia. rewrite Nat.div_mul by lia. replace (S (k * 2)) with (k * 2 + 1)%nat by lia.
    rewrite Nat.div_add_l by lia. cbn. lia.
Qed.

(** ** Range content ids *)
Lemma reverse_bound n : forall x, reverse_bits n x < 2 ^ N.of_nat n.
Proof.
  induction n as [|n IH]; intros x; cbn [reverse_bits]; [reflexivity|]. rewrite Nat2N.inj_succ, N.pow_succ_r'.
  specialize (IH (x / 2)). assert (x mod 2 < 2) by (apply N.mod_lt; discriminate).
  set (p := 2 ^ N.of_nat n) in *. clearbody p. set (m := x mod 2) in *. clearbody m. set (r := reverse_bits n (x / 2)) in *. clearbody r. nia.
Qed.
(** Bit [i] of the reversal is bit [n - 1 - i]. *)
Lemma reverse_testbit n : forall x i, (i < n)%nat -> N.testbit (reverse_bits n x) (N.of_nat i) = N.testbit x (N.of_nat (n - 1 - i)).
Proof.
  induction n as [|n IH]; intros x i Hi; [lia|]. cbn [reverse_bits]. pose proof (reverse_bound n (x / 2)) as B.
  destruct (Nat.eq_dec i n) as [->|Ne].
  - replace (S n - 1 - n)%nat with 0%nat by lia. change (N.of_nat 0) with 0.
    assert (P : 2 ^ N.of_nat n <> 0) by (apply N.pow_nonzero; discriminate).
    assert (T : N.b2n (N.testbit (x mod 2 * 2 ^ N.of_nat n + reverse_bits n (x / 2)) (N.of_nat n)) = x mod 2).
    { rewrite N.testbit_spec'. rewrite N.div_add_l by exact P. rewrite (N.div_small _ _ B), N.add_0_r. apply N.mod_mod. discriminate. }
    apply N.b2n_inj. rewrite T, N.bit0_mod. reflexivity.
  - assert (E : N.testbit (x mod 2 * 2 ^ N.of_nat n + reverse_bits n (x / 2)) (N.of_nat i) = N.testbit (reverse_bits n (x / 2)) (N.of_nat i)).
    { rewrite <- (N.mod_pow2_bits_low _ (N.of_nat n)) by lia. rewrite N.add_comm, N.mod_add by (apply N.pow_nonzero; discriminate).
      rewrite N.mod_small by exact B. reflexivity. }
    rewrite E, IH by lia. rewrite <- N.div2_div, <- N.testbit_succ_r_div2 by lia. f_equal. lia.
Qed.
Lemma reverse_inj n x y : x < 2 ^ N.of_nat n -> y < 2 ^ N.of_nat n -> reverse_bits n x = reverse_bits n y -> x = y.
Proof.
  intros Hx Hy E. apply N.bits_inj. intros j. destruct (N.lt_ge_cases j (N.of_nat n)) as [L|L].
  - assert (Q := reverse_testbit n x (n - 1 - N.to_nat j) ltac:(lia)). assert (R := reverse_testbit n y (n - 1 - N.to_nat j) ltac:(lia)).
    replace (N.of_nat (n - 1 - (n - 1 - N.to_nat j))) with j in Q, R by lia. rewrite <- Q, <- R, E. reflexivity.
  - rewrite <- (N.mod_small x _ Hx), <- (N.mod_small y _ Hy). rewrite !N.mod_pow2_bits_high by exact L. reflexivity.
Qed.
Lemma reverse_double n x : reverse_bits (S n) (2 * x) = reverse_bits n x.
Proof.
  cbn [reverse_bits]. rewrite (N.mul_comm 2 x), N.mod_mul, N.div_mul by discriminate. reflexivity.
Qed.
Lemma reverse_shift n k x : reverse_bits (k + n) (2 ^ N.of_nat k * x) = reverse_bits n x.
Proof.
  induction k as [|k IH]; [change (2 ^ N.of_nat 0) with 1; rewrite N.mul_1_l; reflexivity|].
  rewrite Nat2N.inj_succ, N.pow_succ_r', <- N.mul_assoc. cbn [Nat.add]. rewrite reverse_double. exact IH.
Qed.
Lemma lor_disjoint a r k : r < 2 ^ k -> N.lor (a * 2 ^ k) r = a * 2 ^ k + r.
Proof.
  intros H. assert (L : N.land (a * 2 ^ k) r = 0).
  { apply N.bits_inj. intros j. rewrite N.land_spec, N.bits_0. destruct (N.lt_ge_cases j k) as [L|L].
    - rewrite N.mul_pow2_bits_low by exact L. reflexivity.
    - rewrite <- (N.mod_small r _ H). rewrite N.mod_pow2_bits_high by exact L. apply andb_false_r. }
  rewrite N.add_nocarry_lxor by exact L. symmetry. apply N.lxor_lor, L.
Qed.
Lemma offset_bits n : n < 2 ^ 64 -> N.land n (2 ^ 64 - 2 ^ 16) = 2 ^ 16 * (n / 2 ^ 16).
Proof.
  intros H. apply N.bits_inj. intros j. rewrite N.land_spec. change (2 ^ 64 - 2 ^ 16) with (N.shiftl (N.ones 48) 16).
  rewrite (N.mul_comm (2 ^ 16)). destruct (N.lt_ge_cases j 16) as [L|L].
  - rewrite N.shiftl_spec_low by exact L. rewrite N.mul_pow2_bits_low by exact L. apply andb_false_r.
  - rewrite N.shiftl_spec_high' by exact L. rewrite N.mul_pow2_bits_high by exact L. rewrite N.div_pow2_bits.
    replace (j - 16 + 16) with j by lia. destruct (N.lt_ge_cases j 64) as [L2|L2].
    + rewrite N.ones_spec_low by lia. apply andb_true_r.
    + rewrite N.ones_spec_high by lia. rewrite andb_false_r. rewrite <- (N.mod_small n _ H), N.mod_pow2_bits_high by exact L2. reflexivity.
Qed.
Lemma prefix_arith n : n < 2 ^ 64 ->
  range_content_prefix n = n mod 2 ^ 16 * 2 ^ 48 + reverse_bits 48 (n / 2 ^ 16).
Proof.
  intros H. unfold range_content_prefix, rotate_right. cbv zeta. change (2 ^ 16 - 1) with (N.ones 16). rewrite N.land_ones, offset_bits by exact H.
  assert (C : n mod 2 ^ 16 < 2 ^ 16) by (apply N.mod_lt; discriminate).
  set (c := n mod 2 ^ 16) in *. rewrite N.shiftr_div_pow2, (N.div_small c) by exact C. change (64 - 16) with 48.
  rewrite N.shiftl_mul_pow2. rewrite N.lor_0_l. rewrite (N.mod_small (c * 2 ^ 48)).
  2:{ change (2 ^ 64) with (2 ^ 16 * 2 ^ 48). apply N.mul_lt_mono_pos_r; [reflexivity|exact C]. }
  change (reverse_bits 64 (2 ^ 16 * (n / 2 ^ 16))) with (reverse_bits (16 + 48) (2 ^ N.of_nat 16 * (n / 2 ^ 16))). rewrite reverse_shift.
  apply lor_disjoint. exact (reverse_bound 48 _).
Qed.
