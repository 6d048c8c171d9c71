(** Lemmas about slices and walks. *)
From Verif Require Import Base Keys_Model Keys_Spec Keys_Proofs Trie_Model Trie_Spec Trie_Proofs StateContent_Model Walker_Model Walker_Spec.

(** ** Paths as numbers *)
Lemma fold_path p : forall acc, fold_left (fun acc n => acc * 16 + n) p acc = acc * 16 ^ N.of_nat (length p) + path_num p.
Proof.
  unfold path_num. induction p as [|x p IH]; intros acc; cbn [fold_left length].
  - change (16 ^ N.of_nat 0) with 1. lia.
  - rewrite IH, (IH (0 * 16 + x)), Nat2N.inj_succ, N.pow_succ_r'. nia.
Qed.
Lemma path_app p q : path_num (p ++ q) = path_num p * 16 ^ N.of_nat (length q) + path_num q.
Proof. unfold path_num at 1. rewrite fold_left_app. apply fold_path. Qed.
Lemma path_cons x p : path_num (x :: p) = x * 16 ^ N.of_nat (length p) + path_num p.
Proof. change (x :: p) with ([x] ++ p). rewrite path_app. reflexivity. Qed.
Lemma path_bound p : Forall nibble p -> path_num p < 16 ^ N.of_nat (length p).
Proof.
  induction 1 as [|x p X F IH]; [now cbn|]. rewrite path_cons. cbn [length]. rewrite Nat2N.inj_succ, N.pow_succ_r'. unfold nibble in X. nia.
Qed.
Lemma path_zeros n : path_num (repeat 0 n) = 0.
Proof. induction n; [easy|]. cbn [repeat]. rewrite path_cons, IHn. lia. Qed.
Lemma nibbles_le15 p : Forall nibble p -> Forall (fun n => n <= 15) p.
Proof. apply Forall_impl. unfold nibble. lia. Qed.

Lemma pairs_ind (P : list N -> Prop) : P [] -> (forall a, P [a]) -> (forall a b r, P r -> P (a :: b :: r)) -> forall l : list N, P l.
Proof.
  intros H0 H1 H2 l. cut (P l /\ forall a, P (a :: l)); [tauto|]. induction l as [|x l [A B]]; [auto|]. split; [apply B|]. intros a. apply H2, A.
Qed.

Lemma pack_num l : Forall (fun n => n <= 15) l -> Nat.Even (length l) -> be_num (pack_pairs l) = path_num l.
Proof.
  induction l as [|a|a b r IH] using pairs_ind; intros F E.
  - reflexivity.
  - destruct E as [k E]. cbn in E. lia.
  - inversion F as [|? ? Fa F1]; subst. inversion F1 as [|? ? Fb F2]; subst. cbn [pack_pairs].
    rewrite be_num_cons, IH, pack_arith, !path_cons, pack_pairs_len by (try assumption; destruct E as [k E]; exists (k - 1)%nat; cbn in E; lia).
    destruct E as [k E]. cbn [length] in *. assert (length r = (2 * (k - 1))%nat) as L by lia. rewrite L.
    replace (2 * (k - 1) / 2)%nat with (k - 1)%nat by (rewrite Nat.mul_comm, Nat.div_mul; lia).
    replace (16 ^ N.of_nat (S (2 * (k - 1)))) with (16 * 256 ^ N.of_nat (k - 1)).
    + replace (16 ^ N.of_nat (2 * (k - 1))) with (256 ^ N.of_nat (k - 1)); [nia|]. rewrite Nat2N.inj_mul, N.pow_mul_r. reflexivity.
    + rewrite Nat2N.inj_succ, N.pow_succ_r', Nat2N.inj_mul, N.pow_mul_r. reflexivity.
Qed.

Lemma or_at_ok l : forall x r v, or_at (l ++ x :: r) (length l) v = Ok (l ++ N.lor x v :: r).
Proof. induction l as [|y l IH]; intros x r v; cbn; [easy|]. now rewrite IH. Qed.

Lemma put_ok ns : forall acc z, Forall (fun n => n <= 15) ns -> (length ns <= 2 * z)%nat ->
  put_nibbles (2 * length acc) ns (acc ++ repeat 0 z) = Ok (acc ++ pack_pairs (ns ++ repeat 0 (2 * z - length ns))).
Proof.
  assert (forall a, a <= 15 -> N.shiftl a 4 mod 256 = 16 * a) as SH.
  { intros a A. rewrite N.shiftl_mul_pow2. change (2 ^ 4) with 16. rewrite N.mod_small; lia. }
  assert (forall z, pack_pairs (repeat 0 (2 * z)) = repeat 0 z) as PZ.
  { induction z as [|z IH]; [easy|]. replace (2 * S z)%nat with (S (S (2 * z))) by lia. cbn [repeat pack_pairs]. rewrite IH. reflexivity. }
  induction ns as [|a|a b r IH] using pairs_ind; intros acc z F L.
  - cbn [put_nibbles app length]. rewrite Nat.sub_0_r, PZ. reflexivity.
  - inversion F as [|? ? Fa _]; subst. cbn [length] in L. destruct z as [|z]; [lia|]. cbn [put_nibbles repeat].
    rewrite (Nat.mul_comm 2), Nat.div_mul, Nat.mod_mul by lia. cbn [Nat.eqb]. rewrite or_at_ok. cbn [obind].
    replace (2 * S z - length [a])%nat with (S (2 * z)) by (cbn; lia). cbn [repeat app pack_pairs]. rewrite PZ, pack_arith, SH by lia.
    rewrite N.lor_0_l. do 3 f_equal. lia.
  - inversion F as [|? ? Fa F1]; subst. inversion F1 as [|? ? Fb F2]; subst. cbn [length] in L. destruct z as [|z]; [lia|].
    cbn [put_nibbles repeat].
    replace ((2 * length acc) / 2)%nat with (length acc) by (rewrite Nat.mul_comm, Nat.div_mul; lia).
    replace ((2 * length acc) mod 2)%nat with 0%nat by (rewrite Nat.mul_comm, Nat.mod_mul; lia). cbn [Nat.eqb]. rewrite or_at_ok. cbn [obind].
    replace (S (2 * length acc) / 2)%nat with (length acc) by (rewrite <- (Nat.div_unique (S (2 * length acc)) 2 (length acc) 1); lia).
    replace (S (2 * length acc) mod 2)%nat with 1%nat by (rewrite <- (Nat.mod_unique (S (2 * length acc)) 2 (length acc) 1); lia). cbn [Nat.eqb].
    rewrite or_at_ok. cbn [obind].
    replace (N.lor (N.lor 0 (N.shiftl a 4 mod 256)) b) with (pack a b) by (unfold pack; now rewrite N.lor_0_l).
    replace (acc ++ pack a b :: repeat 0 z) with ((acc ++ [pack a b]) ++ repeat 0 z) by (rewrite <- app_assoc; reflexivity).
    replace (S (S (2 * length acc))) with (2 * length (acc ++ [pack a b]))%nat by (rewrite app_length; cbn; lia).
    rewrite IH by (try assumption; lia). rewrite <- app_assoc. cbn [app length pack_pairs]. do 4 f_equal.
    + do 2 f_equal. lia.
Qed.

Lemma padded_ok p : Forall nibble p -> (length p <= 64)%nat ->
  nibbles_to_right_padded_b256 p = Ok (pack_pairs (p ++ repeat 0 (64 - length p))).
Proof. intros F L. unfold nibbles_to_right_padded_b256. apply (put_ok p [] 32 (nibbles_le15 p F)). lia. Qed.

Lemma padded_num p : Forall nibble p -> (length p <= 64)%nat ->
  be_num (pack_pairs (p ++ repeat 0 (64 - length p))) = path_num p * 16 ^ N.of_nat (64 - length p).
Proof.
  intros F L. rewrite pack_num.
  - rewrite path_app, path_zeros, repeat_length. lia.
  - apply Forall_app. split; [now apply nibbles_le15|]. apply Forall_forall. intros x X. apply repeat_spec in X. lia.
  - rewrite app_length, repeat_length. exists 32%nat. lia.
Qed.

(** ** Slices *)
Lemma cut_low_ok x s : x < 2 ^ 256 -> cut_low x s = x / 2 ^ s * 2 ^ s.
Proof.
  intros B. unfold cut_low. rewrite N.shiftr_div_pow2, N.shiftl_mul_pow2. apply N.mod_small.
  assert (2 ^ s <> 0) by (apply N.pow_nonzero; lia). pose proof (N.mul_div_le x (2 ^ s) ltac:(assumption)). lia.
Qed.

Lemma shift_pow (p : bytes) : (length p <= 64)%nat -> 2 ^ (256 - blen p * 4) = 16 ^ N.of_nat (64 - length p).
Proof.
  intros L. change 16 with (2 ^ 4). rewrite <- N.pow_mul_r. f_equal. unfold blen. lia.
Qed.

Lemma contains_num f p : Forall nibble p -> (length p <= 64)%nat -> f_start f < 2 ^ 256 -> f_end f < 2 ^ 256 ->
  let k := 16 ^ N.of_nat (64 - length p) in
  filter_contains f p = Ok ((f_start f / k <=? path_num p) && (path_num p <=? f_end f / k)).
Proof.
  intros F L B1 B2 k. unfold filter_contains. destruct (N.ltb_spec 256 (blen p * 4)) as [X|_]; [unfold blen in X; lia|].
  rewrite padded_ok by assumption. cbn [omap]. f_equal. rewrite padded_num, !cut_low_ok, shift_pow by assumption. fold k.
  assert (0 < k) by (apply N.neq_0_lt_0, N.pow_nonzero; lia).
  f_equal; apply Bool.eq_iff_eq_true; rewrite !N.leb_le; symmetry; apply N.mul_le_mono_pos_r; assumption.
Qed.

Lemma contains_long f (p : bytes) : (64 < length p)%nat -> filter_contains f p = Panic.
Proof. intros L. unfold filter_contains. destruct (N.ltb_spec 256 (blen p * 4)) as [X|X]; [easy|unfold blen in X; lia]. Qed.

Lemma div_pos_le a b c : 0 < c -> (a / c <= b <-> a < (b + 1) * c).
Proof.
  intros C. split; intros H.
  - pose proof (N.div_mod a c ltac:(lia)). pose proof (N.mod_lt a c ltac:(lia)). nia.
  - assert (a / c < b + 1); [|lia]. apply N.div_lt_upper_bound; [lia|]. lia.
Qed.
Lemma le_div a b c : 0 < c -> (b <= a / c <-> b * c <= a).
Proof.
  intros C. split; intros H.
  - pose proof (N.mul_div_le a c ltac:(lia)). nia.
  - apply N.div_le_lower_bound; lia.
Qed.

(** Every number of [n] nibbles is a path. *)
Lemma num_path n : forall x, x < 16 ^ N.of_nat n -> exists p, length p = n /\ Forall nibble p /\ path_num p = x.
Proof.
  induction n as [|n IH]; intros x B.
  - exists []. change (16 ^ N.of_nat 0) with 1 in B. repeat split; [constructor|]. cbn. lia.
  - rewrite Nat2N.inj_succ, N.pow_succ_r' in B. assert (16 ^ N.of_nat n <> 0) as Z by (apply N.pow_nonzero; lia).
    destruct (IH (x mod 16 ^ N.of_nat n)) as (p & L & F & V); [apply N.mod_lt, Z|].
    exists (x / 16 ^ N.of_nat n :: p). cbn [length]. split; [lia|]. split.
    + constructor; [|assumption]. unfold nibble. apply N.div_lt_upper_bound; lia.
    + rewrite path_cons, L, V. pose proof (N.div_mod x _ Z). lia.
Qed.

Lemma contains_iff f p : Forall nibble p -> (length p <= 64)%nat -> f_start f <= f_end f -> f_end f < 2 ^ 256 ->
  (filter_contains f p = Ok true <-> exists k, is_key k /\ extends k p /\ f_start f <= path_num k <= f_end f).
Proof.
  intros F L SE B. rewrite contains_num by (try assumption; lia). set (m := 16 ^ N.of_nat (64 - length p)).
  assert (0 < m) as M by (apply N.neq_0_lt_0, N.pow_nonzero; lia).
  transitivity (f_start f < (path_num p + 1) * m /\ path_num p * m <= f_end f).
  { rewrite <- div_pos_le, <- le_div, <- !N.leb_le by assumption. split; [intros E|intros [-> ->]; reflexivity]. injection E as E. now apply andb_true_iff in E. }
  split.
  - intros [H1 H2].
    assert (exists x, x < m /\ f_start f <= path_num p * m + x <= f_end f) as (x & X & I).
    { destruct (N.le_gt_cases (f_start f) (path_num p * m)); [exists 0; lia|]. exists (f_start f - path_num p * m). lia. }
    destruct (num_path (64 - length p) x X) as (r & Lr & Fr & Vr). exists (p ++ r). split; [|split; [now exists r|]].
    + split; [rewrite app_length; lia|]. apply Forall_app; auto.
    + rewrite path_app, Lr, Vr. fold m. lia.
  - intros (k & [Lk Fk] & [r ->] & I). rewrite app_length in Lk. apply Forall_app in Fk. destruct Fk as [_ Fr].
    pose proof (path_bound r Fr) as Br. rewrite path_app in I. replace (length r) with (64 - length p)%nat in * by lia. fold m in I, Br. lia.
Qed.

Definition slice_size (n : N) : N := u256_max / n + 1.
Lemma size_bounds n : 2 <= n -> n < 2 ^ 16 -> 2 ^ 256 <= n * slice_size n /\ (n - 1) * slice_size n < 2 ^ 256 /\ n * slice_size n <= 2 ^ 256 + n - 1 /\ 2 ^ 16 < slice_size n < 2 ^ 256.
Proof.
  intros A B. unfold slice_size, u256_max. set (q := (2 ^ 256 - 1) / n).
  pose proof (N.div_mod (2 ^ 256 - 1) n ltac:(lia)) as D. fold q in D. pose proof (N.mod_lt (2 ^ 256 - 1) n ltac:(lia)) as R.
  assert (2 ^ 240 - 1 <= q) as Q.
  { unfold q. apply N.div_le_lower_bound; [lia|]. apply N.le_trans with (2 ^ 16 * (2 ^ 240 - 1)); [apply N.mul_le_mono_r; lia|apply N.leb_le; reflexivity]. }
  assert (2 ^ 16 < 2 ^ 240) by (vm_compute; easy). assert (q < 2 ^ 255).
  { unfold q. apply N.div_lt_upper_bound; [lia|]. assert (2 ^ 256 = 2 * 2 ^ 255) by reflexivity. nia. }
  assert (2 ^ 256 = 2 * 2 ^ 255) by reflexivity.
  split; [nia|]. split; [|split; [nia|lia]]. nia.
Qed.

Lemma new_ok i n : i < n -> n < 2 ^ 16 -> exists f, filter_new i n = Ok f /\ f_end f < 2 ^ 256 /\ f_start f <= f_end f /\
  forall x, x < 2 ^ 256 -> (f_start f <= x <= f_end f <-> n = 1 \/ x / slice_size n = i).
Proof.
  intros I B. unfold filter_new. destruct (N.eqb_spec n 0); [lia|]. destruct (N.eqb_spec n 1) as [->|N1]; cbn [orb].
  - eexists. split; [reflexivity|]. cbn. assert (u256_max < 2 ^ 256) by (vm_compute; easy). split; [assumption|]. split; [lia|].
    intros x X. unfold u256_max in *. split; [auto|]. intros _. lia.
  - destruct (N.ltb_spec i n); [|lia]. cbn [negb]. destruct (size_bounds n) as (S1 & S2 & S3 & S4); [lia|assumption|].
    replace ((u256_max / n + 1) mod 2 ^ 256) with (slice_size n) by (unfold slice_size in *; rewrite N.mod_small; lia).
    set (z := slice_size n) in *. assert (i * z <= (n - 1) * z) as IZ by (apply N.mul_le_mono_r; lia).
    rewrite (N.mod_small (i * z)) by lia. eexists. split; [reflexivity|]. cbn [f_start f_end].
    assert (u256_max = 2 ^ 256 - 1) as UM by reflexivity.
    destruct (N.eqb_spec i (n - 1)) as [->|NE].
    + split; [lia|]. split; [lia|]. intros x X. split.
      * intros J. right. symmetry. apply (N.div_unique x z (n - 1) (x - (n - 1) * z)); nia.
      * intros [|D]; [lia|]. pose proof (N.div_mod x z ltac:(lia)) as M. rewrite D in M. pose proof (N.mod_lt x z ltac:(lia)). lia.
    + assert ((i + 1) * z <= (n - 1) * z) as IZ1 by (apply N.mul_le_mono_r; lia).
      replace ((i * z + z + 2 ^ 256 - 1) mod 2 ^ 256) with (i * z + z - 1).
      2:{ replace (i * z + z + 2 ^ 256 - 1) with (i * z + z - 1 + 1 * 2 ^ 256) by lia. rewrite N.mod_add by lia. rewrite N.mod_small; lia. }
      split; [lia|]. split; [lia|]. intros x X. split.
      * intros J. right. symmetry. apply (N.div_unique x z i (x - i * z)); nia.
      * intros [|D]; [lia|]. pose proof (N.div_mod x z ltac:(lia)) as M. rewrite D in M. pose proof (N.mod_lt x z ltac:(lia)). lia.
Qed.
