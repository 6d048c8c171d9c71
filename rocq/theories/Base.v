(** Shared vocabulary: byte strings, outcomes, fixed-width integer codecs.
    Nothing in this file models a particular function of the repository; the
    definitions are the Rust built-ins the model needs
    ([u16/u32/u64::to_le_bytes], [from_le_bytes], [to_be_bytes], slices). *)
From Coq Require Export List NArith ZArith Lia Bool Arith.
From Coq Require Export ZifyBool ZifyNat ZifyN.
From Coq Require Export Sorting.Permutation Sorting.Sorted.
Export ListNotations.
Ltac Zify.zify_post_hook ::= Z.div_mod_to_equations.
Open Scope N_scope.

Arguments N.add : simpl never.
Arguments N.sub : simpl never.
Arguments N.mul : simpl never.
Arguments N.div : simpl never.
Arguments N.modulo : simpl never.
Arguments N.pow : simpl never.
Arguments N.lxor : simpl never.
Arguments N.land : simpl never.
Arguments N.lor : simpl never.
Arguments N.shiftl : simpl never.
Arguments N.shiftr : simpl never.
Arguments N.leb : simpl never.
Arguments N.ltb : simpl never.
Arguments N.eqb : simpl never.
Arguments N.of_nat : simpl never.
Arguments N.to_nat : simpl never.

(** A byte string; [bytes_ok] says that every element is a byte. *)
Definition bytes := list N.
Definition byte_ok (b : N) : Prop := b < 256.
Definition bytes_ok (l : bytes) : Prop := Forall byte_ok l.
Definition bytes_okb (l : bytes) : bool := forallb (fun b => b <? 256) l.

(** Result of a function that may return an error or panic. *)
Inductive outcome (A : Type) : Type :=
| Ok (a : A)
| Err
| Panic.
Arguments Ok {A} a.
Arguments Err {A}.
Arguments Panic {A}.

Definition obind {A B} (x : outcome A) (f : A -> outcome B) : outcome B :=
  match x with Ok a => f a | Err => Err | Panic => Panic end.
Definition omap {A B} (f : A -> B) (x : outcome A) : outcome B :=
  match x with Ok a => Ok (f a) | Err => Err | Panic => Panic end.
Definition of_option {A} (x : option A) : outcome A :=
  match x with Some a => Ok a | None => Err end.

(** [slice.len()] as a number. *)
Definition blen {A} (l : list A) : N := N.of_nat (length l).

(** [uN::to_le_bytes] for an [n]-byte integer (truncating, like a Rust [as] cast). *)
Fixpoint le_bytes (n : nat) (x : N) : bytes :=
  match n with
  | O => []
  | S n' => x mod 256 :: le_bytes n' (x / 256)
  end.

(** [uN::from_le_bytes]. *)
Fixpoint le_num (l : bytes) : N :=
  match l with
  | [] => 0
  | b :: l' => b + 256 * le_num l'
  end.

(** [to_be_bytes] / [from_be_bytes]. *)
Definition be_bytes (n : nat) (x : N) : bytes := rev (le_bytes n x).
Definition be_num (l : bytes) : N := le_num (rev l).

(** Equality of byte strings as a boolean ([==] on slices). *)
Fixpoint beqb (a b : bytes) : bool :=
  match a, b with
  | [], [] => true
  | x :: a', y :: b' => (x =? y) && beqb a' b'
  | _, _ => false
  end.

(** * Lemmas *)

Lemma bytes_okb_spec l : bytes_okb l = true <-> bytes_ok l.
Proof.
  unfold bytes_okb, bytes_ok, byte_ok. rewrite forallb_forall, Forall_forall.
  split; intros H x Hx; specialize (H x Hx); lia.
Qed.

Lemma beqb_spec a b : beqb a b = true <-> a = b.
Proof.
  revert b. induction a as [|x a IH]; intros [|y b]; cbn; try (split; congruence).
  rewrite andb_true_iff, IH, N.eqb_eq. split; [intros [-> ->]; reflexivity | intros [= -> ->]; auto].
Qed.

Lemma beqb_refl a : beqb a a = true.
Proof. apply beqb_spec. reflexivity. Qed.

Lemma beqb_false a b : beqb a b = false <-> a <> b.
Proof.
  destruct (beqb a b) eqn:E.
  - apply beqb_spec in E. split; congruence.
  - split; [|reflexivity]. intros _ ->. rewrite beqb_refl in E. discriminate.
Qed.

Lemma bytes_eq_dec (a b : bytes) : {a = b} + {a <> b}.
Proof. apply list_eq_dec. apply N.eq_dec. Qed.

Lemma bytes_ok_app a b : bytes_ok (a ++ b) <-> bytes_ok a /\ bytes_ok b.
Proof. apply Forall_app. Qed.

Lemma bytes_ok_cons x l : bytes_ok (x :: l) <-> x < 256 /\ bytes_ok l.
Proof. apply Forall_cons_iff. Qed.

Lemma bytes_ok_nil : bytes_ok [].
Proof. constructor. Qed.

Lemma bytes_ok_rev l : bytes_ok l -> bytes_ok (rev l).
Proof. apply Forall_rev. Qed.

Lemma bytes_ok_firstn n l : bytes_ok l -> bytes_ok (firstn n l).
Proof.
  intros H. rewrite <- (firstn_skipn n l) in H. apply bytes_ok_app in H. tauto.
Qed.

Lemma bytes_ok_skipn n l : bytes_ok l -> bytes_ok (skipn n l).
Proof.
  intros H. rewrite <- (firstn_skipn n l) in H. apply bytes_ok_app in H. tauto.
Qed.

Lemma bytes_ok_concat ls : Forall bytes_ok ls -> bytes_ok (concat ls).
Proof.
  induction 1 as [|x l Hx H IH]; cbn; [constructor|]. apply bytes_ok_app. auto.
Qed.

Lemma le_bytes_length n x : length (le_bytes n x) = n.
Proof. revert x; induction n as [|n IH]; intros x; cbn; [|rewrite IH]; reflexivity. Qed.

Lemma le_bytes_ok n x : bytes_ok (le_bytes n x).
Proof.
  revert x; induction n as [|n IH]; intros x; cbn [le_bytes]; [constructor|].
  apply bytes_ok_cons. split; [lia | apply IH].
Qed.

Lemma be_bytes_length n x : length (be_bytes n x) = n.
Proof. unfold be_bytes. rewrite rev_length, le_bytes_length. reflexivity. Qed.

Lemma be_bytes_ok n x : bytes_ok (be_bytes n x).
Proof. apply bytes_ok_rev, le_bytes_ok. Qed.

Lemma pow256_S n : 256 ^ N.of_nat (S n) = 256 * 256 ^ N.of_nat n.
Proof. rewrite Nat2N.inj_succ, N.pow_succ_r'. reflexivity. Qed.

Lemma pow256_pos n : 0 < 256 ^ N.of_nat n.
Proof. apply N.neq_0_lt_0, N.pow_nonzero. discriminate. Qed.

Lemma le_num_bound l : bytes_ok l -> le_num l < 256 ^ N.of_nat (length l).
Proof.
  induction l as [|b l IH]; intros H; [cbn; lia|].
  apply bytes_ok_cons in H as [Hb Hl]. specialize (IH Hl).
  cbn [le_num length]. rewrite pow256_S. nia.
Qed.

Lemma le_num_le_bytes n x : le_num (le_bytes n x) = x mod 256 ^ N.of_nat n.
Proof.
  revert x; induction n as [|n IH]; intros x.
  - cbn [le_bytes le_num]. change (256 ^ N.of_nat 0) with 1. rewrite N.mod_1_r. reflexivity.
  - cbn [le_bytes le_num]. rewrite IH, pow256_S.
    rewrite N.mod_mul_r; [reflexivity | discriminate |].
    apply N.pow_nonzero. discriminate.
Qed.

Lemma le_num_le_bytes_id n x : x < 256 ^ N.of_nat n -> le_num (le_bytes n x) = x.
Proof. intros H. rewrite le_num_le_bytes. apply N.mod_small, H. Qed.

Lemma le_bytes_le_num l : bytes_ok l -> le_bytes (length l) (le_num l) = l.
Proof.
  induction l as [|b l IH]; intros H; [reflexivity|].
  apply bytes_ok_cons in H as [Hb Hl].
  cbn [length le_num le_bytes]. f_equal.
  - rewrite N.mul_comm, N.mod_add by discriminate. apply N.mod_small, Hb.
  - rewrite N.mul_comm, N.div_add by discriminate.
    rewrite (N.div_small b 256) by exact Hb. apply IH, Hl.
Qed.

Lemma le_num_inj a b : bytes_ok a -> bytes_ok b -> length a = length b -> le_num a = le_num b -> a = b.
Proof.
  intros Ha Hb Hl He. rewrite <- (le_bytes_le_num a Ha), <- (le_bytes_le_num b Hb), Hl, He. reflexivity.
Qed.

Lemma be_num_be_bytes_id n x : x < 256 ^ N.of_nat n -> be_num (be_bytes n x) = x.
Proof. intros H. unfold be_num, be_bytes. rewrite rev_involutive. apply le_num_le_bytes_id, H. Qed.

Lemma be_num_be_bytes n x : be_num (be_bytes n x) = x mod 256 ^ N.of_nat n.
Proof. unfold be_num, be_bytes. rewrite rev_involutive. apply le_num_le_bytes. Qed.

Lemma be_bytes_be_num l : bytes_ok l -> be_bytes (length l) (be_num l) = l.
Proof.
  intros H. unfold be_num, be_bytes. rewrite <- (rev_length l).
  rewrite le_bytes_le_num by (apply bytes_ok_rev, H). apply rev_involutive.
Qed.

Lemma be_num_bound l : bytes_ok l -> be_num l < 256 ^ N.of_nat (length l).
Proof.
  intros H. unfold be_num. rewrite <- (rev_length l). apply le_num_bound, bytes_ok_rev, H.
Qed.

Lemma be_num_inj a b : bytes_ok a -> bytes_ok b -> length a = length b -> be_num a = be_num b -> a = b.
Proof.
  intros Ha Hb Hl He. rewrite <- (be_bytes_be_num a Ha), <- (be_bytes_be_num b Hb), Hl, He. reflexivity.
Qed.

Lemma le_num_app a b : le_num (a ++ b) = le_num a + 256 ^ N.of_nat (length a) * le_num b.
Proof.
  induction a as [|x a IH]; cbn [app le_num length].
  - change (256 ^ N.of_nat 0) with 1. lia.
  - rewrite IH, pow256_S. nia.
Qed.

Lemma be_num_cons x l : be_num (x :: l) = x * 256 ^ N.of_nat (length l) + be_num l.
Proof.
  unfold be_num. cbn [rev]. rewrite le_num_app, rev_length. cbn [le_num]. nia.
Qed.

Lemma be_num_app a b : be_num (a ++ b) = be_num a * 256 ^ N.of_nat (length b) + be_num b.
Proof.
  unfold be_num. rewrite rev_app_distr, le_num_app, rev_length. nia.
Qed.

Lemma blen_app {A} (a b : list A) : blen (a ++ b) = blen a + blen b.
Proof. unfold blen. rewrite app_length. lia. Qed.

Lemma blen_cons {A} (x : A) l : blen (x :: l) = 1 + blen l.
Proof. unfold blen. cbn [length]. lia. Qed.

Lemma blen_nil {A} : blen (@nil A) = 0.
Proof. reflexivity. Qed.

Lemma firstn_app_exact {A} (a b : list A) : firstn (length a) (a ++ b) = a.
Proof. rewrite firstn_app, firstn_all, Nat.sub_diag, firstn_O, app_nil_r. reflexivity. Qed.

Lemma skipn_app_exact {A} (a b : list A) : skipn (length a) (a ++ b) = b.
Proof. rewrite skipn_app, skipn_all, Nat.sub_diag. reflexivity. Qed.

Lemma firstn_app_len {A} n (a b : list A) : n = length a -> firstn n (a ++ b) = a.
Proof. intros ->. apply firstn_app_exact. Qed.

Lemma skipn_app_len {A} n (a b : list A) : n = length a -> skipn n (a ++ b) = b.
Proof. intros ->. apply skipn_app_exact. Qed.

(** Finite sweep over all bytes. *)
Definition all_bytes : list N := map N.of_nat (seq 0 256).

Lemma byte_sweep (P : N -> bool) : forallb P all_bytes = true -> forall b, b < 256 -> P b = true.
Proof.
  intros H b Hb. rewrite forallb_forall in H. apply H. unfold all_bytes.
  apply in_map_iff. exists (N.to_nat b). split; [apply N2Nat.id|].
  apply in_seq. lia.
Qed.

Lemma lor_disjoint_add r x s : r < 2 ^ s -> N.lor r (N.shiftl x s) = r + x * 2 ^ s.
Proof.
  intros Hr.
  assert (Hd : N.land r (N.shiftl x s) = 0).
  { apply N.bits_inj. intros i. rewrite N.land_spec, N.bits_0.
    destruct (N.lt_ge_cases i s).
    - rewrite N.shiftl_spec_low by assumption. apply andb_false_r.
    - rewrite <- (N.mod_small r (2^s) Hr), N.mod_pow2_bits_high by assumption. reflexivity. }
  rewrite <- (N.lxor_lor _ _ Hd), <- N.add_nocarry_lxor by exact Hd.
  rewrite N.shiftl_mul_pow2. reflexivity.
Qed.
