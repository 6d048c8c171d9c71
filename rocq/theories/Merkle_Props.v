(** Properties C19, C20 and C21: Merkle trees and proofs. *)
From Verif Require Import Base Merkle_Model Merkle_Spec Merkle_Proofs.

(** The leaf at an index of the tree: past the given leaves there are 32 zero bytes. *)
Definition leaf_of (leaves : list bytes) (index : N) : bytes := nth (N.to_nat index) leaves (repeat 0 32).

(** C19: a proof made for any position of a tree of depth at most 33 is for the leaf at that
    position, has as many elements as the tree has levels, and is accepted against the root. *)
Theorem C19_complete : forall sha depth leaves index,
  (depth <= 33)%nat -> (length leaves <= 2 ^ depth)%nat -> index < 2 ^ N.of_nat depth ->
  exists branch,
    generate_proof sha false (create sha leaves depth) index depth = ROk (leaf_of leaves index, branch) /\
    length branch = depth /\
    verify_merkle_proof sha (leaf_of leaves index) branch depth index (hash sha (create sha leaves depth)) = true /\
    hash sha (create sha leaves depth) = merkle_root sha depth leaves.
Proof.
  intros sha depth leaves index Hd Hl Hi. pose proof (rep_create sha depth leaves Hl) as R.
  rewrite (rep_hash sha _ _ _ _ R).
  destruct (generate_total sha false depth _ leaves 0 index R Hd) as (leaf & branch & E); [apply N.le_0_l|discriminate|].
  destruct (generate_ok sha _ _ _ _ _ _ _ _ R E) as (-> & L & V). rewrite N.mod_small in * by exact Hi.
  exists branch. repeat split; assumption.
Qed.
Print Assumptions C19_complete.

(** In a debug build the same holds for the positions of the given leaves; *)
Theorem C19_complete_debug : forall sha depth leaves index,
  (depth <= 33)%nat -> (length leaves <= 2 ^ depth)%nat -> index < N.of_nat (length leaves) ->
  exists branch,
    generate_proof sha true (create sha leaves depth) index depth = ROk (leaf_of leaves index, branch) /\
    verify_merkle_proof sha (leaf_of leaves index) branch depth index (merkle_root sha depth leaves) = true.
Proof.
  intros sha depth leaves index Hd Hl Hi. pose proof (rep_create sha depth leaves Hl) as R.
  assert (Hi2 : index < 2 ^ N.of_nat depth) by (rewrite pow2_N; lia).
  destruct (generate_total sha true depth _ leaves 0 index R Hd) as (leaf & branch & E); [apply N.le_0_l|rewrite N.mod_small; auto|].
  destruct (generate_ok sha _ _ _ _ _ _ _ _ R E) as (-> & L & V). rewrite N.mod_small in * by exact Hi2.
  exists branch. split; assumption.
Qed.
Print Assumptions C19_complete_debug.
(** past them, it panics instead. *)
Theorem C19_debug_past_the_end_refuted : exists depth leaves index,
  (length leaves <= 2 ^ depth)%nat /\ index < 2 ^ N.of_nat depth /\
  forall sha, generate_proof sha true (create sha leaves depth) index depth = RPanic.
Proof. exists 1%nat, [repeat 7 32], 1. split; [cbn; lia|]. split; [reflexivity|]. intros sha. reflexivity. Qed.
Print Assumptions C19_debug_past_the_end_refuted.

(** C20: an accepted proof is for the leaf at that position, unless two different inputs with
    the same hash can be read off the proof and the tree. *)
Theorem C20_sound : forall sha, (forall x, len32 (sha x)) -> forall depth leaves leaf branch index,
  Forall len32 leaves -> len32 leaf -> Forall len32 branch ->
  verify_merkle_proof sha leaf branch depth index (merkle_root sha depth leaves) = true ->
  leaf = leaf_of leaves (index mod 2 ^ N.of_nat depth) \/
  exists x y, In x (hashed_by_proof sha leaf branch index) /\ In y (hashed_by_tree sha depth leaves) /\ collision sha x y.
Proof. exact soundness. Qed.
Print Assumptions C20_sound.
(** Two accepted proofs against one root, whoever made it, agree on the leaf, or show a
    collision. *)
Theorem C20_one_leaf_per_position : forall sha, (forall x, len32 (sha x)) -> forall depth root index leaf1 branch1 leaf2 branch2,
  len32 leaf1 -> len32 leaf2 -> Forall len32 branch1 -> Forall len32 branch2 ->
  verify_merkle_proof sha leaf1 branch1 depth index root = true ->
  verify_merkle_proof sha leaf2 branch2 depth index root = true ->
  leaf1 = leaf2 \/
  exists x y, In x (hashed_by_proof sha leaf1 branch1 index) /\ In y (hashed_by_proof sha leaf2 branch2 index) /\ collision sha x y.
Proof. exact binding. Qed.
Print Assumptions C20_one_leaf_per_position.
(** A proof of the wrong length is never accepted. *)
Theorem C20_length : forall sha leaf branch depth index root,
  verify_merkle_proof sha leaf branch depth index root = true -> length branch = depth.
Proof. intros sha leaf branch depth index root H. apply andb_prop in H as [H _]. apply Nat.eqb_eq in H. exact H. Qed.
Print Assumptions C20_length.

(** ** C21 *)
Inductive tree_op := Push (x : bytes) | Finalize (n : N).
(** What a caller of the tree sees: a failed operation leaves the tree as it was. *)
Definition tree_step sha (d : nat) (t : tree) (o : tree_op) : tree :=
  match (match o with Push x => push_leaf sha t x d | Finalize n => finalize_deposits t n d end) with
  | ROk t' => t'
  | _ => t
  end.
Definition tree_run sha (d : nat) (ops : list tree_op) : tree := fold_left (tree_step sha d) ops (Zero d).
(** The leaves pushed so far that found room, and how many are finalized. *)
Definition leaves_step (d : nat) (s : list bytes * nat) (o : tree_op) : list bytes * nat :=
  let (l, k) := s in
  match o with
  | Push x => if (length l <? 2 ^ d)%nat then (l ++ [x], k) else (l, k)
  | Finalize n => (l, Nat.max k (N.to_nat n))
  end.
Definition leaves_run (d : nat) (ops : list tree_op) : list bytes * nat := fold_left (leaves_step d) ops ([], 0%nat).
(** Only leaves that were pushed are finalized. *)
Definition finalize_in_range (d : nat) (ops : list tree_op) : Prop :=
  forall before n after, ops = before ++ Finalize n :: after ->
    1 <= n <= N.of_nat (length (fst (leaves_run d before))).

Lemma run_rep sha d ops : d <> 0%nat -> finalize_in_range d ops ->
  rep sha d (tree_run sha d ops) (fst (leaves_run d ops)) (snd (leaves_run d ops)).
Proof.
  intros Hd. induction ops as [|o ops IH] using rev_ind; intros Hf.
  - apply rep_zero.
  - unfold tree_run, leaves_run. rewrite !fold_left_app. fold (tree_run sha d ops) (leaves_run d ops). cbn [fold_left].
    assert (R : rep sha d (tree_run sha d ops) (fst (leaves_run d ops)) (snd (leaves_run d ops))).
    { apply IH. intros a n b E. apply (Hf a n (b ++ [o])). rewrite E, <- app_assoc. reflexivity. }
    destruct (leaves_run d ops) as [l k] eqn:El. cbn [fst snd] in *. unfold tree_step. destruct o as [x|n]; cbn [leaves_step].
    + destruct (push_rep sha x _ _ _ _ R) as (P1 & P2 & P3). pose proof (rep_len _ _ _ _ _ R). pose proof (rep_k _ _ _ _ _ R).
      destruct (Nat.ltb_spec (length l) (2 ^ d)) as [L|L].
      * destruct (P1 Hd L) as (t' & -> & R'). exact R'.
      * destruct (Nat.eq_dec k (2 ^ d)) as [E|E].
        -- rewrite (P3 Hd E). exact R.
        -- rewrite P2 by lia. exact R.
    + specialize (Hf ops n [] eq_refl). rewrite El in Hf. cbn [fst] in Hf.
      destruct (finalize_rep sha _ _ _ _ (N.to_nat n) R) as (t' & E & R'); [lia|left; lia|].
      rewrite N2Nat.id in E. rewrite E. pose proof (rep_len _ _ _ _ _ R). replace (Nat.min (N.to_nat n) (2 ^ d)) with (N.to_nat n) in R' by lia. exact R'.
Qed.

(** C21: whatever was pushed and finalized, the root is that of the tree built at once from
    the leaves pushed; a push succeeds exactly while there is room; proofs for the positions
    that are not finalized are made and accepted. *)
Theorem C21_incremental : forall sha depth ops,
  depth <> 0%nat -> finalize_in_range depth ops ->
  let t := tree_run sha depth ops in
  let leaves := fst (leaves_run depth ops) in
  let finalized := snd (leaves_run depth ops) in
  hash sha t = hash sha (create sha leaves depth) /\
  hash sha t = merkle_root sha depth leaves /\
  (forall x, (exists t', push_leaf sha t x depth = ROk t') <-> (length leaves < 2 ^ depth)%nat) /\
  (forall index, (depth <= 33)%nat -> N.of_nat finalized <= index -> index < 2 ^ N.of_nat depth ->
     exists branch, generate_proof sha false t index depth = ROk (leaf_of leaves index, branch) /\
       verify_merkle_proof sha (leaf_of leaves index) branch depth index (hash sha t) = true).
Proof.
  intros sha depth ops Hd Hf t leaves finalized. pose proof (run_rep sha depth ops Hd Hf) as R. fold t leaves finalized in R.
  pose proof (rep_hash _ _ _ _ _ R) as H. pose proof (rep_len _ _ _ _ _ R) as L. pose proof (rep_k _ _ _ _ _ R) as K.
  split; [rewrite H; symmetry; apply create_hash|]. split; [exact H|]. split.
  - intros x. destruct (push_rep sha x _ _ _ _ R) as (P1 & P2 & P3). split.
    + intros (t' & E). destruct (Nat.lt_ge_cases (length leaves) (2 ^ depth)) as [G|G]; [exact G|]. exfalso.
      destruct (Nat.eq_dec finalized (2 ^ depth)) as [Q|Q].
      * rewrite (P3 Hd Q) in E. discriminate.
      * rewrite P2 in E by lia. discriminate.
    + intros G. destruct (P1 Hd G) as (t' & E & _). eauto.
  - intros index Hd2 Hi Hi2.
    destruct (generate_total sha false depth _ _ _ index R Hd2) as (leaf & branch & E); [rewrite N.mod_small; assumption|discriminate|].
    destruct (generate_ok sha _ _ _ _ _ _ _ _ R E) as (-> & Lb & V). rewrite N.mod_small in * by exact Hi2.
    exists branch. split; [exact E|]. rewrite H. exact V.
Qed.
Print Assumptions C21_incremental.

(** C21: with nothing finalized the two trees are the same. *)
Theorem C21_same_tree : forall sha depth leaves, depth <> 0%nat -> (length leaves <= 2 ^ depth)%nat ->
  tree_run sha depth (map Push leaves) = create sha leaves depth.
Proof.
  intros sha depth leaves Hd Hl.
  assert (Hf : finalize_in_range depth (map Push leaves)).
  { intros a n b E. exfalso. assert (I : In (Finalize n) (map Push leaves)) by (rewrite E; apply in_or_app; right; left; reflexivity).
    apply in_map_iff in I as (x & Q & _). discriminate. }
  assert (X : forall done, (length (done ++ leaves) <= 2 ^ depth)%nat ->
    fold_left (leaves_step depth) (map Push leaves) (done, 0%nat) = (done ++ leaves, 0%nat)).
  { clear. induction leaves as [|x l IH]; intros done H; cbn [map fold_left].
    - rewrite app_nil_r. reflexivity.
    - cbn [leaves_step]. rewrite app_length in H. cbn [length] in H. destruct (Nat.ltb_spec (length done) (2 ^ depth)); [|lia].
      rewrite IH; rewrite <- app_assoc; [reflexivity|]. cbn [app]. rewrite app_length. cbn [length]. lia. }
  pose proof (run_rep sha depth _ Hd Hf) as R. unfold leaves_run in R. rewrite (X [] Hl) in R. cbn [fst snd app] in R.
  apply (rep_zero_unique _ _ _ _ _ R). reflexivity.
Qed.
Print Assumptions C21_same_tree.

Lemma push_all sha d l0 : d <> 0%nat -> forall more t k, rep sha d t l0 k -> (length (l0 ++ more) <= 2 ^ d)%nat ->
  rep sha d (fold_left (tree_step sha d) (map Push more) t) (l0 ++ more) k.
Proof.
  intros Hd more. revert l0. induction more as [|x more IH]; intros l0 t k R L; cbn [map fold_left].
  - rewrite app_nil_r. exact R.
  - rewrite app_length in L. cbn [length] in L. destruct (push_rep sha x _ _ _ _ R) as (P1 & _). destruct (P1 Hd ltac:(lia)) as (t' & E & R').
    unfold tree_step at 2. rewrite E. replace (l0 ++ x :: more) with ((l0 ++ [x]) ++ more) by (rewrite <- app_assoc; reflexivity).
    apply IH; [exact R'|]. rewrite !app_length. cbn [length]. lia.
Qed.

(** C21: from the finalized hashes and their number alone the tree of the finalized leaves is
    rebuilt, and pushing the other leaves onto it gives the root of the whole again. *)
Theorem C21_snapshot : forall sha depth ops,
  depth <> 0%nat -> finalize_in_range depth ops ->
  let t := tree_run sha depth ops in
  let leaves := fst (leaves_run depth ops) in
  let finalized := snd (leaves_run depth ops) in
  exists t', from_snapshot sha (finalized_hashes t) (N.of_nat finalized) depth = ROk t' /\
    hash sha t' = merkle_root sha depth (firstn finalized leaves) /\
    finalized_hashes t' = finalized_hashes t /\
    hash sha (fold_left (tree_step sha depth) (map Push (skipn finalized leaves)) t') = hash sha t.
Proof.
  intros sha depth ops Hd Hf t leaves finalized. pose proof (run_rep sha depth ops Hd Hf) as R. fold t leaves finalized in R.
  destruct (snapshot_rep _ _ _ _ _ R) as (t' & E & R'). exists t'. split; [exact E|]. split; [apply (rep_hash _ _ _ _ _ R')|].
  split; [apply (snapshot_hashes sha _ _ _ _ _ R E)|].
  pose proof (rep_len _ _ _ _ _ R) as L.
  assert (Hp := push_all sha depth _ Hd (skipn finalized leaves) _ _ R'). rewrite firstn_skipn in Hp.
  rewrite (rep_hash _ _ _ _ _ (Hp L)). symmetry. apply (rep_hash _ _ _ _ _ R).
Qed.
Print Assumptions C21_snapshot.

(** Finalizing zero deposits finalizes the first leaf. *)
Theorem C21_finalize_none_refuted : exists depth leaves, forall sha,
  (exists t', finalize_deposits (create sha leaves depth) 0 depth = ROk t' /\ finalized_hashes t' = leaves) /\ leaves <> [].
Proof.
  exists 1%nat, [repeat 7 32]. intros sha. split; [|discriminate]. eexists. split; reflexivity.
Qed.
Print Assumptions C21_finalize_none_refuted.
(** Finalizing more deposits than there are closes the tree: nothing can be pushed although
    there was room. *)
Theorem C21_finalize_beyond_refuted : exists depth leaves n x, forall sha,
  (length leaves < 2 ^ depth)%nat /\
  exists t', finalize_deposits (create sha leaves depth) n depth = ROk t' /\ push_leaf sha t' x depth = RErr FinalizedNodePushed.
Proof.
  exists 1%nat, [repeat 7 32], 2, (repeat 8 32). intros sha. split; [cbn; lia|]. eexists. split; reflexivity.
Qed.
Print Assumptions C21_finalize_beyond_refuted.

(** A hash to compute with: five leaves in a tree of depth 3, three of them finalized. *)
Definition toy_sha (x : bytes) : bytes :=
  repeat (fold_left (fun a b => (a * 31 + b + 1) mod 251) x 7) 32.
Definition ex_leaves : list bytes := map (fun b => repeat b 32) [1; 2; 3; 4; 5].
Definition ex_ops : list tree_op := map Push ex_leaves ++ [Finalize 3; Finalize 1].
Example merkle_examples :
  (exists branch, generate_proof toy_sha true (create toy_sha ex_leaves 3) 4 3 = ROk (repeat 5 32, branch) /\
     verify_merkle_proof toy_sha (repeat 5 32) branch 3 4 (merkle_root toy_sha 3 ex_leaves) = true /\
     verify_merkle_proof toy_sha (repeat 5 32) branch 3 5 (merkle_root toy_sha 3 ex_leaves) = false /\
     verify_merkle_proof toy_sha (repeat 6 32) branch 3 4 (merkle_root toy_sha 3 ex_leaves) = false) /\
  leaves_run 3 ex_ops = (ex_leaves, 3%nat) /\
  length (finalized_hashes (tree_run toy_sha 3 ex_ops)) = 2%nat /\
  generate_proof toy_sha false (tree_run toy_sha 3 ex_ops) 0 3 = RErr ProofEncounteredFinalizedNode /\
  (exists r, generate_proof toy_sha false (tree_run toy_sha 3 ex_ops) 3 3 = ROk r) /\
  finalize_in_range 3 ex_ops.
Proof.
  split; [eexists; vm_compute; repeat split|]. split; [reflexivity|]. split; [vm_compute; reflexivity|]. split; [vm_compute; reflexivity|].
  split; [eexists; vm_compute; reflexivity|].
  intros a n b E. unfold ex_ops, ex_leaves in E. cbn [map app] in E.
  repeat (destruct a as [|? a]; [try discriminate; injection E as ?; subst; vm_compute; split; discriminate|cbn [app] in E; injection E as <- E]).
  destruct a; discriminate.
Qed.
