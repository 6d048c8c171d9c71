(** Proofs about the Merkle tree. *)
From Verif Require Import Base Merkle_Model Merkle_Spec.
Local Open Scope nat_scope.

Section Sha.
Context (sha : bytes -> bytes).
Notation hash := (hash sha).
Notation create := (create sha).
Notation root := (merkle_root sha).

Lemma pow2_pos d : 0 < 2 ^ d.
Proof. apply Nat.neq_0_lt_0, Nat.pow_nonzero. discriminate. Qed.
Lemma pow2_S d : 2 ^ S d = 2 ^ d + 2 ^ d.
Proof. cbn. lia. Qed.

Lemma root_nil d : root d [] = zero_hash sha d.
Proof. induction d as [|d IH]; [reflexivity|]. cbn [merkle_root zero_hash]. rewrite firstn_nil, skipn_nil, IH. reflexivity. Qed.

(** [create] computes the root. *)
Lemma create_cons x l d : create (x :: l) (S d) =
  Node (sha (hash (create (firstn (2 ^ d) (x :: l)) d) ++ hash (create (skipn (2 ^ d) (x :: l)) d)))
    (create (firstn (2 ^ d) (x :: l)) d) (create (skipn (2 ^ d) (x :: l)) d).
Proof.
  cbn [create]. destruct (Nat.leb_spec (length (x :: l)) (2 ^ d)) as [L|L]; [|reflexivity].
  rewrite (firstn_all2 (x :: l)) by exact L. rewrite (skipn_all2 (x :: l)) by exact L. reflexivity.
Qed.
Lemma create_nil d : create [] d = Zero d.
Proof. destruct d; reflexivity. Qed.
Lemma create_hash d : forall l, hash (create l d) = root d l.
Proof.
  induction d as [|d IH]; intros [|x l]; [reflexivity|reflexivity| |].
  - rewrite create_nil. symmetry. apply root_nil.
  - rewrite create_cons. cbn [Merkle_Model.hash merkle_root]. rewrite !IH. reflexivity.
Qed.

(** ** Trees with a finalized prefix *)
Inductive rep : nat -> tree -> list bytes -> nat -> Prop :=
| rep_zero d : rep d (Zero d) [] 0
| rep_leaf x : rep 0 (Leaf x) [x] 0
| rep_fin d l : length l = 2 ^ d -> rep d (Finalized (root d l)) l (2 ^ d)
| rep_node d lt rt l k1 k2 :
    l <> [] -> rep d lt (firstn (2 ^ d) l) k1 -> rep d rt (skipn (2 ^ d) l) k2 ->
    k2 < 2 ^ d -> (k2 <> 0 -> k1 = 2 ^ d) ->
    rep (S d) (Node (root (S d) l) lt rt) l (k1 + k2).

Lemma rep_hash d t l k : rep d t l k -> hash t = root d l.
Proof. destruct 1; cbn; [symmetry; apply root_nil|reflexivity|reflexivity|reflexivity]. Qed.
Lemma rep_len d t l k : rep d t l k -> length l <= 2 ^ d.
Proof.
  induction 1 as [| |d l E|d lt rt l k1 k2 Hl H1 IH1 H2 IH2 Hk Hf]; [apply Nat.le_0_l|apply le_n|rewrite E; apply le_n|].
  rewrite <- (firstn_skipn (2 ^ d) l), app_length, pow2_S. lia.
Qed.
Lemma rep_k d t l k : rep d t l k -> k <= length l.
Proof.
  induction 1 as [| |d l E|d lt rt l k1 k2 Hl H1 IH1 H2 IH2 Hk Hf]; [apply Nat.le_0_l|apply Nat.le_0_l|rewrite E; apply le_n|].
  rewrite <- (firstn_skipn (2 ^ d) l), app_length. lia.
Qed.
Lemma rep_create d : forall l, length l <= 2 ^ d -> rep d (create l d) l 0.
Proof.
  induction d as [|d IH]; intros [|x l] H.
  - apply rep_zero.
  - cbn in H. destruct l; [|cbn in H; lia]. apply rep_leaf.
  - rewrite create_nil. apply rep_zero.
  - rewrite create_cons. pose proof (create_hash d) as Hh.
    replace (sha _) with (root (S d) (x :: l)) by (cbn [merkle_root]; rewrite !Hh; reflexivity).
    change 0 with (0 + 0). apply rep_node; [discriminate| | |apply pow2_pos|lia].
    + apply IH. rewrite firstn_length. lia.
    + apply IH. rewrite skipn_length. rewrite pow2_S in H. lia.
Qed.

(** Shapes: what the form of a represented tree says about the number of leaves. *)
Lemma rep_zero_inv d n l k : rep d (Zero n) l k -> l = [] /\ n = d /\ k = 0.
Proof. inversion 1; subst; auto. Qed.
Lemma rep_leaf_inv d x l k : rep d (Leaf x) l k -> d = 0 /\ l = [x] /\ k = 0.
Proof. inversion 1; subst; auto. Qed.
Lemma rep_fin_inv d h l k : rep d (Finalized h) l k -> length l = 2 ^ d /\ h = root d l /\ k = 2 ^ d.
Proof. inversion 1; subst; auto. Qed.

Lemma root_node d l x : 2 ^ d <= length l ->
  root (S d) (l ++ [x]) = sha (root d (firstn (2 ^ d) l) ++ root d (skipn (2 ^ d) l ++ [x])).
Proof.
  intros H. cbn [merkle_root]. rewrite firstn_app, skipn_app. replace (2 ^ d - length l) with 0 by lia.
  cbn [firstn skipn]. rewrite app_nil_r. reflexivity.
Qed.
Lemma root_node_l d l x : length l < 2 ^ d ->
  root (S d) (l ++ [x]) = sha (root d (l ++ [x]) ++ root d []).
Proof.
  intros H. cbn [merkle_root]. rewrite firstn_all2, skipn_all2 by (rewrite app_length; cbn; lia). reflexivity.
Qed.

Lemma rep_node_r d lt rt l x k1 k2 : 2 ^ d <= length l ->
  rep d lt (firstn (2 ^ d) l) k1 -> rep d rt (skipn (2 ^ d) l ++ [x]) k2 -> k2 < 2 ^ d -> (k2 <> 0 -> k1 = 2 ^ d) ->
  rep (S d) (Node (sha (hash lt ++ hash rt)) lt rt) (l ++ [x]) (k1 + k2).
Proof.
  intros H R1 R2 Hk Hf. rewrite (rep_hash _ _ _ _ R1), (rep_hash _ _ _ _ R2), <- root_node by exact H.
  assert (E1 : firstn (2 ^ d) (l ++ [x]) = firstn (2 ^ d) l).
  { rewrite firstn_app. replace (2 ^ d - length l) with 0 by lia. cbn [firstn]. apply app_nil_r. }
  assert (E2 : skipn (2 ^ d) (l ++ [x]) = skipn (2 ^ d) l ++ [x]).
  { rewrite skipn_app. replace (2 ^ d - length l) with 0 by lia. reflexivity. }
  apply rep_node; rewrite ?E1, ?E2; auto. destruct l; discriminate.
Qed.
Lemma rep_node_left d lt l x k : length l < 2 ^ d -> rep d lt (l ++ [x]) k ->
  rep (S d) (Node (sha (hash lt ++ hash (Zero d))) lt (Zero d)) (l ++ [x]) k.
Proof.
  intros H R1. rewrite (rep_hash _ _ _ _ R1). cbn [Merkle_Model.hash]. rewrite <- root_nil, <- root_node_l by exact H.
  replace k with (k + 0) by lia.
  assert (E1 : firstn (2 ^ d) (l ++ [x]) = l ++ [x]) by (apply firstn_all2; rewrite app_length; cbn; lia).
  assert (E2 : skipn (2 ^ d) (l ++ [x]) = []) by (apply skipn_all2; rewrite app_length; cbn; lia).
  apply rep_node; rewrite ?E1, ?E2; [destruct l; discriminate|exact R1|apply rep_zero|apply pow2_pos|congruence].
Qed.

Lemma rep_node_k d h lt rt l k : rep d (Node h lt rt) l k -> k < 2 ^ d.
Proof.
  intros R. inversion R as [| | |d0 ? ? ? k1 k2 Hl R1 R2 Hk Hf]; subst. rewrite pow2_S.
  pose proof (rep_k _ _ _ _ R1). pose proof (rep_len _ _ _ _ R1). lia.
Qed.

Lemma push_left h a b c z x d : push_leaf sha (Node h (Node a b c) (Zero z)) x (S d) =
  match push_leaf sha (Node a b c) x d with
  | ROk l' => ROk (Node (sha (hash l' ++ hash (Zero z))) l' (Zero z))
  | RErr MerkleTreeFull => ROk (Node (sha (hash (Node a b c) ++ hash (create [x] d))) (Node a b c) (create [x] d))
  | RErr e => RErr e
  | RPanic => RPanic
  end.
Proof. reflexivity. Qed.

Theorem push_rep x : forall d t l k, rep d t l k ->
  (d <> 0 -> length l < 2 ^ d -> exists t', push_leaf sha t x d = ROk t' /\ rep d t' (l ++ [x]) k) /\
  (d <> 0 -> length l = 2 ^ d -> k < 2 ^ d -> push_leaf sha t x d = RErr MerkleTreeFull) /\
  (d <> 0 -> k = 2 ^ d -> push_leaf sha t x d = RErr FinalizedNodePushed).
Proof.
  induction d as [|d IH]; intros t l k R; [repeat split; congruence|].
  inversion R as [d0 E1 E2 E3 E4|x0 E1 E2 E3 E4|d0 l0 Len E1 E2 E3 E4|d0 lt rt l0 k1 k2 Hl R1 R2 Hk Hf E1 E2 E3 E4]; subst.
  - (* zero *)
    cbn [length]. split; [|split].
    + intros _ _. exists (create [x] (S d)). split; [reflexivity|]. cbn [app]. apply rep_create.
      cbn [length]. pose proof (pow2_pos (S d)). lia.
    + pose proof (pow2_pos (S d)). lia.
    + pose proof (pow2_pos (S d)). lia.
  - (* finalized *)
    split; [intros; lia|]. split; [intros; lia|intros; reflexivity].
  - (* node *)
    pose proof (rep_len _ _ _ _ R1) as L1. pose proof (rep_len _ _ _ _ R2) as L2.
    pose proof (rep_k _ _ _ _ R1) as K1. pose proof (rep_k _ _ _ _ R2) as K2.
    pose proof (pow2_pos d) as PP.
    assert (Ll : length l = length (firstn (2 ^ d) l) + length (skipn (2 ^ d) l))
      by (rewrite <- app_length, firstn_skipn; reflexivity).
    assert (NF : k1 + k2 = 2 ^ S d -> False) by (rewrite pow2_S; lia).
    assert (Full : skipn (2 ^ d) l <> [] -> 2 ^ d <= length l).
    { intros Hs. destruct (Nat.le_gt_cases (2 ^ d) (length l)) as [H|H]; [exact H|]. exfalso. apply Hs, skipn_all2. lia. }
    assert (Lfull : 2 ^ d <= length l -> length (firstn (2 ^ d) l) = 2 ^ d) by (rewrite firstn_length; lia).
    destruct rt as [hr|hr|hr rl rr|dr].
    + (* right finalized: impossible *) apply rep_fin_inv in R2 as (_ & _ & ->). lia.
    + (* right leaf *)
      apply rep_leaf_inv in R2 as (-> & E & ->). cbn [Nat.pow] in *.
      assert (LE : length (skipn 1 l) = 1) by (rewrite E; reflexivity).
      assert (Fl : 1 <= length l) by (apply Full; rewrite E; discriminate). specialize (Lfull Fl).
      split; [|split]; intros _.
      * intros H. cbn in H. lia.
      * intros _ _. destruct lt as [hl|hl|hl ll lr|dl]; [reflexivity|reflexivity|inversion R1|].
        apply rep_zero_inv in R1 as (A & _ & _). rewrite A in Lfull. discriminate.
      * intros X. destruct (NF X).
    + (* right node *)
      assert (Ne : skipn (2 ^ d) l <> []).
      { intros E. rewrite E in R2. inversion R2; subst. contradiction. }
      specialize (Full Ne). specialize (Lfull Full).
      assert (Dn : d <> 0) by (intros ->; inversion R2).
      destruct (IH _ _ _ R2) as (P1 & P2 & _).
      assert (Push : forall t', push_leaf sha (Node (root (S d) l) lt (Node hr rl rr)) x (S d) = t' <->
                match push_leaf sha (Node hr rl rr) x d with
                | ROk r' => ROk (Node (sha (hash lt ++ hash r')) lt r')
                | RErr e => RErr e
                | RPanic => RPanic
                end = t').
      { intros t'. cbn [push_leaf]. destruct lt as [hl|hl|hl ll lr|dl]; [reflexivity| |reflexivity|].
        - apply rep_leaf_inv in R1 as (A & _ & _). contradiction.
        - apply rep_zero_inv in R1 as (A & _ & _). rewrite A in Lfull. cbn in Lfull. lia. }
      split; [|split]; intros _.
      * intros H. rewrite pow2_S in H. destruct (P1 Dn ltac:(lia)) as (r' & Er & Rr).
        exists (Node (sha (hash lt ++ hash r')) lt r'). split; [apply Push; rewrite Er; reflexivity|].
        apply rep_node_r; auto.
      * intros H _. apply Push. rewrite P2; [reflexivity|exact Dn| |exact Hk]. rewrite pow2_S in H. lia.
      * intros X. destruct (NF X).
    + (* right zero *)
      apply rep_zero_inv in R2 as (E & -> & ->).
      assert (LE : length (skipn (2 ^ d) l) = 0) by (rewrite E; reflexivity).
      assert (Es : forall y : bytes, skipn (2 ^ d) l ++ [y] = [y]) by (intros; rewrite E; reflexivity).
      assert (R0 : rep d (create [x] d) (skipn (2 ^ d) l ++ [x]) 0) by (rewrite Es; apply rep_create; cbn; lia).
      assert (PushR : length l = 2 ^ d -> forall lt', lt' = lt ->
         rep (S d) (Node (sha (hash lt ++ hash (create [x] d))) lt (create [x] d)) (l ++ [x]) (k1 + 0)).
      { intros H lt' _. apply rep_node_r; auto; lia. }
      split; [|split]; intros _.
      * intros H. destruct lt as [hl|hl|hl ll lr|dl].
        -- apply rep_fin_inv in R1 as (A & B & C). exists (Node (sha (hash (Finalized hl) ++ hash (create [x] d))) (Finalized hl) (create [x] d)).
           split; [reflexivity|]. apply (PushR ltac:(lia) _ eq_refl).
        -- apply rep_leaf_inv in R1 as (-> & B & ->). cbn [Nat.pow] in *.
           assert (LB : length (firstn 1 l) = 1) by (rewrite B; reflexivity).
           exists (Node (sha (hash (Leaf hl) ++ hash (create [x] 0))) (Leaf hl) (create [x] 0)).
           split; [reflexivity|]. apply (PushR ltac:(lia) _ eq_refl).
        -- assert (Dn : d <> 0) by (intros ->; inversion R1).
           destruct (IH _ _ _ R1) as (P1 & P2 & _). rewrite push_left.
           destruct (Nat.eq_dec (length (firstn (2 ^ d) l)) (2 ^ d)) as [F|F].
           ++ assert (Kn : k1 < 2 ^ d).
              { eapply rep_node_k. exact R1. }
              rewrite (P2 Dn F Kn). eexists. split; [reflexivity|]. apply (PushR ltac:(lia) _ eq_refl).
           ++ destruct (P1 Dn ltac:(lia)) as (l' & El & Rl). rewrite El. eexists. split; [reflexivity|].
              replace (k1 + 0) with k1 by lia. rewrite firstn_all2 in Rl by lia. apply rep_node_left; [lia|exact Rl].
        -- apply rep_zero_inv in R1 as (A & -> & ->). exfalso. apply Hl. rewrite <- (firstn_skipn (2 ^ d) l), A, E. reflexivity.
      * intros H _. rewrite pow2_S in H. lia.
      * intros X. destruct (NF X).
Qed.

(** Trees without finalized nodes are those that [create] builds. *)
Lemma rep_zero_unique d t l k : rep d t l k -> k = 0 -> t = create l d.
Proof.
  induction 1 as [d|x|d l E|d lt rt l k1 k2 Hl R1 IH1 R2 IH2 Hk Hf]; intros Hk0.
  - rewrite create_nil. reflexivity.
  - reflexivity.
  - pose proof (pow2_pos d). lia.
  - destruct l as [|x l]; [contradiction|]. rewrite create_cons.
    rewrite <- (IH1 ltac:(lia)), <- (IH2 ltac:(lia)). rewrite (rep_hash _ _ _ _ R1), (rep_hash _ _ _ _ R2). reflexivity.
Qed.

(** ** Finalizing *)
Lemma pow2_N d : (2 ^ N.of_nat d)%N = N.of_nat (2 ^ d).
Proof. rewrite Nat2N.inj_pow. reflexivity. Qed.

Lemma finalize_rep : forall d t l k n, rep d t l k -> 1 <= n -> n <= length l \/ length l = 2 ^ d ->
  exists t', finalize_deposits t (N.of_nat n) d = ROk t' /\ rep d t' l (Nat.max k (Nat.min n (2 ^ d))).
Proof.
  induction d as [|d IH]; intros t l k n R Hn Hc.
  - inversion R as [d0 E1 E2 E3 E4|x0 E1 E2 E3 E4|d0 l0 Len E1 E2 E3 E4|]; subst.
    + cbn in Hc. lia.
    + eexists. split; [reflexivity|]. replace (Nat.max 0 (Nat.min n (2 ^ 0))) with (2 ^ 0) by (cbn; lia). apply (rep_fin 0 [x0]). reflexivity.
    + eexists. split; [reflexivity|]. replace (Nat.max (2 ^ 0) (Nat.min n (2 ^ 0))) with (2 ^ 0) by lia. apply rep_fin. exact Len.
  - inversion R as [d0 E1 E2 E3 E4| |d0 l0 Len E1 E2 E3 E4|d0 lt rt l0 k1 k2 Hl R1 R2 Hk Hf E1 E2 E3 E4]; subst.
    + cbn [length] in Hc. pose proof (pow2_pos (S d)). lia.
    + eexists. split; [reflexivity|]. replace (Nat.max (2 ^ S d) (Nat.min n (2 ^ S d))) with (2 ^ S d) by lia. apply rep_fin. exact Len.
    + cbn [finalize_deposits]. rewrite pow2_N.
      pose proof (rep_len _ _ _ _ R) as LL. pose proof (rep_node_k _ _ _ _ _ _ R) as KK.
      pose proof (rep_len _ _ _ _ R1) as L1. pose proof (rep_len _ _ _ _ R2) as L2.
      pose proof (rep_k _ _ _ _ R1) as K1. pose proof (rep_k _ _ _ _ R2) as K2.
      assert (Ll : length l = length (firstn (2 ^ d) l) + length (skipn (2 ^ d) l))
        by (rewrite <- app_length, firstn_skipn; reflexivity).
      assert (Lf := firstn_length (2 ^ d) l). assert (Lsk := skipn_length (2 ^ d) l). pose proof (pow2_S d) as PS. pose proof (pow2_pos d) as PP.
      assert (Hd : (N.of_nat (2 ^ S d) / 2)%N = N.of_nat (2 ^ d)).
      { rewrite PS, Nat2N.inj_add. replace (N.of_nat (2 ^ d) + N.of_nat (2 ^ d))%N with (N.of_nat (2 ^ d) * 2)%N by lia. apply N.div_mul. discriminate. }
      rewrite Hd. clear Hd.
      destruct (N.leb_spec (N.of_nat (2 ^ S d)) (N.of_nat n)) as [L|L].
      * eexists. split; [reflexivity|]. replace (Nat.max (k1 + k2) (Nat.min n (2 ^ S d))) with (2 ^ S d) by lia. apply rep_fin. lia.
      * destruct (IH _ _ _ n R1 Hn) as (l' & El & Rl); [lia|]. rewrite El.
        destruct (N.ltb_spec (N.of_nat (2 ^ d)) (N.of_nat n)) as [L3|L3].
        -- replace (N.of_nat n - N.of_nat (2 ^ d))%N with (N.of_nat (n - 2 ^ d)) by lia.
           destruct (IH _ _ _ (n - 2 ^ d) R2 ltac:(lia)) as (r' & Er & Rr); [lia|]. rewrite Er.
           eexists. split; [reflexivity|].
           replace (Nat.max (k1 + k2) (Nat.min n (2 ^ S d))) with
             (Nat.max k1 (Nat.min n (2 ^ d)) + Nat.max k2 (Nat.min (n - 2 ^ d) (2 ^ d))) by lia.
           apply rep_node; auto; lia.
        -- eexists. split; [reflexivity|].
           replace (Nat.max (k1 + k2) (Nat.min n (2 ^ S d))) with (Nat.max k1 (Nat.min n (2 ^ d)) + k2) by lia.
           apply rep_node; auto; lia.
Qed.

(** ** Snapshots *)
Lemma hashes_empty d t l k : rep d t l k -> (k = 0 <-> finalized_hashes t = []).
Proof.
  induction 1 as [d|x|d l E|d lt rt l k1 k2 Hl R1 IH1 R2 IH2 Hk Hf]; cbn [finalized_hashes]; try tauto.
  - pose proof (pow2_pos d). split; [lia|discriminate].
  - split.
    + intros H. rewrite (proj1 IH1), (proj1 IH2) by lia. reflexivity.
    + intros H. apply app_eq_nil in H as [H1 H2]. apply IH1 in H1. apply IH2 in H2. lia.
Qed.
Lemma rep_all_fin d t l : rep d t l (2 ^ d) -> t = Finalized (root d l).
Proof.
  intros R. destruct t as [h|h|h a b|z].
  - apply rep_fin_inv in R as (_ & -> & _). reflexivity.
  - apply rep_leaf_inv in R as (-> & _ & H). discriminate.
  - apply rep_node_k in R. lia.
  - apply rep_zero_inv in R as (_ & _ & H). pose proof (pow2_pos d). lia.
Qed.

Lemma snapshot_unfold branch count d :
  from_snapshot sha branch count (S d) =
  match branch with
  | [] => if (count =? 0)%N then ROk (Zero (S d)) else RErr EmptyBranchWithNonZeroDeposits
  | h :: rest =>
      if (count =? 2 ^ N.of_nat (S d))%N then ROk (Finalized h)
      else if (2 ^ N.of_nat d <=? count)%N then
        match from_snapshot sha rest (count - 2 ^ N.of_nat d) d with
        | ROk r => ROk (Node (sha (hash (Finalized h) ++ hash r)) (Finalized h) r)
        | RErr e => RErr e
        | RPanic => RPanic
        end
      else
        match from_snapshot sha branch count d with
        | ROk l => ROk (Node (sha (hash l ++ hash (Zero d))) l (Zero d))
        | RErr e => RErr e
        | RPanic => RPanic
        end
  end.
Proof. destruct branch; reflexivity. Qed.

Lemma snapshot_rep : forall d t l k, rep d t l k ->
  exists t', from_snapshot sha (finalized_hashes t) (N.of_nat k) d = ROk t' /\ rep d t' (firstn k l) k.
Proof.
  induction d as [|d IH]; intros t l k R.
  - inversion R as [d0 E1 E2 E3 E4|x0 E1 E2 E3 E4|d0 l0 Len E1 E2 E3 E4|]; subst.
    + eexists. split; [reflexivity|apply rep_zero].
    + eexists. split; [reflexivity|apply rep_zero].
    + eexists. split; [reflexivity|]. rewrite firstn_all2 by (rewrite Len; apply le_n). apply rep_fin. exact Len.
  - inversion R as [d0 E1 E2 E3 E4| |d0 l0 Len E1 E2 E3 E4|d0 lt rt l0 k1 k2 Hl R1 R2 Hk Hf E1 E2 E3 E4]; subst.
    + eexists. split; [reflexivity|apply rep_zero].
    + cbn [finalized_hashes]. rewrite snapshot_unfold. rewrite pow2_N, N.eqb_refl. eexists. split; [reflexivity|].
      rewrite firstn_all2 by (rewrite Len; apply le_n). apply rep_fin. exact Len.
    + set (k := k1 + k2) in *. rewrite snapshot_unfold. rewrite !pow2_N.
      pose proof (rep_node_k _ _ _ _ _ _ R) as KK. pose proof (rep_k _ _ _ _ R) as KL.
      pose proof (rep_len _ _ _ _ R1) as L1. pose proof (rep_k _ _ _ _ R1) as K1. pose proof (rep_k _ _ _ _ R2) as K2.
      pose proof (pow2_pos d) as PP. pose proof (pow2_S d) as PS.
      destruct (finalized_hashes (Node (root (S d) l) lt rt)) as [|h rest] eqn:Fh.
      * apply (hashes_empty _ _ _ _ R) in Fh. rewrite Fh. eexists. split; [reflexivity|]. cbn [firstn]. apply rep_zero.
      * destruct (N.eqb_spec (N.of_nat k) (N.of_nat (2 ^ S d))) as [E|E]; [lia|].
        assert (K0 : k <> 0).
        { intros Z. apply (hashes_empty _ _ _ _ R) in Z. rewrite Z in Fh. discriminate. }
        cbn [finalized_hashes] in Fh.
        destruct (N.leb_spec (N.of_nat (2 ^ d)) (N.of_nat k)) as [Lk|Lk].
        -- assert (Ek : k1 = 2 ^ d) by lia. rewrite Ek in R1.
           pose proof (rep_all_fin _ _ _ R1) as Elt. rewrite Elt in Fh. cbn [finalized_hashes app] in Fh. injection Fh as <- <-.
           replace (N.of_nat k - N.of_nat (2 ^ d))%N with (N.of_nat k2) by lia.
           destruct (IH _ _ _ R2) as (r' & Er & Rr). rewrite Er. eexists. split; [reflexivity|].
           set (l' := firstn k l).
           assert (E1 : firstn (2 ^ d) l' = firstn (2 ^ d) l).
           { unfold l'. rewrite firstn_firstn. f_equal. lia. }
           assert (E2 : skipn (2 ^ d) l' = firstn k2 (skipn (2 ^ d) l)).
           { unfold l'. rewrite firstn_skipn_comm. f_equal. f_equal. lia. }
           replace (sha _) with (root (S d) l').
           2:{ cbn [merkle_root]. rewrite E1, E2. rewrite (rep_hash _ _ _ _ Rr). reflexivity. }
           replace k with (2 ^ d + k2) by lia. apply rep_node; auto.
           ++ intros X. apply (f_equal (@length bytes)) in X. unfold l' in X. rewrite firstn_length in X. cbn in X. lia.
           ++ rewrite E1. rewrite <- Elt. exact R1.
           ++ rewrite E2. exact Rr.
        -- assert (Ek : k2 = 0) by (destruct (Nat.eq_dec k2 0); [assumption|]; specialize (Hf n); lia).
           assert (Hr : finalized_hashes rt = []) by (apply (hashes_empty _ _ _ _ R2); exact Ek).
           rewrite Hr, app_nil_r in Fh. rewrite <- Fh. replace k with k1 by lia. replace k with k1 in * by lia.
           destruct (IH _ _ _ R1) as (l' & El & Rl). rewrite El. eexists. split; [reflexivity|].
           rewrite firstn_firstn in Rl. replace (Nat.min k1 (2 ^ d)) with k1 in Rl by lia.
           assert (E1 : firstn (2 ^ d) (firstn k1 l) = firstn k1 l) by (rewrite firstn_firstn; f_equal; lia).
           assert (E2 : skipn (2 ^ d) (firstn k1 l) = []) by (apply skipn_all2; rewrite firstn_length; lia).
           replace (sha _) with (root (S d) (firstn k1 l)).
           2:{ cbn [merkle_root]. rewrite E1, E2, root_nil. rewrite (rep_hash _ _ _ _ Rl). reflexivity. }
           assert (Z : k = k1 + 0) by lia. clearbody k. enough (X : rep (S d) (Node (root (S d) (firstn k1 l)) l' (Zero d)) (firstn k1 l) (k1 + 0)) by (rewrite Nat.add_0_r in X; exact X). apply rep_node.
           ++ intros X. apply (f_equal (@length bytes)) in X. rewrite firstn_length in X. cbn in X. lia.
           ++ rewrite E1. exact Rl.
           ++ rewrite E2. apply rep_zero.
           ++ exact PP.
           ++ congruence.
Qed.

(** The finalized hashes depend on the leaves and the number only. *)
Fixpoint snap (d : nat) (l : list bytes) (k : nat) : list bytes :=
  if k =? 0 then []
  else if k =? 2 ^ d then [root d l]
  else match d with
       | O => []
       | S d' => snap d' (firstn (2 ^ d') l) (Nat.min k (2 ^ d')) ++ snap d' (skipn (2 ^ d') l) (k - 2 ^ d')
       end.
Lemma root_firstn : forall d l, root d (firstn (2 ^ d) l) = root d l.
Proof.
  induction d as [|d IH]; intros l.
  - cbn. destruct l; reflexivity.
  - cbn [merkle_root]. pose proof (pow2_S d). rewrite firstn_firstn, skipn_firstn_comm.
    replace (Nat.min (2 ^ d) (2 ^ S d)) with (2 ^ d) by lia. replace (2 ^ S d - 2 ^ d) with (2 ^ d) by lia. rewrite !IH. reflexivity.
Qed.
Lemma snap_0 d l : snap d l 0 = [].
Proof. destruct d; reflexivity. Qed.
Lemma hashes_snap d t l k : rep d t l k -> finalized_hashes t = snap d l k.
Proof.
  induction 1 as [d|x|d l E|d lt rt l k1 k2 Hl R1 IH1 R2 IH2 Hk Hf].
  - rewrite snap_0. reflexivity.
  - reflexivity.
  - pose proof (pow2_pos d). assert (Z : (2 ^ d =? 0) = false) by (apply Nat.eqb_neq; lia). assert (Y := Nat.eqb_refl (2 ^ d)). destruct d; cbn [snap]; rewrite Z, Y; reflexivity.
  - pose proof (rep_k _ _ _ _ R1) as K1. pose proof (rep_len _ _ _ _ R1) as L1. pose proof (pow2_S d) as PS.
    cbn [finalized_hashes snap]. rewrite IH1, IH2. destruct (Nat.eqb_spec (k1 + k2) 0) as [E|E].
    + replace k1 with 0 by lia. replace k2 with 0 by lia. rewrite !snap_0. reflexivity.
    + destruct (Nat.eqb_spec (k1 + k2) (2 ^ S d)); [lia|].
      assert (Q : Nat.min (k1 + k2) (2 ^ d) = k1 /\ k1 + k2 - 2 ^ d = k2).
      { destruct (Nat.eq_dec k2 0) as [Z|Z]; [|specialize (Hf Z)]; lia. }
      destruct Q as [-> ->]. reflexivity.
Qed.
Lemma snap_firstn : forall d l k, k <= 2 ^ d -> snap d (firstn k l) k = snap d l k.
Proof.
  induction d as [|d IH]; intros l k Hk; cbn [snap].
  - destruct (Nat.eqb_spec k 0); [reflexivity|]. destruct (Nat.eqb_spec k (2 ^ 0)); [|reflexivity]. subst k. cbn.
    destruct l; reflexivity.
  - pose proof (pow2_S d). destruct (Nat.eqb_spec k 0); [reflexivity|]. destruct (Nat.eqb_spec k (2 ^ S d)) as [E|E].
    + f_equal. rewrite E. cbn [merkle_root]. rewrite firstn_firstn. replace (Nat.min (2 ^ d) (2 ^ S d)) with (2 ^ d) by lia.
      f_equal. f_equal. rewrite skipn_firstn_comm. replace (2 ^ S d - 2 ^ d) with (2 ^ d) by lia. apply root_firstn.
    + f_equal.
      * rewrite firstn_firstn.
        rewrite <- (IH (firstn (2 ^ d) l)) by lia. rewrite firstn_firstn. f_equal. f_equal. lia.
      * rewrite skipn_firstn_comm. apply IH. lia.
Qed.
Lemma snapshot_hashes d t l k t' : rep d t l k -> from_snapshot sha (finalized_hashes t) (N.of_nat k) d = ROk t' ->
  finalized_hashes t' = finalized_hashes t.
Proof.
  intros R E. destruct (snapshot_rep _ _ _ _ R) as (t2 & E2 & R2). rewrite E in E2. injection E2 as <-.
  rewrite (hashes_snap _ _ _ _ R), (hashes_snap _ _ _ _ R2). apply snap_firstn.
  pose proof (rep_k _ _ _ _ R). pose proof (rep_len _ _ _ _ R). lia.
Qed.

(** ** Proofs *)
Lemma index_split index d : (index mod 2 ^ N.of_nat (S d))%N =
  (if N.testbit index (N.of_nat d) then N.of_nat (2 ^ d) + index mod 2 ^ N.of_nat d else index mod 2 ^ N.of_nat d)%N.
Proof.
  replace (N.of_nat (S d)) with (N.of_nat d + 1)%N by lia. rewrite N.pow_add_r.
  assert (P : (2 ^ N.of_nat d <> 0)%N) by (apply N.pow_nonzero; discriminate).
  change (2 ^ 1)%N with 2%N. rewrite N.mod_mul_r by (assumption || discriminate).
  rewrite <- N.testbit_spec', <- pow2_N. destruct (N.testbit index (N.of_nat d)); cbn [N.b2n]; lia.
Qed.
Definition leaf_at (l : list bytes) (index : N) : bytes := nth (N.to_nat index) l zero_leaf.
Lemma leaf_split l index d :
  leaf_at l (index mod 2 ^ N.of_nat (S d)) =
  leaf_at (if N.testbit index (N.of_nat d) then skipn (2 ^ d) l else firstn (2 ^ d) l) (index mod 2 ^ N.of_nat d).
Proof.
  rewrite index_split. unfold leaf_at. assert (B : (index mod 2 ^ N.of_nat d < N.of_nat (2 ^ d))%N).
  { rewrite <- pow2_N. apply N.mod_lt, N.pow_nonzero. discriminate. }
  set (j := (index mod 2 ^ N.of_nat d)%N) in *. clearbody j. destruct (N.testbit index (N.of_nat d)).
  - rewrite N2Nat.inj_add, Nat2N.id. rewrite <- (firstn_skipn (2 ^ d) l) at 1.
    destruct (Nat.le_gt_cases (2 ^ d) (length l)) as [H|H].
    + rewrite app_nth2 by (rewrite firstn_length; lia). f_equal. rewrite firstn_length. lia.
    + rewrite (skipn_all2 l) by lia. rewrite app_nil_r. rewrite !nth_overflow; [reflexivity|cbn; lia|rewrite firstn_length; lia].
  - assert (J : N.to_nat j < 2 ^ d) by lia. rewrite <- (firstn_skipn (2 ^ d) l) at 1.
    destruct (Nat.le_gt_cases (2 ^ d) (length l)) as [H|H].
    + rewrite app_nth1 by (rewrite firstn_length; lia). reflexivity.
    + rewrite (skipn_all2 l) by lia. rewrite app_nil_r. reflexivity.
Qed.

Lemma root_from_app r b h index i : root_from_branch sha r (b ++ [h]) index i =
  let r' := root_from_branch sha r b index i in
  if N.testbit index (i + N.of_nat (length b)) then sha (h ++ r') else sha (r' ++ h).
Proof.
  revert r i. induction b as [|x b IH]; intros r i; cbn [app root_from_branch length].
  - rewrite N.add_0_r. reflexivity.
  - rewrite IH. cbv zeta. replace (i + 1 + N.of_nat (length b))%N with (i + N.of_nat (S (length b)))%N by lia. reflexivity.
Qed.

Lemma proof_loop_ok : forall d t l k index acc node pr, rep d t l k -> proof_loop sha t index d acc = ROk (node, pr) ->
  exists p, pr = acc ++ p /\ length p = d /\ hash node = leaf_at l (index mod 2 ^ N.of_nat d) /\
    root_from_branch sha (hash node) (rev p) index 0 = root d l.
Proof.
  induction d as [|d IH]; intros t l k index acc node pr R H; cbn [proof_loop] in H.
  - injection H as <- <-. exists []. rewrite app_nil_r. split; [reflexivity|]. split; [reflexivity|].
    change (2 ^ N.of_nat 0)%N with 1%N. rewrite N.mod_1_r. split; [|cbn; apply (rep_hash _ _ _ _ R)].
    rewrite (rep_hash _ _ _ _ R). reflexivity.
  - assert (G : exists lt rt k1 k2, left_and_right t = ROk (Some (lt, rt)) /\ rep d lt (firstn (2 ^ d) l) k1 /\ rep d rt (skipn (2 ^ d) l) k2 /\
        (if N.testbit index (N.of_nat d) then proof_loop sha rt index d (acc ++ [hash lt])
         else proof_loop sha lt index d (acc ++ [hash rt])) = ROk (node, pr)).
    { inversion R as [d0 E1 E2 E3 E4| |d0 l0 Len E1 E2 E3 E4|d0 lt rt l0 k1 k2 Hl R1 R2 Hk Hf E1 E2 E3 E4]; subst; cbn [left_and_right] in *.
      - destruct (d <=? max_tree_depth); [|discriminate]. exists (Zero d), (Zero d), 0, 0.
        rewrite firstn_nil, skipn_nil. split; [reflexivity|]. split; [apply rep_zero|]. split; [apply rep_zero|exact H].
      - discriminate.
      - exists lt, rt, k1, k2. repeat split; auto. }
    destruct G as (lt & rt & k1 & k2 & _ & R1 & R2 & H'). rewrite leaf_split.
    destruct (N.testbit index (N.of_nat d)) eqn:B.
    + destruct (IH _ _ _ _ _ _ _ R2 H') as (p & -> & Lp & Hl & Hr). exists (hash lt :: p). rewrite <- app_assoc.
      split; [reflexivity|]. split; [cbn; lia|]. split; [exact Hl|]. cbn [rev]. rewrite root_from_app. cbv zeta.
      rewrite rev_length, Lp, N.add_0_l, B, Hr. rewrite (rep_hash _ _ _ _ R1). reflexivity.
    + destruct (IH _ _ _ _ _ _ _ R1 H') as (p & -> & Lp & Hl & Hr). exists (hash rt :: p). rewrite <- app_assoc.
      split; [reflexivity|]. split; [cbn; lia|]. split; [exact Hl|]. cbn [rev]. rewrite root_from_app. cbv zeta.
      rewrite rev_length, Lp, N.add_0_l, B, Hr. rewrite (rep_hash _ _ _ _ R2). reflexivity.
Qed.

Lemma proof_loop_total : forall d t l k index acc, rep d t l k -> d <= S max_tree_depth ->
  (N.of_nat k <= index mod 2 ^ N.of_nat d)%N ->
  exists node pr, proof_loop sha t index d acc = ROk (node, pr) /\
    ((index mod 2 ^ N.of_nat d < N.of_nat (length l))%N -> is_leaf node = true).
Proof.
  induction d as [|d IH]; intros t l k index acc R Hd Hk; cbn [proof_loop].
  - exists t, acc. split; [reflexivity|]. change (2 ^ N.of_nat 0)%N with 1%N in *. rewrite N.mod_1_r in *. intros L.
    inversion R; subst; [cbn in L; lia|reflexivity|cbn in Hk; lia].
  - rewrite index_split in *.
    assert (B : (index mod 2 ^ N.of_nat d < N.of_nat (2 ^ d))%N) by (rewrite <- pow2_N; apply N.mod_lt, N.pow_nonzero; discriminate).
    set (j := (index mod 2 ^ N.of_nat d)%N) in *.
    inversion R as [d0 E1 E2 E3 E4| |d0 l0 Len E1 E2 E3 E4|d0 lt rt l0 k1 k2 Hl R1 R2 Hk2 Hf E1 E2 E3 E4]; subst; cbn [left_and_right].
    + destruct (Nat.leb_spec d max_tree_depth) as [L|L]; [|lia].
      destruct (N.testbit index (N.of_nat d));
        (destruct (IH (Zero d) [] 0 index (acc ++ [hash (Zero d)]) (rep_zero d) ltac:(lia) ltac:(lia)) as (node & pr & E & _);
         exists node, pr; split; [exact E|cbn; lia]).
    + rewrite pow2_S in Hk. destruct (N.testbit index (N.of_nat d)); lia.
    + assert (Ll : length l = length (firstn (2 ^ d) l) + length (skipn (2 ^ d) l))
        by (rewrite <- app_length, firstn_skipn; reflexivity).
      pose proof (firstn_length (2 ^ d) l) as Lf. pose proof (rep_k _ _ _ _ R1). pose proof (rep_k _ _ _ _ R2).
      destruct (N.testbit index (N.of_nat d)).
      * destruct (IH _ _ _ index (acc ++ [hash lt]) R2 ltac:(lia)) as (node & pr & E & F).
        { fold j. destruct (Nat.eq_dec k2 0) as [->|Z]; [lia|]. specialize (Hf Z). lia. }
        exists node, pr. split; [exact E|]. intros L. apply F. fold j. lia.
      * destruct (IH _ _ _ index (acc ++ [hash rt]) R1 ltac:(lia)) as (node & pr & E & F).
        { fold j. lia. }
        exists node, pr. split; [exact E|]. intros L. apply F. fold j. lia.
Qed.

Lemma generate_ok debug d t l k index leaf branch : rep d t l k -> generate_proof sha debug t index d = ROk (leaf, branch) ->
  leaf = leaf_at l (index mod 2 ^ N.of_nat d) /\ length branch = d /\
  verify_merkle_proof sha leaf branch d index (root d l) = true.
Proof.
  intros R H. unfold generate_proof in H. destruct (proof_loop sha t index d []) as [[node pr]| |] eqn:E; try discriminate.
  destruct (debug && negb (is_leaf node)); [discriminate|]. injection H as <- <-.
  destruct (proof_loop_ok _ _ _ _ _ _ _ _ R E) as (p & -> & Lp & Hl & Hr). cbn [app].
  split; [exact Hl|]. split; [rewrite rev_length; exact Lp|]. unfold verify_merkle_proof. rewrite rev_length, Lp, Nat.eqb_refl, Hr.
  cbn [andb]. apply beqb_refl.
Qed.
Lemma generate_total debug d t l k index : rep d t l k -> d <= S max_tree_depth -> (N.of_nat k <= index mod 2 ^ N.of_nat d)%N ->
  (debug = true -> (index mod 2 ^ N.of_nat d < N.of_nat (length l))%N) ->
  exists leaf branch, generate_proof sha debug t index d = ROk (leaf, branch).
Proof.
  intros R Hd Hk Hb. destruct (proof_loop_total _ _ _ _ index [] R Hd Hk) as (node & pr & E & F).
  unfold generate_proof. rewrite E. destruct debug; cbn [andb].
  - rewrite (F (Hb eq_refl)). cbn. eauto.
  - eauto.
Qed.

(** ** Soundness *)
Lemma hashed_shift r b index i :
  hashed_by_proof sha r b (N.shiftr index i) =
  match b with
  | [] => []
  | h :: rest => (if N.testbit index i then h ++ r else r ++ h) ::
      hashed_by_proof sha (if N.testbit index i then sha (h ++ r) else sha (r ++ h)) rest (N.shiftr index (i + 1))
  end.
Proof.
  destruct b as [|h b]; [reflexivity|]. cbn [hashed_by_proof].
  assert (O : N.odd (N.shiftr index i) = N.testbit index i) by (rewrite <- N.bit0_odd, N.shiftr_spec by lia; reflexivity).
  assert (D : N.div2 (N.shiftr index i) = N.shiftr index (i + 1)) by (rewrite N.div2_spec, N.shiftr_shiftr; reflexivity).
  rewrite O, D. destruct (N.testbit index i); reflexivity.
Qed.
Lemma hashed_app r b h index i :
  hashed_by_proof sha r (b ++ [h]) (N.shiftr index i) =
  hashed_by_proof sha r b (N.shiftr index i) ++
    [let r' := root_from_branch sha r b index i in if N.testbit index (i + N.of_nat (length b)) then h ++ r' else r' ++ h].
Proof.
  revert r i. induction b as [|x b IH]; intros r i; cbn [app].
  - rewrite (hashed_shift r [h]). cbn [hashed_by_proof app root_from_branch length]. rewrite N.add_0_r. reflexivity.
  - rewrite (hashed_shift r (x :: b ++ [h])), (hashed_shift r (x :: b)). rewrite IH. cbn [app root_from_branch length]. do 3 f_equal.
    replace (i + N.of_nat (S (length b)))%N with (i + 1 + N.of_nat (length b))%N by lia. reflexivity.
Qed.

Context (Hsha : forall x, len32 (sha x)).
Lemma root_len d l : Forall len32 l -> len32 (root d l).
Proof.
  intros F. destruct d as [|d]; cbn; [|apply Hsha]. destruct l as [|x l]; cbn; [reflexivity|]. inversion F; assumption.
Qed.
Lemma root_from_len r b index i : len32 r -> len32 (root_from_branch sha r b index i).
Proof. revert r i. induction b as [|x b IH]; intros r i H; cbn; [exact H|]. apply IH. destruct (N.testbit index i); apply Hsha. Qed.

Lemma app_split {A} (a b c d : list A) : length a = length c -> a ++ b = c ++ d -> a = c /\ b = d.
Proof.
  revert c. induction a as [|x a IH]; intros [|y c] L E; cbn in *; try discriminate; [auto|].
  injection E as -> E. injection L as L. destruct (IH c L E) as [-> ->]. auto.
Qed.
Lemma firstn_forall {A} (P : A -> Prop) n l : Forall P l -> Forall P (firstn n l).
Proof. intros F. rewrite <- (firstn_skipn n l) in F. apply Forall_app in F. apply F. Qed.
Lemma skipn_forall {A} (P : A -> Prop) n l : Forall P l -> Forall P (skipn n l).
Proof. intros F. rewrite <- (firstn_skipn n l) in F. apply Forall_app in F. apply F. Qed.

Lemma soundness : forall d l leaf branch index,
  Forall len32 l -> len32 leaf -> Forall len32 branch ->
  verify_merkle_proof sha leaf branch d index (root d l) = true ->
  leaf = leaf_at l (index mod 2 ^ N.of_nat d) \/
  exists x y, In x (hashed_by_proof sha leaf branch index) /\ In y (hashed_by_tree sha d l) /\ collision sha x y.
Proof.
  induction d as [|d IH]; intros l leaf branch index Fl Hl Fb H; unfold verify_merkle_proof in H; apply andb_prop in H as [Ln E];
    apply Nat.eqb_eq in Ln; apply beqb_spec in E.
  - destruct branch; [|discriminate]. left. cbn in E. rewrite E. change (2 ^ N.of_nat 0)%N with 1%N. rewrite N.mod_1_r. reflexivity.
  - destruct (exists_last (l := branch)) as (b & h & ->); [intros ->; discriminate|].
    rewrite app_length in Ln. cbn in Ln. assert (Lb : length b = d) by lia.
    apply Forall_app in Fb as [Fb Fh]. assert (Hh : len32 h) by (inversion Fh; assumption).
    rewrite root_from_app in E. cbv zeta in E. rewrite N.add_0_l, Lb in E.
    pose proof (hashed_app leaf b h index 0) as HA. rewrite N.shiftr_0_r in HA. cbv zeta in HA. rewrite N.add_0_l, Lb in HA.
    set (r' := root_from_branch sha leaf b index 0) in *.
    assert (Hr' : len32 r') by (apply root_from_len; exact Hl).
    cbn [merkle_root] in E. set (L := firstn (2 ^ d) l) in *. set (R := skipn (2 ^ d) l) in *.
    assert (FL : Forall len32 L) by (apply firstn_forall; exact Fl). assert (FR : Forall len32 R) by (apply skipn_forall; exact Fl).
    pose proof (root_len d L FL) as HL. pose proof (root_len d R FR) as HR.
    assert (TL : In (root d L ++ root d R) (hashed_by_tree sha (S d) l)) by (left; reflexivity).
    assert (IL : forall y, In y (hashed_by_tree sha d L) -> In y (hashed_by_tree sha (S d) l)).
    { intros y Hy. right. apply in_or_app. left. exact Hy. }
    assert (IR : forall y, In y (hashed_by_tree sha d R) -> In y (hashed_by_tree sha (S d) l)).
    { intros y Hy. right. apply in_or_app. right. exact Hy. }
    assert (IP : forall x, In x (hashed_by_proof sha leaf b index) -> In x (hashed_by_proof sha leaf (b ++ [h]) index)).
    { intros x Hx. rewrite HA. apply in_or_app. left. exact Hx. }
    rewrite leaf_split. fold L R.
    set (x0 := if N.testbit index (N.of_nat d) then h ++ r' else r' ++ h) in *.
    assert (E0 : sha x0 = sha (root d L ++ root d R)) by (unfold x0; destruct (N.testbit index (N.of_nat d)); exact E).
    assert (I0 : In x0 (hashed_by_proof sha leaf (b ++ [h]) index)) by (rewrite HA; apply in_or_app; right; left; reflexivity).
    destruct (beqb x0 (root d L ++ root d R)) eqn:Q.
    + apply beqb_spec in Q. unfold x0 in Q. destruct (N.testbit index (N.of_nat d)).
      * apply app_split in Q as [_ Q]; [|unfold len32 in *; congruence].
        destruct (IH R leaf b index FR Hl Fb) as [A|(x & y & A & B & C)].
        { unfold verify_merkle_proof. rewrite Lb, Nat.eqb_refl. cbn [andb]. apply beqb_spec. exact Q. }
        -- left. exact A.
        -- right. exists x, y. auto.
      * apply app_split in Q as [Q _]; [|unfold len32 in *; congruence].
        destruct (IH L leaf b index FL Hl Fb) as [A|(x & y & A & B & C)].
        { unfold verify_merkle_proof. rewrite Lb, Nat.eqb_refl. cbn [andb]. apply beqb_spec. exact Q. }
        -- left. exact A.
        -- right. exists x, y. auto.
    + right. exists x0, (root d L ++ root d R). split; [exact I0|]. split; [exact TL|]. split; [|exact E0].
      apply beqb_false. exact Q.
Qed.

Lemma binding d root index leaf1 branch1 leaf2 branch2 :
  len32 leaf1 -> len32 leaf2 -> Forall len32 branch1 -> Forall len32 branch2 ->
  verify_merkle_proof sha leaf1 branch1 d index root = true ->
  verify_merkle_proof sha leaf2 branch2 d index root = true ->
  leaf1 = leaf2 \/
  exists x y, In x (hashed_by_proof sha leaf1 branch1 index) /\ In y (hashed_by_proof sha leaf2 branch2 index) /\ collision sha x y.
Proof.
  intros Hl1 Hl2. revert root branch1 branch2. induction d as [|d IH]; intros root b1 b2 F1 F2 V1 V2; unfold verify_merkle_proof in V1, V2;
    apply andb_prop in V1 as [L1 E1]; apply andb_prop in V2 as [L2 E2]; apply Nat.eqb_eq in L1; apply Nat.eqb_eq in L2;
    apply beqb_spec in E1; apply beqb_spec in E2.
  - destruct b1, b2; try discriminate. left. cbn in *. congruence.
  - destruct (exists_last (l := b1)) as (c1 & h1 & ->); [intros ->; discriminate|].
    destruct (exists_last (l := b2)) as (c2 & h2 & ->); [intros ->; discriminate|].
    rewrite app_length in L1, L2. cbn in L1, L2. assert (N1 : length c1 = d) by lia. assert (N2 : length c2 = d) by lia.
    apply Forall_app in F1 as [F1 G1]. apply Forall_app in F2 as [F2 G2].
    assert (H1 : len32 h1) by (inversion G1; assumption). assert (H2 : len32 h2) by (inversion G2; assumption).
    rewrite root_from_app in E1, E2. cbv zeta in E1, E2. rewrite N.add_0_l, N1 in E1. rewrite N.add_0_l, N2 in E2.
    pose proof (hashed_app leaf1 c1 h1 index 0) as A1. pose proof (hashed_app leaf2 c2 h2 index 0) as A2.
    rewrite N.shiftr_0_r in A1, A2. cbv zeta in A1, A2. rewrite N.add_0_l, N1 in A1. rewrite N.add_0_l, N2 in A2.
    set (r1 := root_from_branch sha leaf1 c1 index 0) in *. set (r2 := root_from_branch sha leaf2 c2 index 0) in *.
    assert (R1 : len32 r1) by (apply root_from_len; exact Hl1). assert (R2 : len32 r2) by (apply root_from_len; exact Hl2).
    set (x1 := if N.testbit index (N.of_nat d) then h1 ++ r1 else r1 ++ h1) in *.
    set (x2 := if N.testbit index (N.of_nat d) then h2 ++ r2 else r2 ++ h2) in *.
    assert (E : sha x1 = sha x2) by (unfold x1, x2; destruct (N.testbit index (N.of_nat d)); congruence).
    destruct (beqb x1 x2) eqn:Q.
    + apply beqb_spec in Q. assert (r1 = r2).
      { unfold x1, x2 in Q. destruct (N.testbit index (N.of_nat d)); apply app_split in Q as [? ?]; unfold len32 in *; congruence. }
      destruct (IH r1 c1 c2 F1 F2) as [A|(x & y & Ax & Ay & C)].
      * unfold verify_merkle_proof. rewrite N1, Nat.eqb_refl. apply beqb_refl.
      * unfold verify_merkle_proof. rewrite N2, Nat.eqb_refl. cbn [andb]. apply beqb_spec. symmetry. assumption.
      * left. exact A.
      * right. exists x, y. rewrite A1, A2. split; [apply in_or_app; left; exact Ax|]. split; [apply in_or_app; left; exact Ay|exact C].
    + right. exists x1, x2. rewrite A1, A2. split; [apply in_or_app; right; left; reflexivity|]. split; [apply in_or_app; right; left; reflexivity|].
      split; [apply beqb_false; exact Q|exact E].
Qed.
End Sha.
