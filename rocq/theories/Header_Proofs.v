From Verif Require Import Base Merkle_Model Merkle_Spec Merkle_Proofs Header_Model Header_Spec.

Section Sha.
Context (sha : bytes -> bytes).

(** ** Proofs that go through several trees *)
Lemma root_from_shift : forall b r index i, root_from_branch sha r b index i = root_from_branch sha r b (N.shiftr index i) 0.
Proof.
  assert (G : forall b r index i j, root_from_branch sha r b index (i + j) = root_from_branch sha r b (N.shiftr index i) j).
  { induction b as [|h b IH]; intros r index i j; [reflexivity|]. cbn [root_from_branch].
    rewrite N.shiftr_spec by apply N.le_0_l. rewrite (N.add_comm j i). rewrite <- IH. rewrite N.add_assoc. reflexivity. }
  intros b r index i. rewrite <- G, N.add_0_r. reflexivity.
Qed.
Lemma root_from_app2 : forall a r b index i, root_from_branch sha r (a ++ b) index i = root_from_branch sha (root_from_branch sha r a index i) b index (i + N.of_nat (length a)).
Proof.
  induction a as [|h a IH]; intros r b index i; cbn [app root_from_branch length].
  - now rewrite N.add_0_r.
  - rewrite IH. f_equal. lia.
Qed.
Lemma hashed_app2 : forall a r b index, hashed_by_proof sha r (a ++ b) index =
  hashed_by_proof sha r a index ++ hashed_by_proof sha (root_from_branch sha r a index 0) b (N.shiftr index (N.of_nat (length a))).
Proof.
  intros a r b. assert (G : forall index i, hashed_by_proof sha r (a ++ b) (N.shiftr index i) =
    hashed_by_proof sha r a (N.shiftr index i) ++ hashed_by_proof sha (root_from_branch sha r a index i) b (N.shiftr index (i + N.of_nat (length a)))).
  { revert r. induction a as [|h a IH]; intros r index i.
    - cbn [app length root_from_branch hashed_by_proof]. now rewrite N.add_0_r.
    - cbn [app]. rewrite (hashed_shift sha r (h :: a ++ b)), (hashed_shift sha r (h :: a)). cbn [app]. f_equal. rewrite IH. cbn [root_from_branch length]. do 3 f_equal. lia. }
  intros index. specialize (G index 0). now rewrite N.shiftr_0_r, N.add_0_l in G.
Qed.
Lemma verify_split leaf branch db dt index root : verify_merkle_proof sha leaf branch (db + dt) index root = true ->
  exists a b mid, branch = a ++ b /\ length a = db /\ mid = root_from_branch sha leaf a index 0 /\
    verify_merkle_proof sha leaf a db index mid = true /\ verify_merkle_proof sha mid b dt (N.shiftr index (N.of_nat db)) root = true.
Proof.
  intros H. unfold verify_merkle_proof in H. apply andb_prop in H as [L E]. apply Nat.eqb_eq in L. apply beqb_spec in E.
  exists (firstn db branch), (skipn db branch), (root_from_branch sha leaf (firstn db branch) index 0).
  assert (La : length (firstn db branch) = db) by (rewrite firstn_length; lia).
  rewrite <- (firstn_skipn db branch) in E. rewrite root_from_app2, N.add_0_l, La, root_from_shift in E.
  split; [now rewrite firstn_skipn|]. split; [exact La|]. split; [reflexivity|]. unfold verify_merkle_proof. split.
  - rewrite La, Nat.eqb_refl. cbn [andb]. apply beqb_refl.
  - rewrite skipn_length, L. replace (db + dt - db)%nat with dt by lia. rewrite Nat.eqb_refl. cbn [andb]. apply beqb_spec. exact E.
Qed.
Lemma verify_join leaf a b db dt index mid root : verify_merkle_proof sha leaf a db index mid = true ->
  verify_merkle_proof sha mid b dt (N.shiftr index (N.of_nat db)) root = true -> verify_merkle_proof sha leaf (a ++ b) (db + dt) index root = true.
Proof.
  unfold verify_merkle_proof. intros H1 H2. apply andb_prop in H1 as [L1 E1]. apply andb_prop in H2 as [L2 E2]. apply Nat.eqb_eq in L1, L2. apply beqb_spec in E1, E2.
  rewrite app_length, L1, L2, Nat.eqb_refl. cbn [andb]. apply beqb_spec. rewrite root_from_app2, E1, N.add_0_l, L1, root_from_shift. exact E2.
Qed.

(** The low bits of the index are all that matters. *)
Lemma root_from_bits : forall b r index index' i, (forall j, i <= j < i + N.of_nat (length b) -> N.testbit index j = N.testbit index' j) ->
  root_from_branch sha r b index i = root_from_branch sha r b index' i.
Proof.
  induction b as [|h b IH]; intros r index index' i H; [reflexivity|]. cbn [root_from_branch]. cbn [length] in H.
  rewrite (H i) by lia. apply IH. intros j Hj. apply H. lia.
Qed.
Lemma verify_mod leaf branch d index root : verify_merkle_proof sha leaf branch d (index mod 2 ^ N.of_nat d) root = verify_merkle_proof sha leaf branch d index root.
Proof.
  unfold verify_merkle_proof. destruct (Nat.eqb_spec (length branch) d) as [E|E]; [|reflexivity]. cbn [andb]. f_equal.
  apply root_from_bits. intros j Hj. apply N.mod_pow2_bits_low. rewrite <- E. lia.
Qed.

Context (Hsha : forall x, len32 (sha x)).

(** One level: the proof up to the node [mid] at a known position of the upper tree. *)
Lemma sound_step leaf branch db dt index lt : Forall len32 lt -> len32 leaf -> Forall len32 branch ->
  verify_merkle_proof sha leaf branch (db + dt) index (merkle_root sha dt lt) = true ->
  clash sha (hashed_by_proof sha leaf branch index) (hashed_by_tree sha dt lt) \/
  exists a b, branch = a ++ b /\ verify_merkle_proof sha leaf a db index (leaf_at lt (N.shiftr index (N.of_nat db) mod 2 ^ N.of_nat dt)) = true /\
    Forall len32 a /\ incl (hashed_by_proof sha leaf a index) (hashed_by_proof sha leaf branch index).
Proof.
  intros Ft Hl Fb V. apply verify_split in V. destruct V as (a & b & mid & E & La & Em & V1 & V2).
  assert (Fa : Forall len32 a /\ Forall len32 b) by (rewrite E in Fb; now apply Forall_app). destruct Fa as [Fa Fb2].
  assert (Hm : len32 mid) by (rewrite Em; apply root_from_len; [exact Hsha|exact Hl]).
  pose proof (hashed_app2 a leaf b index) as HA. rewrite La, <- Em, <- E in HA.
  destruct (soundness sha Hsha dt lt mid b _ Ft Hm Fb2 V2) as [Q|(x & y & Hx & Hy & C)].
  - right. exists a, b. split; [exact E|]. split; [rewrite <- Q; exact V1|]. split; [exact Fa|]. rewrite HA. apply incl_appl, incl_refl.
  - left. exists x, y. split; [rewrite HA; apply in_or_app; right; exact Hx|]. split; [exact Hy|exact C].
Qed.
Lemma clash_incl xs xs' ys ys' : incl xs xs' -> incl ys ys' -> clash sha xs ys -> clash sha xs' ys'.
Proof. intros A B (x & y & Hx & Hy & C). exists x, y. auto. Qed.
Lemma leaf_at_nth l i x : nth_error l (N.to_nat i) = Some x -> leaf_at l i = x.
Proof. intros H. unfold leaf_at. apply nth_error_nth. exact H. Qed.
Lemma leaf_at_out l i : nth_error l (N.to_nat i) = None -> leaf_at l i = repeat 0 32.
Proof. intros H. unfold leaf_at. apply nth_overflow. apply nth_error_None. exact H. Qed.
Lemma last_level leaf branch d index l : Forall len32 l -> len32 leaf -> Forall len32 branch ->
  verify_merkle_proof sha leaf branch d index (merkle_root sha d l) = true ->
  leaf = leaf_at l (index mod 2 ^ N.of_nat d) \/ clash sha (hashed_by_proof sha leaf branch index) (hashed_by_tree sha d l).
Proof. exact (soundness sha Hsha d l leaf branch index). Qed.

(** ** The trees of the chain *)
Lemma le32_len n : len32 (le_bytes 32 n).
Proof. unfold len32. apply le_bytes_length. Qed.
Lemma record_root_len r : len32 (record_root sha r).
Proof. unfold record_root. cbn [merkle_root]. apply Hsha. Qed.
Lemma records_len e : Forall len32 (map (record_root sha) e).
Proof. apply Forall_forall. intros x H. apply in_map_iff in H. destruct H as (r & <- & _). apply record_root_len. Qed.
Lemma root1 x y : len32 x -> merkle_root sha 1 [x; y] = sha (x ++ y).
Proof. intros H. reflexivity. Qed.
Lemma hashed1 x y : hashed_by_tree sha 1 [x; y] = [x ++ y].
Proof. reflexivity. Qed.

(** Index arithmetic. *)
Lemma idx_epoch i : i < 8192 -> let g := 8192 * 2 * 2 + i * 2 in
  N.shiftr g 14 mod 2 = 0 /\ N.shiftr g 1 mod 8192 = i /\ g mod 2 = 0.
Proof.
  intros H g. unfold g. rewrite !N.shiftr_div_pow2. change (2 ^ 14) with 16384. change (2 ^ 1) with 2. split; [|split].
  - replace (8192 * 2 * 2 + i * 2) with (i * 2 + 2 * 16384) by lia. rewrite N.div_add by discriminate. rewrite (N.div_small (i * 2)) by lia. reflexivity.
  - replace (8192 * 2 * 2 + i * 2) with ((i + 2 * 8192) * 2) by lia. rewrite N.div_mul by discriminate. rewrite N.mod_add by discriminate. apply N.mod_small. exact H.
  - replace (8192 * 2 * 2 + i * 2) with ((i + 2 * 8192) * 2) by lia. apply N.mod_mul. discriminate.
Qed.
Lemma idx_batch i : i < 8192 -> let g := 2 * 8192 + i in N.shiftr g 13 mod 2 = 0 /\ g mod 8192 = i.
Proof.
  intros H g. unfold g. rewrite N.shiftr_div_pow2. change (2 ^ 13) with 8192. split.
  - rewrite (N.add_comm (2 * 8192) i), N.div_add by discriminate. rewrite (N.div_small i) by exact H. reflexivity.
  - rewrite (N.add_comm (2 * 8192) i), N.mod_add by discriminate. apply N.mod_small. exact H.
Qed.

Lemma epoch_sound e leaf branch i : i < 8192 -> epoch_ok e -> len32 leaf -> Forall len32 branch ->
  verify_merkle_proof sha leaf branch 15 (8192 * 2 * 2 + i * 2) (epoch_root sha e) = true ->
  (exists r, nth_error e (N.to_nat i) = Some r /\ block_hash r = leaf) \/
  clash sha (hashed_by_proof sha leaf branch (8192 * 2 * 2 + i * 2)) (hashed_by_epoch sha e) \/
  exists x, In x (hashed_by_proof sha leaf branch (8192 * 2 * 2 + i * 2)) /\ sha x = repeat 0 32.
Proof.
  intros Hi [He Fe] Hl Fb V. destruct (idx_epoch i Hi) as (I1 & I2 & I3). cbv zeta in I1, I2, I3. set (g := 8192 * 2 * 2 + i * 2) in *. clearbody g.
  assert (E1 : incl (hashed_by_tree sha 1 [merkle_root sha 13 (map (record_root sha) e); le_bytes 32 (blen e)]) (hashed_by_epoch sha e)).
  { unfold hashed_by_epoch. rewrite hashed1. apply incl_appr, incl_appr, incl_refl. }
  assert (E2 : incl (hashed_by_tree sha 13 (map (record_root sha) e)) (hashed_by_epoch sha e)).
  { unfold hashed_by_epoch. apply incl_appr, incl_appl, incl_refl. }
  unfold epoch_root in V. change 15%nat with (14 + 1)%nat in V.
  apply sound_step in V; [|constructor; [apply root_len; [exact Hsha|apply records_len]|constructor; [apply le32_len|constructor]]|exact Hl|exact Fb].
  destruct V as [C|(a & b & E & V & Fa & Inc)]; [right; left; exact (clash_incl _ _ _ _ (incl_refl _) E1 C)|].
  change (N.of_nat 14) with 14 in V. change (2 ^ N.of_nat 1) with 2 in V. rewrite I1 in V. change (leaf_at [merkle_root sha 13 (map (record_root sha) e); le_bytes 32 (blen e)] 0) with (merkle_root sha 13 (map (record_root sha) e)) in V.
  change 14%nat with (1 + 13)%nat in V. apply sound_step in V; [|apply records_len|exact Hl|exact Fa].
  destruct V as [C|(a2 & b2 & E' & V & Fa2 & Inc2)]; [right; left; exact (clash_incl _ _ _ _ Inc E2 C)|].
  change (N.of_nat 1) with 1 in V. change (2 ^ N.of_nat 13) with 8192 in V. rewrite I2 in V.
  destruct (nth_error e (N.to_nat i)) as [r|] eqn:Er.
  - assert (Lr : leaf_at (map (record_root sha) e) i = record_root sha r).
    { apply leaf_at_nth. rewrite nth_error_map, Er. reflexivity. }
    rewrite Lr in V. unfold record_root in V. apply last_level in V; [| |exact Hl|exact Fa2].
    + change (2 ^ N.of_nat 1) with 2 in V. rewrite I3 in V. destruct V as [V|C].
      * left. exists r. split; [reflexivity|]. symmetry. exact V.
      * right. left. apply (clash_incl _ _ _ _ (incl_tran Inc2 Inc)) with (2 := C). rewrite hashed1. intros x [<-|[]]. unfold hashed_by_epoch. apply in_or_app. left. apply in_map_iff. exists r. split; [reflexivity|]. exact (nth_error_In _ _ Er).
    + constructor; [|constructor; [apply le32_len|constructor]]. rewrite Forall_forall in Fe. apply Fe. exact (nth_error_In _ _ Er).
  - right. right. assert (Lr : leaf_at (map (record_root sha) e) i = repeat 0 32). { apply leaf_at_out. rewrite nth_error_map, Er. reflexivity. }
    rewrite Lr in V. unfold verify_merkle_proof in V. apply andb_prop in V as [L V]. apply Nat.eqb_eq in L. destruct a2 as [|h [|h2 a2]]; try discriminate.
    apply beqb_spec in V. cbn [root_from_branch] in V. exists (if N.testbit g 0 then h ++ leaf else leaf ++ h). split.
    + apply Inc, Inc2. cbn [hashed_by_proof]. rewrite <- N.bit0_odd. left. reflexivity.
    + destruct (N.testbit g 0); exact V.
Qed.

Lemma batch_sound b leaf branch i : i < 8192 -> batch_ok b -> len32 leaf -> Forall len32 branch ->
  verify_merkle_proof sha leaf branch 14 (2 * 8192 + i) (batch_root sha b) = true ->
  nth_error (block_roots b) (N.to_nat i) = Some leaf \/ clash sha (hashed_by_proof sha leaf branch (2 * 8192 + i)) (hashed_by_batch sha b).
Proof.
  intros Hi (Lb & Fb & Ls & Fs) Hl Fbr V. destruct (idx_batch i Hi) as (I1 & I2). cbv zeta in I1, I2. set (g := 2 * 8192 + i) in *. clearbody g.
  unfold batch_root in V. change 14%nat with (13 + 1)%nat in V.
  apply sound_step in V; [|constructor; [apply root_len; assumption|constructor; [apply root_len; assumption|constructor]]|exact Hl|exact Fbr].
  destruct V as [C|(a & b2 & E & V & Fa & Inc)].
  { right. apply (clash_incl _ _ _ _ (incl_refl _)) with (2 := C). rewrite hashed1. apply incl_appr, incl_refl. }
  change (N.of_nat 13) with 13 in V. change (2 ^ N.of_nat 1) with 2 in V. rewrite I1 in V.
  change (leaf_at [merkle_root sha 13 (block_roots b); merkle_root sha 13 (state_roots b)] 0) with (merkle_root sha 13 (block_roots b)) in V.
  apply last_level in V; [|exact Fb|exact Hl|exact Fa]. change (2 ^ N.of_nat 13) with 8192 in V. rewrite I2 in V. destruct V as [V|C].
  - left. destruct (nth_error (block_roots b) (N.to_nat i)) as [x|] eqn:X; [apply leaf_at_nth in X; congruence|].
    apply nth_error_None in X. unfold blen in Lb. lia.
  - right. apply (clash_incl _ _ _ _ Inc) with (2 := C). apply incl_appl, incl_refl.
Qed.
Lemma summary_sound b leaf branch i : i < 8192 -> batch_ok b -> len32 leaf -> Forall len32 branch ->
  verify_merkle_proof sha leaf branch 13 (8192 + i) (block_summary_root (batch_summary sha b)) = true ->
  nth_error (block_roots b) (N.to_nat i) = Some leaf \/ clash sha (hashed_by_proof sha leaf branch (8192 + i)) (hashed_by_batch sha b).
Proof.
  intros Hi (Lb & Fb & Ls & Fs) Hl Fbr V. cbn [batch_summary block_summary_root] in V.
  apply last_level in V; [|exact Fb|exact Hl|exact Fbr]. change (2 ^ N.of_nat 13) with 8192 in V.
  assert (M : (8192 + i) mod 8192 = i). { rewrite <- (N.mul_1_l 8192) at 1. rewrite N.add_comm, N.mod_add by discriminate. apply N.mod_small. exact Hi. }
  rewrite M in V. destruct V as [V|C].
  - left. destruct (nth_error (block_roots b) (N.to_nat i)) as [x|] eqn:X; [apply leaf_at_nth in X; congruence|].
    apply nth_error_None in X. unfold blen in Lb. lia.
  - right. apply (clash_incl _ _ _ _ (incl_refl _)) with (2 := C). apply incl_appl, incl_refl.
Qed.

Lemma nth_app_mid {A} (a b : list A) x d : nth (length a) (a ++ [x] ++ b) d = x.
Proof. rewrite app_nth2 by lia. rewrite Nat.sub_diag. reflexivity. Qed.
Lemma block_sound depth b leaf branch g : shaped depth b -> len32 leaf -> Forall len32 branch ->
  N.shiftr g (N.of_nat (depth + 4)) mod 8 = 4 -> N.shiftr g (N.of_nat depth) mod 16 = 9 -> g mod 2 ^ N.of_nat depth = 12 ->
  verify_merkle_proof sha leaf branch (depth + 4 + 3) g (block_tree sha depth b) = true ->
  execution_hash b = leaf \/ clash sha (hashed_by_proof sha leaf branch g) (hashed_by_block sha depth b).
Proof.
  intros (Lf & Lb & La & Lp & Lp2 & F1 & F2 & F3 & F4) Hl Fbr G1 G2 G3 V. unfold block_tree in V.
  assert (R1 : len32 (payload_tree sha depth b)) by (apply root_len; assumption).
  assert (R2f : Forall len32 (body_before b ++ [payload_tree sha depth b] ++ body_after b)).
  { apply Forall_app. split; [exact F2|]. apply Forall_app. split; [constructor; [exact R1|constructor]|exact F3]. }
  assert (R2 : len32 (body_tree sha depth b)) by (apply root_len; assumption).
  apply sound_step in V; [|apply Forall_app; split; [exact F1|constructor; [exact R2|constructor]]|exact Hl|exact Fbr].
  destruct V as [C|(a & b2 & E & V & Fa & Inc)].
  { right. apply (clash_incl _ _ _ _ (incl_refl _)) with (2 := C). apply incl_appr, incl_appr, incl_refl. }
  change (2 ^ N.of_nat 3) with 8 in V. rewrite G1 in V.
  assert (X : leaf_at (bb_fields b ++ [body_tree sha depth b]) 4 = body_tree sha depth b).
  { unfold leaf_at. change (N.to_nat 4) with 4%nat. rewrite <- Lf. apply (nth_app_mid (bb_fields b) []). }
  rewrite X in V. clear X. unfold body_tree in V. apply sound_step in V; [|exact R2f|exact Hl|exact Fa].
  destruct V as [C|(a2 & b3 & E' & V & Fa2 & Inc2)].
  { right. apply (clash_incl _ _ _ _ Inc) with (2 := C). apply incl_appr, incl_appl, incl_refl. }
  change (2 ^ N.of_nat 4) with 16 in V. rewrite G2 in V.
  assert (X : leaf_at (body_before b ++ [payload_tree sha depth b] ++ body_after b) 9 = payload_tree sha depth b).
  { unfold leaf_at. change (N.to_nat 9) with 9%nat. rewrite <- Lb. apply nth_app_mid. }
  rewrite X in V. unfold payload_tree in V. apply last_level in V; [|exact F4|exact Hl|exact Fa2]. rewrite G3 in V. destruct V as [V|C].
  - left. rewrite V. unfold execution_hash, leaf_at. change (N.to_nat 12) with 12%nat. apply nth_indep. exact Lp2.
  - right. apply (clash_incl _ _ _ _ (incl_tran Inc2 Inc)) with (2 := C). apply incl_appl, incl_refl.
Qed.
End Sha.

(** ** Proofs that are built *)
Section Build.
Context (sha : bytes -> bytes).

Lemma rs_root_eq : forall d l, length l = (2 ^ d)%nat -> rs_root sha d l = merkle_root sha d l.
Proof.
  induction d as [|d IH]; intros l H.
  - cbn [rs_root merkle_root]. apply nth_indep. rewrite H. cbn. lia.
  - cbn [rs_root merkle_root]. rewrite pow2_S in H. rewrite !IH; [reflexivity| |]; rewrite ?firstn_length, ?skipn_length; lia.
Qed.
Lemma rs_proof_ok : forall d l index, length l = (2 ^ d)%nat ->
  verify_merkle_proof sha (leaf_at l (index mod 2 ^ N.of_nat d)) (rs_proof sha d l index) d index (merkle_root sha d l) = true.
Proof.
  induction d as [|d IH]; intros l index H.
  - cbn [rs_proof]. change (2 ^ N.of_nat 0) with 1. rewrite N.mod_1_r. unfold verify_merkle_proof. cbn [length root_from_branch merkle_root]. rewrite Nat.eqb_refl. apply beqb_refl.
  - rewrite pow2_S in H. cbn [rs_proof merkle_root]. rewrite leaf_split.
    assert (H1 : length (firstn (2 ^ d) l) = (2 ^ d)%nat) by (rewrite firstn_length; lia). assert (H2 : length (skipn (2 ^ d) l) = (2 ^ d)%nat) by (rewrite skipn_length; lia).
    assert (J : forall leaf b h root, verify_merkle_proof sha leaf b d index root = true ->
      verify_merkle_proof sha leaf (b ++ [h]) (S d) index (if N.testbit index (N.of_nat d) then sha (h ++ root) else sha (root ++ h)) = true).
    { intros leaf b h root V. unfold verify_merkle_proof in *. apply andb_prop in V as [L E]. apply Nat.eqb_eq in L. apply beqb_spec in E.
      rewrite app_length, L. cbn [length]. replace (d + 1)%nat with (S d) by lia. rewrite Nat.eqb_refl. cbn [andb]. apply beqb_spec. rewrite root_from_app. cbv zeta. rewrite N.add_0_l, L, E. reflexivity. }
    destruct (N.testbit index (N.of_nat d)).
    + rewrite (rs_root_eq d _ H1). exact (J _ _ _ _ (IH _ index H2)).
    + rewrite (rs_root_eq d _ H2). exact (J _ _ _ _ (IH _ index H1)).
Qed.
(** Filling up with zeros changes nothing. *)
Lemma root_pad : forall d l k, merkle_root sha d (l ++ repeat (repeat 0 32) k) = merkle_root sha d l.
Proof.
  induction d as [|d IH]; intros l k.
  - cbn [merkle_root]. destruct l as [|x l]; [|reflexivity]. destruct k; reflexivity.
  - cbn [merkle_root]. rewrite firstn_app, skipn_app.
    assert (A : forall n, exists m, firstn n (repeat (repeat 0 32) k) = repeat (repeat 0 32) m).
    { generalize (repeat 0 32) as z. intros z n. generalize k as k0. induction n as [|n IHn]; intros k0; [exists 0%nat; reflexivity|]. destruct k0 as [|k0]; [exists 0%nat; reflexivity|]. destruct (IHn k0) as [m E]. exists (S m). cbn [repeat firstn]. now rewrite E. }
    assert (B : forall n, exists m, skipn n (repeat (repeat 0 32) k) = repeat (repeat 0 32) m).
    { generalize (repeat 0 32) as z. intros z n. generalize k as k0. induction n as [|n IHn]; intros k0; [exists k0; reflexivity|]. destruct k0 as [|k0]; [exists 0%nat; reflexivity|]. exact (IHn k0). }
    destruct (A (2 ^ d - length l)%nat) as [m1 ->]. destruct (B (2 ^ d - length l)%nat) as [m2 ->]. rewrite !IH. reflexivity.
Qed.
Lemma root_pad_firstn d l k : (2 ^ d <= length l + k)%nat -> merkle_root sha d (firstn (2 ^ d) (l ++ repeat (repeat 0 32) k)) = merkle_root sha d l.
Proof. intros _. rewrite root_firstn. apply root_pad. Qed.
Lemma nth_firstn {A} (l : list A) n j d : (j < n)%nat -> nth j (firstn n l) d = nth j l d.
Proof. revert n j. induction l as [|x l IH]; intros n j H; [now rewrite firstn_nil|]. destruct n; [lia|]. destruct j; [reflexivity|]. cbn. apply IH. lia. Qed.
Lemma nth_pad {A} (l : list A) k j d : nth j (l ++ repeat d k) d = nth j l d.
Proof.
  destruct (Nat.lt_ge_cases j (length l)) as [L|L]; [apply app_nth1; exact L|]. rewrite app_nth2 by exact L. rewrite (nth_overflow l) by exact L.
  generalize (j - length l)%nat. clear. induction k as [|k IH]; intros [|j]; cbn; auto.
Qed.
Lemma leaf_at_pad l k n i : (N.to_nat i < n)%nat -> leaf_at (firstn n (l ++ repeat (repeat 0 32) k)) i = leaf_at l i.
Proof. intros H. exact (eq_trans (nth_firstn _ _ _ _ H) (nth_pad l k (N.to_nat i) zero_leaf)). Qed.
Lemma build_ok l d index : N.log2_up (blen l) = N.of_nat d ->
  verify_merkle_proof sha (leaf_at l (index mod 2 ^ N.of_nat d)) (build_merkle_proof sha l index) d index (merkle_root sha d l) = true.
Proof.
  intros E. unfold build_merkle_proof. rewrite E, Nat2N.id. assert (P : N.to_nat (2 ^ N.of_nat d) = (2 ^ d)%nat) by (rewrite pow2_N; apply Nat2N.id). rewrite P.
  set (p := firstn (2 ^ d) (l ++ repeat (repeat 0 32) (2 ^ d))).
  assert (L : length p = (2 ^ d)%nat). { unfold p. rewrite firstn_length, app_length, repeat_length. lia. }
  pose proof (rs_proof_ok d p index L) as V. unfold p in V at 1 3. rewrite root_pad_firstn in V by lia.
  rewrite leaf_at_pad in V; [exact V|]. rewrite <- P. assert (index mod 2 ^ N.of_nat d < 2 ^ N.of_nat d) by (apply N.mod_lt, N.pow_nonzero; discriminate). lia.
Qed.
Lemma build_len l d index : N.log2_up (blen l) = N.of_nat d -> length (build_merkle_proof sha l index) = d.
Proof. intros E. pose proof (build_ok l d index E) as V. unfold verify_merkle_proof in V. apply andb_prop in V as [L _]. now apply Nat.eqb_eq in L. Qed.
Lemma container_ok l d : N.log2_up (blen l) = N.of_nat d -> container_root sha l = merkle_root sha d l.
Proof. intros E. unfold container_root. rewrite E, Nat2N.id. apply create_hash. Qed.
Lemma log2_up_range {A} (l : list A) d : (0 < d)%nat -> (2 ^ (d - 1) < length l <= 2 ^ d)%nat -> N.log2_up (blen l) = N.of_nat d.
Proof.
  intros Hd [H1 H2]. apply N.log2_up_unique; [lia|]. unfold blen. rewrite <- Nat2N.inj_pred. change 2%N with (N.of_nat 2). rewrite <- !Nat2N.inj_pow. replace (pred d) with (d - 1)%nat by lia. lia.
Qed.

Lemma epoch_proof_ok debug h e r : nth_error e (N.to_nat (h_number h mod 8192)) = Some r -> block_hash r = h_hash h -> blen e <= 8192 ->
  exists p, construct_proof sha debug h e = Ok p /\ length p = 15%nat /\
    verify_merkle_proof sha (h_hash h) p 15 (8192 * 2 * 2 + h_number h mod 8192 * 2) (epoch_root sha e) = true.
Proof.
  intros Hr Hh Le. set (i := h_number h mod 8192) in *. assert (Hi : i < 8192) by (apply N.mod_lt; discriminate).
  set (leaves := map (fun r => sha (block_hash r ++ le32 (total_difficulty r))) e).
  assert (EL : leaves = map (record_root sha) e) by reflexivity.
  assert (Ll : N.of_nat (length leaves) = blen e) by (unfold leaves; rewrite map_length; reflexivity).
  assert (P13 : N.of_nat (2 ^ 13) = 8192) by (rewrite <- pow2_N; reflexivity).
  assert (R : rep sha 13 (create sha leaves 13) leaves 0) by (apply rep_create; lia).
  assert (Ii : i mod 2 ^ N.of_nat 13 = i) by (apply N.mod_small; exact Hi).
  assert (Hin : i < blen e). { assert (N.to_nat i < length e)%nat by (apply nth_error_Some; congruence). unfold blen. lia. }
  destruct (generate_total sha debug 13 _ leaves 0 i R) as (leaf & branch & G).
  { vm_compute. repeat constructor. }
  { apply N.le_0_l. }
  { intros _. rewrite Ii, Ll. exact Hin. }
  destruct (generate_ok sha debug 13 _ leaves 0 i leaf branch R G) as (El & Lb & V). rewrite Ii in El.
  assert (El2 : leaf = sha (block_hash r ++ le32 (total_difficulty r))).
  { rewrite El. apply leaf_at_nth. unfold leaves. rewrite nth_error_map, Hr. reflexivity. }
  exists (le32 (total_difficulty r) :: branch ++ [le32 (blen e)]). split; [|split].
  - unfold construct_proof. change slots_per_historical_root with 8192. fold i. rewrite Hr. rewrite Hh, beqb_refl. cbn [negb]. cbv zeta.
    fold leaves. rewrite G. rewrite El2, Hh, beqb_refl. cbn [negb length]. rewrite app_length, Lb. reflexivity.
  - cbn [length]. rewrite app_length, Lb. reflexivity.
  - destruct (idx_epoch i Hi) as (I1 & I2 & I3). cbv zeta in I1, I2, I3. set (g := 8192 * 2 * 2 + i * 2) in *. clearbody g.
    change (le32 (total_difficulty r) :: branch ++ [le32 (blen e)]) with ([le32 (total_difficulty r)] ++ (branch ++ [le32 (blen e)])).
    change 15%nat with (1 + (13 + 1))%nat. apply (verify_join sha) with (mid := leaf).
    + unfold verify_merkle_proof. cbn [length root_from_branch]. rewrite Nat.eqb_refl. cbn [andb]. apply beqb_spec.
      assert (T : N.testbit g 0 = false). { rewrite N.bit0_odd. pose proof (N.bit0_mod g) as B. rewrite N.bit0_odd in B. rewrite I3 in B. destruct (N.odd g); [discriminate|reflexivity]. }
      rewrite T, El2, Hh. reflexivity.
    + apply (verify_join sha) with (mid := merkle_root sha 13 leaves).
      * rewrite <- verify_mod. change (N.of_nat 1) with 1. change (2 ^ N.of_nat 13) with 8192. rewrite I2. exact V.
      * rewrite N.shiftr_shiftr. change (N.of_nat 1 + N.of_nat 13) with 14. unfold verify_merkle_proof. cbn [length root_from_branch]. rewrite Nat.eqb_refl. cbn [andb]. apply beqb_spec.
        assert (T : N.testbit (N.shiftr g 14) 0 = false). { pose proof (N.bit0_mod (N.shiftr g 14)) as B. rewrite I1 in B. destruct (N.testbit (N.shiftr g 14) 0); [discriminate|reflexivity]. }
        rewrite T. unfold epoch_root. reflexivity.
Qed.

Lemma execution_proof_ok depth b g : shaped depth b -> (depth = 4 \/ depth = 5)%nat ->
  N.shiftr g (N.of_nat (depth + 4)) mod 8 = 4 -> N.shiftr g (N.of_nat depth) mod 16 = 9 -> g mod 2 ^ N.of_nat depth = 12 ->
  beacon_root sha b = block_tree sha depth b /\ length (build_execution_block_hash_proof sha b) = (depth + 4 + 3)%nat /\
  verify_merkle_proof sha (execution_hash b) (build_execution_block_hash_proof sha b) (depth + 4 + 3) g (block_tree sha depth b) = true.
Proof.
  intros (Lf & Lb & La & Lp & Lp2 & F1 & F2 & F3 & F4) Hd G1 G2 G3.
  assert (Q1 : N.log2_up (blen (payload b)) = N.of_nat depth) by (apply log2_up_range; [lia|exact Lp]).
  assert (P1 : payload_root sha b = payload_tree sha depth b) by (apply container_ok; exact Q1).
  set (bl := body_before b ++ [payload_root sha b] ++ body_after b).
  assert (Q2 : N.log2_up (blen bl) = N.of_nat 4). { apply log2_up_range; [lia|]. unfold bl. rewrite !app_length. cbn [length]. change (2 ^ (4 - 1))%nat with 8%nat. change (2 ^ 4)%nat with 16%nat. lia. }
  assert (P2 : body_root sha b = body_tree sha depth b). { unfold body_root. fold bl. rewrite (container_ok _ _ Q2). unfold bl. rewrite P1. reflexivity. }
  set (fl := bb_fields b ++ [body_root sha b]).
  assert (Q3 : N.log2_up (blen fl) = N.of_nat 3). { apply log2_up_range; [lia|]. unfold fl. rewrite !app_length. cbn [length]. change (2 ^ (3 - 1))%nat with 4%nat. change (2 ^ 3)%nat with 8%nat. lia. }
  assert (P3 : beacon_root sha b = block_tree sha depth b). { unfold beacon_root. fold fl. rewrite (container_ok _ _ Q3). unfold fl. rewrite P2. reflexivity. }
  split; [exact P3|]. unfold build_execution_block_hash_proof. fold bl fl. split.
  - rewrite !app_length, (build_len _ _ _ Q1), (build_len _ _ _ Q2), (build_len _ _ _ Q3). lia.
  - replace (depth + 4 + 3)%nat with (depth + (4 + 3))%nat by lia. apply (verify_join sha) with (mid := payload_tree sha depth b); [|apply (verify_join sha) with (mid := body_tree sha depth b)].
    + rewrite <- verify_mod, G3. pose proof (build_ok (payload b) depth 12 Q1) as V. rewrite <- G3, N.mod_mod, G3 in V by (apply N.pow_nonzero; discriminate).
      replace (execution_hash b) with (leaf_at (payload b) 12); [exact V|]. unfold execution_hash, leaf_at. change (N.to_nat 12) with 12%nat. apply nth_indep. exact Lp2.
    + rewrite <- verify_mod. change (2 ^ N.of_nat 4) with 16. rewrite G2. pose proof (build_ok bl 4 9 Q2) as V. change (9 mod 2 ^ N.of_nat 4) with 9 in V.
      assert (X : leaf_at bl 9 = payload_tree sha depth b). { unfold leaf_at, bl. change (N.to_nat 9) with 9%nat. rewrite <- Lb, <- P1. apply nth_app_mid. }
      rewrite X in V. unfold body_tree. rewrite <- P1 in *. exact V.
    + rewrite <- verify_mod. change (2 ^ N.of_nat 3) with 8. rewrite N.shiftr_shiftr. replace (N.of_nat depth + N.of_nat 4) with (N.of_nat (depth + 4)) by lia. rewrite G1. pose proof (build_ok fl 3 4 Q3) as V. change (4 mod 2 ^ N.of_nat 3) with 4 in V.
      assert (X : leaf_at fl 4 = body_tree sha depth b). { unfold leaf_at, fl. change (N.to_nat 4) with 4%nat. rewrite <- Lf, <- P2. apply (nth_app_mid (bb_fields b) []). }
      rewrite X in V. unfold block_tree. rewrite <- P2 in *. exact V.
Qed.
Lemma roots_log {A} (l : list A) : blen l = 8192 -> N.log2_up (blen l) = N.of_nat 13.
Proof. intros ->. reflexivity. Qed.
Lemma roots_proof_ok l root i : blen l = 8192 -> i < 8192 -> nth_error l (N.to_nat i) = Some root ->
  length (build_merkle_proof sha l i) = 13%nat /\ verify_merkle_proof sha root (build_merkle_proof sha l i) 13 i (merkle_root sha 13 l) = true.
Proof.
  intros L Hi H. pose proof (roots_log l L) as Q. split; [exact (build_len _ _ _ Q)|]. pose proof (build_ok l 13 i Q) as V.
  change (2 ^ N.of_nat 13) with 8192 in V. rewrite N.mod_small in V by exact Hi. rewrite (leaf_at_nth _ _ _ H) in V. exact V.
Qed.
End Build.
