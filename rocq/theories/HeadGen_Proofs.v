(** Lemmas for C102. *)
From Verif Require Import Base Keys_Props Merkle_Model Merkle_Spec Merkle_Proofs Header_Model Header_Spec Header_Proofs Header_Props LegacyHistory_Model LegacyHistory_Spec LegacyHistory_Props
  E2Store_Model EraFiles_Model EraFiles_Spec Builders_Model Builders_Spec Builders_Props E2hsWriter_Model E2hsWriter_Spec E2hsWriter_Proofs HeadGen_Model HeadGen_Spec.

(** ** A proof that is made from other leaves *)
Section Tree.
Context (sha : bytes -> bytes).
Lemma put_length {A} i (x : A) l : (i < length l)%nat -> length (put i x l) = length l.
Proof. intros H. unfold put. rewrite app_length, firstn_length. cbn [length]. rewrite skipn_length. lia. Qed.
Lemma put_nth {A} i (x : A) l j : (i < length l)%nat -> nth_error (put i x l) j = if (j =? i)%nat then Some x else nth_error l j.
Proof.
  revert i j. induction l as [|y l IH]; intros i j H; [cbn in H; lia|]. destruct i as [|i].
  - destruct j; reflexivity.
  - destruct j as [|j]; [reflexivity|]. cbn in H. exact (IH i j ltac:(lia)).
Qed.
Lemma put_app_l {A} i (x : A) a b : (i < length a)%nat -> put i x (a ++ b) = put i x a ++ b.
Proof. revert i. induction a as [|y a IH]; intros i H; [cbn in H; lia|]. destruct i as [|i]; [reflexivity|]. cbn in H. unfold put in *. cbn [app firstn skipn]. f_equal. apply IH. lia. Qed.
Lemma put_app_r {A} i (x : A) a b : put (length a + i) x (a ++ b) = a ++ put i x b.
Proof. induction a as [|y a IH]; [reflexivity|]. unfold put in *. cbn [length Nat.add app firstn skipn]. f_equal. exact IH. Qed.

Lemma proof_put : forall d l index leaf, length l = (2 ^ d)%nat ->
  root_from_branch sha leaf (rs_proof sha d l index) index 0 = merkle_root sha d (put (N.to_nat (index mod 2 ^ N.of_nat d)) leaf l) /\ length (rs_proof sha d l index) = d.
Proof.
  induction d as [|d IH]; intros l index leaf H.
  - destruct l as [|x [|y l]]; try discriminate. change (2 ^ N.of_nat 0) with 1. rewrite N.mod_1_r. split; reflexivity.
  - rewrite pow2_S in H. cbn [rs_proof merkle_root]. rewrite index_split.
    assert (H1 : length (firstn (2 ^ d) l) = (2 ^ d)%nat) by (rewrite firstn_length; lia). assert (H2 : length (skipn (2 ^ d) l) = (2 ^ d)%nat) by (rewrite skipn_length; lia).
    assert (Li : (N.to_nat (index mod 2 ^ N.of_nat d) < 2 ^ d)%nat). { pose proof (N.mod_lt index (2 ^ N.of_nat d) ltac:(apply N.pow_nonzero; discriminate)). rewrite pow2_N in *. lia. }
    rewrite <- (firstn_skipn (2 ^ d) l) at 5 6. destruct (N.testbit index (N.of_nat d)) eqn:T.
    + destruct (IH (skipn (2 ^ d) l) index leaf H2) as [E L]. rewrite root_from_app, app_length. cbv zeta. rewrite N.add_0_l, L, T, E, rs_root_eq by exact H1.
      replace (N.to_nat (N.of_nat (2 ^ d) + index mod 2 ^ N.of_nat d)) with (length (firstn (2 ^ d) l) + N.to_nat (index mod 2 ^ N.of_nat d))%nat by lia. rewrite put_app_r.
      rewrite firstn_app, H1, Nat.sub_diag, firstn_O, app_nil_r, skipn_app, H1, Nat.sub_diag, skipn_O. rewrite (firstn_all2 (n := 2 ^ d) (firstn (2 ^ d) l)), (skipn_all2 (firstn (2 ^ d) l)) by lia. split; [reflexivity|cbn; lia].
    + destruct (IH (firstn (2 ^ d) l) index leaf H1) as [E L]. rewrite root_from_app, app_length. cbv zeta. rewrite N.add_0_l, L, T, E, rs_root_eq by exact H2.
      rewrite put_app_l by lia. assert (Lp : length (put (N.to_nat (index mod 2 ^ N.of_nat d)) leaf (firstn (2 ^ d) l)) = (2 ^ d)%nat) by (rewrite put_length; lia).
      rewrite firstn_app, Lp, Nat.sub_diag, firstn_O, app_nil_r, skipn_app, Lp, Nat.sub_diag, skipn_O. rewrite (firstn_all2 (put _ _ _)), (skipn_all2 (put _ _ _)) by lia. split; [reflexivity|cbn; lia].
Qed.
Lemma root_inj : (forall x, len32 (sha x)) -> forall d l l', length l = (2 ^ d)%nat -> length l' = (2 ^ d)%nat -> Forall len32 l -> Forall len32 l' -> merkle_root sha d l = merkle_root sha d l' ->
  l = l' \/ exists x y, In x (hashed_by_tree sha d l) /\ In y (hashed_by_tree sha d l') /\ collision sha x y.
Proof.
  intros Hs. induction d as [|d IH]; intros l l' H H' F F' E.
  - destruct l as [|x [|y l]]; try discriminate. destruct l' as [|x' [|y' l']]; try discriminate. cbn in E. left. congruence.
  - rewrite pow2_S in H, H'. cbn [merkle_root hashed_by_tree] in *. cbv zeta.
    set (a := firstn (2 ^ d) l) in *. set (b := skipn (2 ^ d) l) in *. set (a' := firstn (2 ^ d) l') in *. set (b' := skipn (2 ^ d) l') in *.
    destruct (beqb (merkle_root sha d a ++ merkle_root sha d b) (merkle_root sha d a' ++ merkle_root sha d b')) eqn:Q.
    + apply beqb_spec in Q. assert (Fa : Forall len32 a /\ Forall len32 b /\ Forall len32 a' /\ Forall len32 b') by (repeat split; (apply firstn_forall || apply skipn_forall); assumption). destruct Fa as (Fa & Fb & Fa' & Fb').
      apply app_split in Q as [Qa Qb]; [|transitivity 32%nat; [|symmetry]; apply root_len; assumption].
      assert (La : length a = (2 ^ d)%nat /\ length b = (2 ^ d)%nat /\ length a' = (2 ^ d)%nat /\ length b' = (2 ^ d)%nat) by (unfold a, b, a', b'; rewrite !firstn_length, !skipn_length; lia). destruct La as (La & Lb & La' & Lb').
      destruct (IH a a' La La' Fa Fa' Qa) as [Ea|(x & y & I & J & C)]; [destruct (IH b b' Lb Lb' Fb Fb' Qb) as [Eb|(x & y & I & J & C)]|].
      * left. rewrite <- (firstn_skipn (2 ^ d) l), <- (firstn_skipn (2 ^ d) l'). fold a b a' b'. congruence.
      * right. exists x, y. split; [right; apply in_or_app; right; exact I|]. split; [right; apply in_or_app; right; exact J|exact C].
      * right. exists x, y. split; [right; apply in_or_app; left; exact I|]. split; [right; apply in_or_app; left; exact J|exact C].
    + right. do 2 eexists. split; [left; reflexivity|]. split; [left; reflexivity|]. split; [apply beqb_false; exact Q|exact E].
Qed.
(** A proof for a list of roots, checked against another list *)
Lemma other_roots l l' i leaf : (forall x, len32 (sha x)) -> blen l = 8192 -> blen l' = 8192 -> Forall len32 l -> Forall len32 l' -> len32 leaf -> i < 8192 ->
  verify_merkle_proof sha leaf (build_merkle_proof sha l i) 13 (8192 + i) (merkle_root sha 13 l') = true ->
  (forall j, j <> N.to_nat i -> nth_error l j = nth_error l' j) \/
  exists x y, In x (hashed_by_tree sha 13 (put (N.to_nat i) leaf l)) /\ In y (hashed_by_tree sha 13 l') /\ collision sha x y.
Proof.
  intros Hs L L' F F' Fl Hi V. rewrite <- verify_mod in V. change (2 ^ N.of_nat 13) with 8192 in V. replace ((8192 + i) mod 8192) with i in V by lia.
  unfold verify_merkle_proof in V. apply andb_prop in V as [_ V]. apply beqb_spec in V. unfold build_merkle_proof in V. rewrite (roots_log l L), Nat2N.id in V.
  assert (P : N.to_nat (2 ^ N.of_nat 13) = (2 ^ 13)%nat) by (rewrite pow2_N; apply Nat2N.id). rewrite P in V. assert (P' : N.of_nat (2 ^ 13) = 8192) by (rewrite <- pow2_N; reflexivity).
  assert (Ll : length l = (2 ^ 13)%nat) by (unfold blen in L; lia). assert (Ll' : length l' = (2 ^ 13)%nat) by (unfold blen in L'; lia).
  rewrite firstn_app, Ll, Nat.sub_diag, firstn_O, app_nil_r, firstn_all2 in V by (rewrite Ll; apply le_n).
  rewrite (proj1 (proof_put 13 l i leaf Ll)) in V. change (2 ^ N.of_nat 13) with 8192 in V. rewrite N.mod_small in V by exact Hi.
  assert (Li : (N.to_nat i < length l)%nat) by lia.
  apply root_inj in V as [V|V]; [|right; exact V|exact Hs|rewrite put_length; assumption|exact Ll'| |exact F'].
  - left. intros j Hj. rewrite <- V, put_nth by exact Li. apply Nat.eqb_neq in Hj. rewrite Hj. reflexivity.
  - unfold put. apply Forall_app. split; [apply firstn_forall; exact F|]. constructor; [exact Fl|apply skipn_forall; exact F].
Qed.
End Tree.

(** ** The file is sound. *)
Section Sound.
Context {tx rct wdl wd : Type}.
Context (HC : codec full_header) (HL : codec (list full_header)) (TC : codec tx) (RC : codec rct) (WC : codec wdl).
Context (keccak : bytes -> bytes) (trie_root : list bytes -> bytes) (sha : bytes -> bytes) (fk : forks).
Context (rest : el_header -> bytes) (to_wd : wd -> wdl) (decode_tx : bytes -> outcome tx) (requests_root : list bytes -> bytes).
Context (bloom_root extra_root : bytes -> bytes) (txs_root : list bytes -> bytes) (wds_root : list wd -> bytes) (requests_tree : el_requests -> bytes).
Context (debug : bool) (pre_merge_roots roots_acc : list bytes).
Notation blocks := (head_blocks HC HL TC RC WC keccak trie_root sha fk rest to_wd decode_tx requests_root bloom_root extra_root txs_root wds_root requests_tree pre_merge_roots roots_acc).
Notation head_block := (head_block HC HL TC WC keccak trie_root sha rest to_wd decode_tx requests_root bloom_root extra_root txs_root wds_root requests_tree).
Notation update := (update_anchors pre_merge_roots roots_acc).

Lemma head_parts (sv : servers rct wd) an n b x : head_block sv an n b = Ok x ->
  number (fst (u_header x)) = n /\ same_withdrawals WC trie_root (u_body x) (fst (u_header x)) /\ p_block_number (b_payload b) = n /\
  snd (u_header x) = proof_for sha bloom_root extra_root txs_root wds_root requests_tree Electra b (an_block_roots an) (an_state_roots an).
Proof.
  unfold HeadGen_Model.head_block. destruct (N.eqb_spec (p_block_number (b_payload b)) n) as [E|]; [|discriminate]. cbn [negb]. intros H. apply obind_ok in H as ([[h p] bo] & B & H).
  destruct (el_receipts sv n) as [r| |]; try discriminate. injection H as <-. cbn [u_header u_body fst snd].
  unfold build_block, omap in B. destruct (build _ _ _ _ _ _ _ _ _ _ _ _ _ _ Electra b _ _) as [[[h' p'] bo']| |] eqn:Bd; try discriminate. cbn [fst snd] in B. injection B as <- <- <-.
  apply C100_block in Bd as (txs & _ & D & _ & (_ & _ & B3) & Ep). cbn [lower number]. rewrite (d_number _ _ _ _ _ _ _ _ _ _ D). split; [exact E|]. split; [|split; [exact E|exact Ep]].
  unfold same_withdrawals. cbn [lower withdrawals_root]. rewrite (d_withdrawals _ _ _ _ _ _ _ _ _ _ D), B3. cbn. rewrite map_map. reflexivity.
Qed.
Lemma block_valid v source x v' n : validate_block HC HL TC RC WC keccak trie_root sha fk v source x = (v', Ok tt) -> number (fst (u_header x)) = n -> same_withdrawals WC trie_root (u_body x) (fst (u_header x)) ->
  consistent HL TC RC WC keccak trie_root fk n x /\ validate_header_with_proof sha fk v source (view HC keccak (fst (u_header x))) (snd (u_header x)) = (v', Ok tt).
Proof.
  unfold validate_block. destruct (validate_header_with_proof _ _ _ _ _ _) as [v2 r]. intros H Hn Hw. injection H as <- H. apply obind_ok in H as ([] & -> & H). split; [|reflexivity].
  destruct (validate_against_header _ _ _ _ _ _ _) eqn:A; [|discriminate]. cbn [negb] in H. destruct (beqb _ _) eqn:R; [|discriminate]. apply beqb_spec in R.
  unfold validate_against_header in A. destruct (beqb (keccak _) _) eqn:A1; [|discriminate]. cbn [negb] in A. destruct (beqb (trie_root (map (enc TC) _)) _) eqn:A2; [|discriminate]. cbn [negb] in A. apply beqb_spec in A1, A2.
  constructor; [exact Hn|exact (eq_sym A1)|exact (eq_sym A2)|left; exact Hw|exact R].
Qed.
Lemma state_served (sv : servers rct wd) : forall fuel slot tries st, state_from sv fuel slot tries = Some (Ok st) -> cl_state sv (st_slot st) = Ok st /\ slot <= st_slot st.
Proof.
  induction fuel as [|fuel IH]; intros slot tries st H; [discriminate|]. cbn [state_from] in H. destruct (cl_state sv slot) as [s| |] eqn:E.
  - destruct (st_slot s <? slot); [apply IH in H as [H1 H2]; split; [exact H1|lia]|]. destruct (N.eqb_spec (st_slot s) slot) as [Es|]; [|discriminate]. injection H as <-. rewrite Es. split; [exact E|lia].
  - destruct (_ <=? 5); [apply IH in H as [H1 H2]; split; [exact H1|lia]|discriminate].
  - destruct (_ <=? 5); [apply IH in H as [H1 H2]; split; [exact H1|lia]|discriminate].
Qed.
Definition sound_anchors (c : chain) (an : anchors) : Prop := reach sha fk c (an_validator an) /\ honest sha c (Some (an_summaries an)).
Definition sound_states (c : chain) (sv : servers rct wd) : Prop := forall s st, cl_state sv s = Ok st -> honest sha c (Some (st_summaries st)).
Lemma update_sound c (sv : servers rct wd) fuel an slot an' : update sv fuel an slot = Some (Ok an') -> pre_merge_roots = map (epoch_root sha) (epochs c) -> roots_acc = map (batch_root sha) (batches c) ->
  sound_states c sv -> sound_anchors c an -> sound_anchors c an'.
Proof.
  unfold update_anchors. destruct (historical_summary_index slot) as [i|]; [|discriminate]. destruct (i =? an_index an); [intros [= <-]; auto|].
  destruct (state_for_next_period sv fuel slot) as [r|] eqn:S; [|discriminate]. intros H Ea Eb Ss _. injection H as H. destruct r as [st| |]; try discriminate. injection H as <-. apply state_served in S as [S _].
  split; cbn [an_validator an_summaries]; [unfold new_validator; rewrite Ea, Eb; constructor|exact (Ss _ _ S)].
Qed.
Lemma blocks_sound (sv : servers rct wd) fuel : forall count n slot an l slot' an', blocks sv fuel count n slot an = Some (Ok (l, slot', an')) ->
  length l = count /\ (forall i t, nth_error l i = Some t -> consistent HL TC RC WC keccak trie_root fk (n + N.of_nat i) t) /\
  ((forall x, len32 (sha x)) -> (forall x, len32 (keccak x)) -> forall c, chain_ok c -> pre_merge_roots = map (epoch_root sha) (epochs c) -> roots_acc = map (batch_root sha) (batches c) ->
     sound_states c sv -> sound_anchors c an -> Forall (in_chain HC keccak sha fk c) l /\ sound_anchors c an').
Proof.
  induction count as [|count IH]; intros n slot an l slot' an' H; cbn [head_blocks] in H.
  - injection H as <- _ <-. split; [reflexivity|]. split; [intros [|i] t; discriminate|]. intros. split; [constructor|assumption].
  - destruct (find_first_beacon_block sv slot) as [b| |]; try discriminate. destruct (update sv fuel an (b_slot b)) as [[an1| |]|] eqn:U; try discriminate.
    destruct (head_block sv an1 n b) as [x| |] eqn:B; try discriminate. destruct (validate_block _ _ _ _ _ _ _ _ _ _ _ _) as [v r] eqn:V. destruct r as [[]| |]; try discriminate.
    destruct (blocks sv fuel count _ _ _) as [[[[l1 s1] an2]| |]|] eqn:R; try discriminate. injection H as <- <- <-.
    apply head_parts in B as (B1 & B2 & _). destruct (block_valid _ _ _ _ n V B1 B2) as [Cx Vx]. destruct (IH _ _ _ _ _ _ R) as (L & Cs & Ch). split; [cbn; lia|]. split.
    + intros [|i] t Ht; [injection Ht as <-; rewrite N.add_0_r; exact Cx|]. replace (n + N.of_nat (S i)) with (n + 1 + N.of_nat i) by lia. exact (Cs i t Ht).
    + intros S1 S2 c Ck Ea Eb Ss Sa. destruct (update_sound c _ _ _ _ _ U Ea Eb Ss Sa) as [Re Ho]. destruct (Ch S1 S2 c Ck Ea Eb Ss) as [F Fin].
      * split; cbn [an_validator an_summaries]; [|exact Ho]. replace v with (fst (validate_header_with_proof sha fk (an_validator an1) (Some (an_summaries an1)) (view HC keccak (fst (u_header x))) (snd (u_header x)))) by (rewrite Vx; reflexivity). apply R_validate; assumption.
      * split; [|exact Fin]. constructor; [|exact F]. intros P. exact (proof_backed HC keccak sha fk S1 S2 c _ _ (fst (u_header x)) (snd (u_header x)) v Ck Re Ho P Vx).
Qed.
End Sound.
