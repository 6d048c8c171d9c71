(** C100: execution blocks that are built from beacon blocks. *)
From Verif Require Import Base Keys_Props Ssz_Model Trie_Model StateContent_Proofs Merkle_Spec Header_Model Header_Spec Header_Proofs Header_Props LegacyHistory_Model Builders_Model Builders_Spec.

Lemma all_ok_intro {A B} (f : A -> outcome B) l r : Forall2 (fun x y => f x = Ok y) l r -> all_ok (map f l) = Ok r.
Proof. induction 1 as [|x y l r H _ IH]; [reflexivity|]. cbn. rewrite H, IH. reflexivity. Qed.

Section Build.
Context {tx wdl wd : Type}.
Context (TC : codec tx) (WC : codec wdl) (to_wd : wd -> wdl) (decode_tx : bytes -> outcome tx).
Context (trie_root : list bytes -> bytes) (hash_of : el_header -> bytes) (empty_ommers : bytes) (requests_root : list bytes -> bytes).
Context (sha : bytes -> bytes) (bloom_root extra_root : bytes -> bytes) (txs_root : list bytes -> bytes) (wds_root : list wd -> bytes) (requests_tree : el_requests -> bytes).
Notation describes := (describes TC WC to_wd trie_root empty_ommers requests_root).
Notation tree_of := (tree_of bloom_root extra_root txs_root wds_root requests_tree).
Notation build := (build TC WC to_wd decode_tx trie_root hash_of empty_ommers requests_root sha bloom_root extra_root txs_root wds_root requests_tree).

Definition proof_for (f : fork_name) (b : el_block wd) (br sr : list bytes) : header_proof :=
  match f with
  | Bellatrix => HistoricalRoots (build_historical_roots_proof sha (b_slot b) br sr (tree_of f b))
  | Capella => SummariesCapella (build_historical_summaries_proof sha (b_slot b) br (tree_of f b))
  | _ => SummariesDeneb (build_historical_summaries_proof sha (b_slot b) br (tree_of f b))
  end.

(** The header, body and proof of a beacon block, if its transactions are decoded and the hash of the header is the one
    in the block; otherwise none. *)
Theorem C100_block : forall f b br sr h p body,
  build f b br sr = Ok (h, p, body) <->
  exists txs, decoded decode_tx b txs /\ describes f b txs h /\ p_block_hash (b_payload b) = hash_of h /\ carries to_wd f b txs body /\ p = proof_for f b br sr.
Proof.
  intros f b br sr h p body. unfold Builders_Model.build, decoded. split.
  - intros E. apply obind_ok in E as (txs & Et & E). apply all_ok_inv in Et. exists txs. split; [exact Et|].
    destruct f; apply obind_ok in E as (h' & Eh & [= -> <- <-]); unfold header_bellatrix, header_capella, header_deneb, header_electra, to_u64 in Eh;
      destruct (N.ltb_spec (base_fee_per_gas (b_payload b)) (2 ^ 64)) as [L|]; try discriminate; cbn [obind] in Eh; unfold ensure_hash in Eh;
      match type of Eh with (if beqb ?x ?y then _ else _) = _ => destruct (beqb x y) eqn:Eq; [|discriminate] end; injection Eh as <-; apply beqb_spec in Eq;
      (split; [constructor; cbn; try reflexivity; try (split; [reflexivity|exact L]); unfold calculate_withdrawals_root; rewrite map_map; reflexivity|]);
      (split; [exact Eq|]); split; [split; [|split]; reflexivity|reflexivity|split; [|split]; reflexivity|reflexivity|split; [|split]; reflexivity|reflexivity|split; [|split]; reflexivity|reflexivity].
  - intros (txs & Et & D & Eh & (B1 & B2 & B3) & ->). unfold decode_transactions. rewrite (all_ok_intro _ _ _ Et). cbn [obind].
    destruct body as [bt bo bw]. cbn in B1, B2, B3. subst bt bo bw. destruct D. destruct h. cbn in *. destruct d_fee as [d_fee L]. apply N.ltb_lt in L.
    destruct f; unfold header_bellatrix, header_capella, header_deneb, header_electra, to_u64; rewrite L; cbn [obind]; unfold ensure_hash; cbn in *; subst;
      unfold calculate_transaction_root, calculate_withdrawals_root, Builders_Model.requests_hash; rewrite ?map_map;
      match goal with |- context [beqb ?x ?y] => replace (beqb x y) with true by (symmetry; apply beqb_spec; assumption) end; reflexivity.
Qed.

(** The program stops only if a base fee does not fit. *)
Theorem C100_panic : forall f b br sr, (forall x, decode_tx x <> Panic) -> build f b br sr = Panic -> 2 ^ 64 <= base_fee_per_gas (b_payload b).
Proof.
  intros f b br sr Hd. unfold Builders_Model.build. unfold decode_transactions.
  assert (A : forall l, all_ok (map decode_tx l) <> Panic).
  { induction l as [|x l IH]; cbn; [discriminate|]. pose proof (Hd x). destruct (decode_tx x); [|discriminate|congruence]. cbn. destruct (all_ok (map decode_tx l)); [discriminate|discriminate|congruence]. }
  destruct (all_ok _) as [txs| |] eqn:E; [|discriminate|destruct (A _ E)]. cbn [obind].
  destruct f; unfold header_bellatrix, header_capella, header_deneb, header_electra, to_u64; destruct (N.ltb_spec (base_fee_per_gas (b_payload b)) (2 ^ 64)) as [L|L]; auto; cbn [obind]; unfold ensure_hash; destruct (beqb _ _); discriminate.
Qed.

End Build.

Section Trees.
Context {wd : Type} (bloom_root extra_root : bytes -> bytes) (txs_root : list bytes -> bytes) (wds_root : list wd -> bytes) (requests_tree : el_requests -> bytes).
Notation tree_of := (tree_of bloom_root extra_root txs_root wds_root requests_tree).
Hypothesis roots_len : (forall x, len32 (bloom_root x)) /\ (forall x, len32 (extra_root x)) /\ (forall x, len32 (txs_root x)) /\ (forall x, len32 (wds_root x)) /\ (forall x, len32 (requests_tree x)).
Lemma tree_shaped f b : hashes_ok b -> shaped (depth_of f) (tree_of f b).
Proof.
  intros (H1 & H2 & H3 & H4). destruct roots_len as (R1 & R2 & R3 & R4 & R5).
  repeat match goal with H : Forall len32 (_ :: _) |- _ => inversion H; subst; clear H end.
  assert (L : len32 (fee_recipient (b_payload b) ++ repeat 0 12)) by (unfold len32; rewrite app_length, repeat_length; unfold blen in H2; lia).
  assert (P : Forall len32 (payload_leaves bloom_root extra_root txs_root wds_root f (b_payload b))).
  { unfold payload_leaves. destruct f; rewrite ?app_nil_r; cbn [app]; repeat (constructor; [first [assumption|apply le_bytes_length|apply R1|apply R2|apply R3|apply R4]|]); constructor. }
  unfold shaped. cbn [tree_of bb_fields body_before body_after payload]. split; [reflexivity|]. split; [exact H3|]. split; [destruct f; cbn; lia|]. split; [destruct f; cbn; lia|]. split; [destruct f; cbn; lia|].
  split; [repeat (constructor; [first [assumption|apply le_bytes_length]|]); constructor|]. split; [exact H4|]. split; [|exact P]. destruct f; repeat (constructor; [first [assumption|apply R5]|]); constructor.
Qed.
Lemma hash_leaf f b : execution_hash (tree_of f b) = p_block_hash (b_payload b).
Proof. destruct f; reflexivity. Qed.
(** The trees that the proofs are about are those of the containers of the consensus specification: the payload, the body
    around it and the block around the body have the fields of the fork, in their places, and no others. *)
Theorem C100_trees : forall f b root, hashes_ok b ->
  (forall i, nth_error (payload (tree_of f b)) i = payload_field bloom_root extra_root txs_root wds_root f (b_payload b) i) /\
  (forall i, nth_error (body_before (tree_of f b) ++ [root] ++ body_after (tree_of f b)) i = body_field requests_tree f b root i) /\
  (forall i, nth_error (bb_fields (tree_of f b) ++ [root]) i = block_field b root i).
Proof.
  intros f b root (_ & _ & L & _). split; [|split].
  - intros i. destruct f; do 17 (destruct i as [|i]; [reflexivity|]); destruct i; reflexivity.
  - intros i. cbn [tree_of body_before body_after]. destruct (before b) as [|x0 [|x1 [|x2 [|x3 [|x4 [|x5 [|x6 [|x7 [|x8 [|]]]]]]]]]] eqn:Eb; try discriminate L.
    destruct f; do 13 (destruct i as [|i]; [cbn; rewrite ?Eb; reflexivity|]); cbn; rewrite ?Eb; destruct i; reflexivity.
  - intros i. do 5 (destruct i as [|i]; [reflexivity|]). destruct i; reflexivity.
Qed.
End Trees.

(** What is built from a beacon block of the chain is accepted by the validators of the history network: the header with its
    proof, and the body for the header. *)
Theorem C100_accepted : forall {tx wdl wd : Type} (HC : codec full_header) (HL : codec (list full_header)) (TC : codec tx) (WC : codec wdl) (to_wd : wd -> wdl) decode_tx keccak trie_root rest requests_root
  sha bloom_root extra_root txs_root wds_root requests_tree fk c v source f (b : el_block wd) ba h p body,
  let hash_of := fun h => hash_slow HC keccak (lower rest h) in
  (forall x, len32 (bloom_root x)) /\ (forall x, len32 (extra_root x)) /\ (forall x, len32 (txs_root x)) /\ (forall x, len32 (wds_root x)) /\ (forall x, len32 (requests_tree x)) ->
  hashes_ok b -> chain_ok c -> reach sha fk c v -> honest sha c source -> period c f (b_slot b) ba -> knows sha c f (b_slot b) source ->
  nth_error (block_roots ba) (N.to_nat (b_slot b mod 8192)) = Some (block_tree sha (depth_of f) (tree_of bloom_root extra_root txs_root wds_root requests_tree f b)) ->
  in_fork fk f (p_block_number (b_payload b)) (p_timestamp (b_payload b)) ->
  build TC WC to_wd decode_tx trie_root hash_of (keccak (enc HL [])) requests_root sha bloom_root extra_root txs_root wds_root requests_tree f b (block_roots ba) (state_roots ba) = Ok (h, p, body) ->
  (exists v', validate_header_with_proof sha fk v source (view HC keccak (lower rest h)) p = (v', Ok tt)) /\ typed p /\
  validate_against_header HL TC WC keccak trie_root body (lower rest h) = true.
Proof.
  intros tx wdl wd HC HL TC WC to_wd decode_tx keccak trie_root rest requests_root sha bloom_root extra_root txs_root wds_root requests_tree fk c v source f b ba h p body hash_of RL Hh Ck R Hs Hp Kn Hr Hf E.
  apply C100_block in E as (txs & _ & D & Eh & (B1 & B2 & B3) & ->).
  pose proof (tree_shaped bloom_root extra_root txs_root wds_root requests_tree RL f b Hh) as Sh. pose proof (hash_leaf bloom_root extra_root txs_root wds_root requests_tree f b) as Hl. set (bb := tree_of bloom_root extra_root txs_root wds_root requests_tree f b) in *.
  assert (El : execution_hash bb = h_hash (view HC keccak (lower rest h))) by (rewrite Hl; exact Eh).
  assert (En : h_number (view HC keccak (lower rest h)) = p_block_number (b_payload b)) by apply (d_number _ _ _ _ _ _ _ _ _ _ D).
  assert (Et : h_timestamp (view HC keccak (lower rest h)) = p_timestamp (b_payload b)) by apply (d_timestamp _ _ _ _ _ _ _ _ _ _ D).
  rewrite <- En, <- Et in Hf. split; [|split].
  - destruct f; cbn [proof_for depth_of in_fork period knows] in *.
    + destruct Hf as [F1 F2]. destruct (C64_honest_merge_to_capella sha fk c v source _ _ ba bb Ck R F1 F2 Hp Sh Hr El) as (_ & V). eexists. exact V.
    + destruct Hp as [P1 P2]. destruct (C64_honest_after_capella sha fk c v source _ _ ba bb Ck R Hs P1 P2 Kn El) as [(_ & A) _]; assumption.
    + destruct Hp as [P1 P2]. destruct (C64_honest_after_capella sha fk c v source _ _ ba bb Ck R Hs P1 P2 Kn El) as [_ (_ & A)]; assumption.
    + destruct Hp as [P1 P2]. destruct (C64_honest_after_capella sha fk c v source _ _ ba bb Ck R Hs P1 P2 Kn El) as [_ (_ & A)]; assumption.
  - destruct f; cbn [proof_for depth_of in_fork period knows] in *.
    + destruct Hf as [F1 F2]. destruct (C64_honest_merge_to_capella sha fk c v source _ _ ba bb Ck R F1 F2 Hp Sh Hr El) as (A & _). exact A.
    + destruct Hp as [P1 P2]. destruct (C64_honest_after_capella sha fk c v source _ _ ba bb Ck R Hs P1 P2 Kn El) as [(A & _) _]; assumption.
    + destruct Hp as [P1 P2]. destruct (C64_honest_after_capella sha fk c v source _ _ ba bb Ck R Hs P1 P2 Kn El) as [_ (A & _)]; assumption.
    + destruct Hp as [P1 P2]. destruct (C64_honest_after_capella sha fk c v source _ _ ba bb Ck R Hs P1 P2 Kn El) as [_ (A & _)]; assumption.
  - unfold validate_against_header. cbn [lower ommers_hash transactions_root withdrawals_root]. rewrite B1, B2, B3, (d_ommers _ _ _ _ _ _ _ _ _ _ D), (d_transactions _ _ _ _ _ _ _ _ _ _ D), (d_withdrawals _ _ _ _ _ _ _ _ _ _ D).
    rewrite !(proj2 (beqb_spec _ _) eq_refl). cbn [negb]. destruct (has_withdrawals f); cbn [if_has]; [|reflexivity]. rewrite map_map. apply beqb_spec. reflexivity.
Qed.

(** ** An example: a block of Electra with a transaction and a withdrawal.  It is built, and what is built is accepted. *)
From Verif Require Import LegacyHistory_Props.
Module Toy.
Definition decode_tx (b : bytes) : outcome N := match b with [n] => Ok n | _ => Err end.
Definition rest (h : el_header) : bytes := e_parent_hash h ++ e_extra_data h.
Definition empty : bytes := toy_keccak (enc (listc toyHC) []).
Definition hash_of (h : el_header) : bytes := hash_slow toyHC toy_keccak (lower rest h).
Definition pay (hash : bytes) : el_payload N := {|
  parent_hash := repeat 1 32; fee_recipient := repeat 2 20; state_root := repeat 3 32; p_receipts_root := repeat 4 32; logs_bloom := repeat 0 256; prev_randao := repeat 5 32;
  p_block_number := 9; gas_limit := 1000; gas_used := 100; p_timestamp := 250; extra_data := [7]; base_fee_per_gas := 8; p_block_hash := hash;
  p_transactions := [[4]]; p_withdrawals := [6]; blob_gas_used := 1; excess_blob_gas := 2 |}.
Definition hd : el_header := {|
  e_parent_hash := repeat 1 32; e_ommers_hash := empty; e_beneficiary := repeat 2 20; e_state_root := repeat 3 32; e_transactions_root := toy_root [enc Nc 4];
  e_receipts_root := repeat 4 32; e_logs_bloom := repeat 0 256; e_difficulty := 0; e_number := 9; e_gas_limit := 1000; e_gas_used := 100; e_timestamp := 250;
  e_extra_data := [7]; e_mix_hash := repeat 5 32; e_nonce := repeat 0 8; e_base_fee_per_gas := Some 8; e_withdrawals_root := Some (toy_root [enc Nc 7]);
  e_blob_gas_used := Some 1; e_excess_blob_gas := Some 2; e_parent_beacon_block_root := Some (repeat 8 32); e_requests_hash := Some (toy_root [[0; 1]; [1]; [2; 5]]) |}.
Definition bl : el_block N := {|
  b_slot := 7000000; proposer_index := 3; parent_root := repeat 8 32; b_state_root := repeat 9 32; before := repeat (repeat 2 32) 9; b_payload := pay (hash_of hd);
  changes := repeat 3 32; commitments := repeat 6 32; requests := {| deposits := [1]; withdrawal_requests := []; consolidations := [5] |} |}.
Definition root1 (b : bytes) : bytes := toy_keccak b.
Definition rootq (r : el_requests) : bytes := toy_keccak (deposits r ++ withdrawal_requests r ++ consolidations r).
Notation tree := (tree_of root1 root1 toy_root root1 rootq Electra bl).
Definition root := block_tree Header_Props.toy_sha 5 tree.
Definition ba : batch := {| block_roots := repeat root (N.to_nat 8192); state_roots := repeat (repeat 9 32) (N.to_nat 8192) |}.
Definition ch : chain := {| epochs := []; batches := []; later_batches := repeat ba 97 |}.
Definition src := Some (map (batch_summary Header_Props.toy_sha) (later_batches ch)).
Definition made := build Nc Nc (fun w => w + 1) decode_tx toy_root hash_of empty toy_root Header_Props.toy_sha root1 root1 toy_root root1 rootq Electra bl (block_roots ba) (state_roots ba).
Lemma len_keccak b : len32 (toy_keccak b). Proof. reflexivity. Qed.
Lemma len_root b : len32 (toy_root b). Proof. reflexivity. Qed.
Lemma fine : hashes_ok bl.
Proof.
  split; [repeat (constructor; [first [reflexivity|apply len_keccak]|]); constructor|]. split; [reflexivity|]. split; [reflexivity|]. apply Forall_forall. intros x I. apply repeat_spec in I as ->. reflexivity.
Qed.
Lemma chain_fine : chain_ok ch.
Proof.
  assert (L : len32 root) by (unfold len32, root, block_tree; cbn [merkle_root]; apply le_bytes_length).
  assert (G : forall n x, len32 x -> Forall len32 (repeat x n)) by (intros n x H; apply Forall_forall; intros y Hy; apply repeat_spec in Hy; subst y; exact H).
  split; [constructor|]. split; [constructor|]. apply Forall_forall. intros x I. apply repeat_spec in I as ->.
  split; [unfold blen, ba; cbn [block_roots]; rewrite repeat_length; apply N2Nat.id|].
  split; [apply G; exact L|]. split; [unfold blen, ba; cbn [state_roots]; rewrite repeat_length; apply N2Nat.id|]. apply G. reflexivity.
Qed.
Definition bd : @block_body N N := {| transactions := [4]; ommers := []; withdrawals := Some [7] |}.
Notation prf := (proof_for Header_Props.toy_sha root1 root1 toy_root root1 rootq Electra bl (block_roots ba) (state_roots ba)).
Lemma is_made : made = Ok (hd, prf, bd).
Proof.
  unfold made. apply C100_block. exists [4]. split; [repeat constructor|]. split; [constructor; try reflexivity; split; reflexivity|]. split; [reflexivity|]. split; [|reflexivity]. split; [|split]; reflexivity.
Qed.
End Toy.
Example C100_example : exists p,
  Toy.made = Ok (Toy.hd, p, Toy.bd) /\
  validate_against_header (listc toyHC) Nc Nc toy_keccak toy_root Toy.bd (lower Toy.rest Toy.hd) = true /\
  exists v', validate_header_with_proof Header_Props.toy_sha Header_Props.toy_forks (fresh Header_Props.toy_sha Toy.ch) Toy.src (view toyHC toy_keccak (lower Toy.rest Toy.hd)) p = (v', Ok tt).
Proof.
  eexists. split; [exact Toy.is_made|].
  assert (Kn : exists k, (N.to_nat ((7000000 - 194048 * 32) / 8192) < k)%nat /\ Toy.src = Some (firstn k (map (batch_summary Header_Props.toy_sha) (later_batches Toy.ch)))).
  { exists 97%nat. split; [vm_compute; lia|]. unfold Toy.src. rewrite firstn_all2; [reflexivity|]. rewrite map_length. unfold Toy.ch. cbn [later_batches]. rewrite repeat_length. apply le_n. }
  pose proof (C100_accepted toyHC (listc toyHC) Nc Nc (fun w => w + 1) Toy.decode_tx toy_keccak toy_root Toy.rest toy_root Header_Props.toy_sha Toy.root1 Toy.root1 toy_root Toy.root1 Toy.rootq
    Header_Props.toy_forks Toy.ch (fresh Header_Props.toy_sha Toy.ch) Toy.src Electra Toy.bl Toy.ba Toy.hd
    (proof_for Header_Props.toy_sha Toy.root1 Toy.root1 toy_root Toy.root1 Toy.rootq Electra Toy.bl (block_roots Toy.ba) (state_roots Toy.ba)) Toy.bd) as A. cbv zeta in A.
  destruct A as (V & _ & B); [| | | | | | | | |exact Toy.is_made|split; [exact B|exact V]].
  - split; [|split; [|split; [|split]]]; intros; reflexivity.
  - apply Toy.fine.
  - apply Toy.chain_fine.
  - constructor.
  - intros l E. destruct Kn as (k & _ & E2). rewrite E2 in E. injection E as <-. exists k. reflexivity.
  - split; [vm_compute; discriminate|]. unfold Toy.ch. cbn [later_batches]. apply nth_error_repeat. apply Nat.ltb_lt. vm_compute. reflexivity.
  - exact Kn.
  - unfold Toy.ba. cbn [block_roots]. apply nth_error_repeat. assert (b_slot Toy.bl mod 8192 < 8192) by (apply N.mod_lt; discriminate). lia.
  - vm_compute. discriminate.
Qed.
Print Assumptions C100_block.
Print Assumptions C100_panic.
Print Assumptions C100_trees.
Print Assumptions C100_accepted.
