(** Lemmas for EphBridge_Props. *)
From Verif Require Import Base Keys_Props Ssz_Model Trie_Model StateContent_Proofs Merkle_Spec Header_Model Header_Spec Header_Proofs LegacyHistory_Model LegacyHistory_Spec
  Builders_Model Builders_Spec Builders_Props HeadGen_Model EphBridge_Model EphBridge_Spec.

(** ** Maps *)
Section Maps.
Context {rct wd : Type}.
Notation block := (el_block wd).
Lemma get_in r (l : list (bytes * block)) b : get_block r l = Some b -> In (r, b) l.
Proof. induction l as [|[k x] l IH]; cbn; [discriminate|]. destruct (beqb r k) eqn:E; [apply beqb_spec in E; subst k; intros [= ->]; left; reflexivity|intros H; right; apply IH, H]. Qed.
Lemma in_get r (l : list (bytes * block)) b : NoDup (map fst l) -> In (r, b) l -> get_block r l = Some b.
Proof.
  induction l as [|[k x] l IH]; cbn; [intros _ []|]. intros N [E|H]; inversion N as [|? ? N1 N2]; subst.
  - injection E as -> ->. rewrite (proj2 (beqb_spec r r) eq_refl). reflexivity.
  - destruct (beqb r k) eqn:E; [|apply IH; assumption]. apply beqb_spec in E. subst k. destruct N1. apply in_map_iff. exists (r, b). split; [reflexivity|exact H].
Qed.
Lemma get_none r (l : list (bytes * block)) : get_block r l = None <-> ~ In r (map fst l).
Proof.
  induction l as [|[k x] l IH]; cbn; [tauto|]. destruct (beqb r k) eqn:E.
  - apply beqb_spec in E. subst k. split; [discriminate|intros H; destruct H; left; reflexivity].
  - rewrite IH. assert (k <> r) by (intros ->; rewrite (proj2 (beqb_spec r r) eq_refl) in E; discriminate). tauto.
Qed.
Lemma in_drop x r (l : list (bytes * block)) : In x (drop_block r l) <-> In x l /\ fst x <> r.
Proof.
  unfold drop_block. rewrite filter_In. apply and_iff_compat_l. split.
  - intros H E. subst r. rewrite (proj2 (beqb_spec _ _) eq_refl) in H. discriminate.
  - intros H. destruct (beqb r (fst x)) eqn:E; [apply beqb_spec in E; congruence|reflexivity].
Qed.
Lemma filter_nodup {A B} (f : A -> B) p (l : list A) : NoDup (map f l) -> NoDup (map f (filter p l)).
Proof.
  induction l as [|x l IH]; cbn; [auto|]. intros N. inversion N as [|? ? N1 N2]; subst. destruct (p x); [|apply IH, N2]. cbn. constructor; [|apply IH, N2].
  intros I. apply N1. apply in_map_iff in I as (y & E & I). apply filter_In in I as [I _]. apply in_map_iff. exists y. split; assumption.
Qed.
Lemma drop_nodup r (l : list (bytes * block)) : NoDup (map fst l) -> NoDup (map fst (drop_block r l)).
Proof. apply filter_nodup. Qed.
Lemma put_nodup r b (l : list (bytes * block)) : NoDup (map fst l) -> NoDup (map fst (put_block r b l)).
Proof. intros N. cbn. constructor; [|apply drop_nodup, N]. intros I. apply in_map_iff in I as ([k x] & E & I). apply in_drop in I as [_ I]. cbn in *. congruence. Qed.

Lemma cached_in n (l : list (N * list rct)) r : cached n l = Some r -> In (n, r) l.
Proof. induction l as [|[k x] l IH]; cbn; [discriminate|]. destruct (N.eqb_spec n k) as [->|]; [intros [= ->]; left; reflexivity|intros H; right; apply IH, H]. Qed.
Lemma in_cached n (l : list (N * list rct)) : In n (map fst l) -> exists r, cached n l = Some r.
Proof. induction l as [|[k x] l IH]; cbn; [intros []|]. destruct (N.eqb_spec n k) as [->|]; [eexists; reflexivity|]. intros [E|H]; [congruence|apply IH, H]. Qed.
Lemma in_use n r (l : list (N * list rct)) x : In x (use n r l) -> x = (n, r) \/ In x l.
Proof. unfold use. intros [<-|H]; [left; reflexivity|right]. apply filter_In in H as [H _]. exact H. Qed.
Lemma in_firstn {A} k (l : list A) x : In x (firstn k l) -> In x l.
Proof. intros H. rewrite <- (firstn_skipn k l). apply in_or_app. left. exact H. Qed.
Lemma in_push n r (l : list (N * list rct)) x : In x (lru_push n r l) -> x = (n, r) \/ In x l.
Proof. intros H. apply in_firstn, in_use in H. exact H. Qed.
End Maps.

(** ** Everything that is kept was served *)
Section Inv.
Context {tx rct wdl wd : Type}.
Context (HC : codec full_header) (HL : codec (list full_header)) (TC : codec tx) (RC : codec rct) (WC : codec wdl).
Context (keccak : bytes -> bytes) (trie_root : list bytes -> bytes) (sha : bytes -> bytes).
Context (rest : el_header -> bytes) (to_wd : wd -> wdl) (decode_tx : bytes -> outcome tx) (requests_root : list bytes -> bytes).
Context (bloom_root extra_root : bytes -> bytes) (txs_root : list bytes -> bytes) (wds_root : list wd -> bytes) (requests_tree : el_requests -> bytes) (debug : bool).
Notation block := (el_block wd).
Notation item := (el_header * @block_body tx wdl * list rct)%type.
Notation step := (step HC HL TC WC keccak trie_root sha rest to_wd decode_tx requests_root bloom_root extra_root txs_root wds_root requests_tree debug).
Notation after := (after HC HL TC WC keccak trie_root sha rest to_wd decode_tx requests_root bloom_root extra_root txs_root wds_root requests_tree debug).
Notation append_next := (append_next HC HL TC WC keccak trie_root sha rest to_wd decode_tx requests_root bloom_root extra_root txs_root wds_root requests_tree).
Notation append_many := (append_many HC HL TC WC keccak trie_root sha rest to_wd decode_tx requests_root bloom_root extra_root txs_root wds_root requests_tree).
Notation push_parent := (push_parent HC HL TC WC keccak trie_root sha rest to_wd decode_tx requests_root bloom_root extra_root txs_root wds_root requests_tree).
Notation process_update := (process_update HC HL TC WC keccak trie_root sha rest to_wd decode_tx requests_root bloom_root extra_root txs_root wds_root requests_tree).
Notation process_finalized := (process_finalized debug).
Notation root_of := (root_of sha bloom_root extra_root txs_root wds_root requests_tree).
Notation the_root := (the_root sha bloom_root extra_root txs_root wds_root requests_tree).
Notation linked := (linked sha bloom_root extra_root txs_root wds_root requests_tree).
Notation is_block := (is_block HC HL TC WC keccak trie_root rest to_wd decode_tx requests_root).
Notation sound := (sound HC HL TC WC keccak trie_root rest to_wd decode_tx requests_root).

Lemma after_app l : forall (s : bridge rct wd) l', after s (l ++ l') = match after s l with Some s => after s l' | None => None end.
Proof. induction l as [|e l IH]; intros s l'; [reflexivity|]. cbn [app EphBridge_Model.after]. destruct (step s e) as [s' [r|]]; [apply IH|reflexivity]. Qed.

(** A property of blocks and one of receipts, for all that is kept *)
Definition kept (P : block -> Prop) (Q : N -> list rct -> Prop) (s : bridge rct wd) : Prop :=
  NoDup (map fst (beacon_blocks s)) /\ (forall r b, In (r, b) (beacon_blocks s) -> P b) /\ (forall n r, In (n, r) (receipts s) -> Q n r).
Lemma download_kept P Q c : (forall q b r, cl_by_root c q = Ok b -> el_receipts c q (p_block_number (b_payload b)) = Ok r -> P b /\ Q (p_block_number (b_payload b)) r) ->
  forall k s root, kept P Q s -> kept P Q (fst (download k c s root)).
Proof.
  intros H. induction k as [|k IH]; intros s root K; [exact K|]. cbn [download].
  assert (G : kept P Q (fst (get_or_download c s root))).
  { unfold get_or_download. destruct (get_block root (beacon_blocks s)); [exact K|]. destruct (cl_by_root c root) as [b| |] eqn:E1; [|exact K|exact K]. destruct (el_receipts c root _) as [r| |] eqn:E2; [|exact K|exact K]. destruct (H _ _ _ E1 E2) as [H1 H2].
    destruct K as (K1 & K2 & K3). cbn [fst]. split; [apply put_nodup, K1|]. split; cbn [beacon_blocks receipts].
    - intros r' b' [I|I]; [injection I as _ <-; exact H1|]. apply in_drop in I as [I _]. exact (K2 _ _ I).
    - intros n r' I. apply in_push in I as [[= -> ->]|I]; [exact H2|exact (K3 _ _ I)]. }
  destruct (get_or_download c s root) as [s' [b| |]]; [apply IH; exact G|exact G|exact G].
Qed.
Lemma append_next_kept P Q (s : bridge rct wd) head l : kept P Q s -> kept P Q (fst (append_next s head l)) /\ beacon_blocks (fst (append_next s head l)) = beacon_blocks s.
Proof.
  intros K. unfold EphBridge_Model.append_next. destruct (next_parent_root head l); [|split; [exact K|reflexivity]|split; [exact K|reflexivity]].
  destruct (get_block a (beacon_blocks s)) as [b|]; [|split; [exact K|reflexivity]]. unfold lru_get. destruct (cached _ (receipts s)) as [r|] eqn:E; [|split; [exact K|reflexivity]]. cbn [fst].
  split; [|reflexivity]. destruct K as (K1 & K2 & K3). split; [exact K1|]. split; [exact K2|]. cbn [receipts]. intros n r' I. apply in_use in I as [[= -> ->]|I]; [apply K3, cached_in, E|exact (K3 _ _ I)].
Qed.
Lemma append_many_kept P Q k : forall s head l, kept P Q s -> kept P Q (fst (append_many k s head l)) /\ beacon_blocks (fst (append_many k s head l)) = beacon_blocks s.
Proof.
  induction k as [|k IH]; intros s head l K; [split; [exact K|reflexivity]|]. cbn [EphBridge_Model.append_many]. destruct (append_next_kept P Q s head l K) as [K1 K2].
  destruct (append_next s head l) as [s' [l'| |]]; cbn [fst] in *; [|split; assumption|split; assumption]. destruct (IH s' head l' K1) as [I1 I2]. split; [exact I1|congruence].
Qed.
Lemma take_sub k : forall first (l : list (bytes * block)) root x, In x (fst (take_back k first l root)) -> In x l.
Proof.
  induction k as [|k IH]; intros first l root x; [auto|]. cbn [take_back]. destruct (get_block root l) as [b|]; [|auto]. destruct (_ =? first).
  - specialize (IH first (drop_block root l) (parent_root b) x). destruct (take_back k first _ _) as [l' r]. cbn [fst] in *. intros H. apply IH, in_drop in H as [H _]. exact H.
  - intros H. apply in_drop in H as [H _]. exact H.
Qed.
Lemma take_nodup k : forall first (l : list (bytes * block)) root, NoDup (map fst l) -> NoDup (map fst (fst (take_back k first l root))).
Proof.
  induction k as [|k IH]; intros first l root N; [exact N|]. cbn [take_back]. destruct (get_block root l) as [b|]; [|exact N]. destruct (_ =? first); [|apply drop_nodup, N].
  specialize (IH first (drop_block root l) (parent_root b) (drop_nodup _ _ N)). destruct (take_back k first _ _) as [l' r]. exact IH.
Qed.
Lemma finalized_sub (s : bridge rct wd) epoch root : receipts (fst (process_finalized s epoch root)) = receipts s /\
  (forall x, In x (beacon_blocks (fst (process_finalized s epoch root))) -> In x (beacon_blocks s)) /\ (NoDup (map fst (beacon_blocks s)) -> NoDup (map fst (beacon_blocks (fst (process_finalized s epoch root))))).
Proof.
  unfold EphBridge_Model.process_finalized. destruct (negb _); [split; [reflexivity|split; auto]|]. destruct (get_block root _) as [b|]; [|split; [reflexivity|split; auto]].
  destruct (obind _ _) as [last| |]; [|split; [reflexivity|split; auto]|split; [reflexivity|split; auto]].
  pose proof (take_sub (S (length (beacon_blocks s))) (first_slot_in_a_period last) (beacon_blocks s) (parent_root b)) as T. pose proof (take_nodup (S (length (beacon_blocks s))) (first_slot_in_a_period last) (beacon_blocks s) (parent_root b)) as T2.
  destruct (take_back _ _ _ _) as [l r]. cbn [fst] in *. destruct r as [bs|]; [|split; [reflexivity|split; auto]].
  destruct l as [|x l]; [split; [reflexivity|split; [intros y []|constructor]]|]. destruct (mul64 debug epoch 32) as [m| |]; [|split; [reflexivity|split; auto]|split; [reflexivity|split; auto]].
  cbn [beacon_blocks receipts fst]. split; [reflexivity|]. split; [intros y I; apply filter_In in I as [I _]; apply T, I|]. intros N. apply filter_nodup, T2, N.
Qed.
Lemma step_kept P Q (s : bridge rct wd) e : (forall c root q b r, e = Head c root -> cl_by_root c q = Ok b -> el_receipts c q (p_block_number (b_payload b)) = Ok r -> P b /\ Q (p_block_number (b_payload b)) r) ->
  kept P Q s -> kept P Q (fst (step s e)).
Proof.
  intros H K. destruct e as [c root|head|epoch root st]; cbn [EphBridge_Model.step].
  - pose proof (download_kept P Q c (fun q b r => H c root q b r eq_refl) total_buffer_count s root K) as D. unfold process_head. destruct (download _ c s root) as [s' r]. exact D.
  - unfold EphBridge_Model.process_update. destruct (beacon_blocks s) as [|x l] eqn:E; [exact K|]. destruct (append_many_kept P Q total_buffer_count s head [] K) as [D _].
    destruct (append_many _ s head []) as [s' r]. exact D.
  - destruct K as (K1 & K2 & K3). destruct (finalized_sub s epoch root) as (F1 & F2 & F3). destruct (process_finalized s epoch root) as [s' r]. cbn [fst] in *. split; [apply F3, K1|]. split.
    + intros r' b I. exact (K2 _ _ (F2 _ I)).
    + rewrite F1. exact K3.
Qed.
Lemma after_kept P Q : forall l, (forall c root q b r, In (Head c root) l -> cl_by_root c q = Ok b -> el_receipts c q (p_block_number (b_payload b)) = Ok r -> P b /\ Q (p_block_number (b_payload b)) r) ->
  forall s s', kept P Q s -> after s l = Some s' -> kept P Q s'.
Proof.
  induction l as [|e l IH]; intros H s s' K E; [injection E as <-; exact K|]. cbn [EphBridge_Model.after] in E.
  pose proof (step_kept P Q s e (fun c root q b r Ee => H c root q b r (or_introl Ee)) K) as Ks.
  destruct (step s e) as [s1 [r|]]; [|discriminate]. apply (IH (fun c root q b r I => H c root q b r (or_intror I)) s1 s' Ks E).
Qed.
Lemma new_kept P Q : kept P Q (@new_bridge rct wd).
Proof. split; [constructor|]. split; [intros r b []|intros n r []]. Qed.

(** ** What is built *)
Hypothesis roots_len : (forall x, len32 (bloom_root x)) /\ (forall x, len32 (extra_root x)) /\ (forall x, len32 (txs_root x)) /\ (forall x, len32 (wds_root x)) /\ (forall x, len32 (requests_tree x)).
Lemma root_is b : hashes_ok b -> root_of b = the_root b.
Proof.
  intros H. pose proof (tree_shaped bloom_root extra_root txs_root wds_root requests_tree roots_len Electra b H) as Sh.
  destruct (execution_proof_ok sha 5 _ 6444 Sh (or_intror eq_refl) eq_refl eq_refl eq_refl) as (Br & _). exact Br.
Qed.
Lemma push_iff head l b (r : list rct) l' : hashes_ok b ->
  push_parent head l b r = Ok l' <-> exists next h body, next_parent_root head l = Ok next /\ the_root b = next /\ is_block b h body /\ l' = l ++ [(h, body, r)].
Proof.
  intros Hb. unfold EphBridge_Model.push_parent. rewrite (root_is b Hb). split.
  - intros E. apply obind_ok in E as (next & En & E). exists next. destruct (beqb next (the_root b)) eqn:Eb; [|discriminate]. apply beqb_spec in Eb. cbn [negb] in E.
    apply obind_ok in E as (txs & Et & E). apply obind_ok in E as (h & Eh & [= <-]). exists h. eexists. split; [exact En|]. split; [symmetry; exact Eb|]. split; [|reflexivity].
    assert (Et' : decode_transactions decode_tx (p_transactions (b_payload b)) = Ok txs) by (destruct (decode_transactions _ _); [exact Et|discriminate|discriminate]). clear Et.
    match type of Eh with expect ?x = _ => assert (Eh' : x = Ok h) by (destruct x; [exact Eh|discriminate|discriminate]) end. clear Eh.
    pose proof (C100_block TC WC to_wd decode_tx trie_root (fun h => hash_slow HC keccak (lower rest h)) (keccak (enc HL [])) requests_root sha bloom_root extra_root txs_root wds_root requests_tree Electra b [] []) as B.
    unfold build in B. rewrite Et' in B. cbn [obind] in B. rewrite Eh' in B. cbn [obind] in B.
    destruct (proj1 (B _ _ _) eq_refl) as (txs' & B1 & B2 & B3 & B4 & _). exists txs'. repeat (split; [assumption|]). exact B4.
  - intros (next & h & bd & En & Er & (txs & D & De & Eh & Ca) & ->). rewrite En. cbn [obind]. subst next. rewrite (proj2 (beqb_spec _ _) eq_refl). cbn [negb].
    pose proof (proj2 (C100_block TC WC to_wd decode_tx trie_root (fun h => hash_slow HC keccak (lower rest h)) (keccak (enc HL [])) requests_root sha bloom_root extra_root txs_root wds_root requests_tree Electra b [] [] h _ bd)
      (ex_intro _ txs (conj D (conj De (conj Eh (conj Ca eq_refl)))))) as B.
    unfold build in B. apply obind_ok in B as (txs' & Et & B). rewrite Et. cbn [expect obind]. apply obind_ok in B as (h' & Eh' & B). rewrite Eh'. cbn [expect obind]. injection B as <- <-. reflexivity.
Qed.
Lemma block_parent b h body : is_block b h body -> e_parent_beacon_block_root h = Some (parent_root b).
Proof. intros (txs & _ & D & _). rewrite (d_beacon_root _ _ _ _ _ _ _ _ _ _ D). reflexivity. Qed.
End Inv.
Lemma in_back i k n : In i (back k n) <-> (exists d, d < n /\ i = k - d)%nat.
Proof. unfold back. rewrite in_map_iff. split; [intros (d & <- & I); apply in_seq in I; exists d; lia|intros (d & L & ->); exists d; split; [reflexivity|apply in_seq; lia]]. Qed.
Lemma back_length k n : length (back k n) = n.
Proof. unfold back. rewrite map_length, seq_length. reflexivity. Qed.
Lemma back_S k n : back k (S n) = k :: back (k - 1) n.
Proof. unfold back. cbn [seq map]. rewrite Nat.sub_0_r, <- seq_shift, map_map. f_equal. apply map_ext. intros a. lia. Qed.
