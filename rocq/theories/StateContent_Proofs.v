From Verif Require Import Base Ssz_Model Ssz_Proofs Keys_Model Keys_Spec Keys_Proofs Keys_Props Distance_Model
  Store_Model Store_Spec Store_Props Trie_Model StateContent_Model StateContent_Spec.

Lemma enc_v x : encode_container [PVar x] = le_bytes 4 4 ++ x.
Proof. unfold encode_container. cbn [heads tails heads_len part_head_len]. rewrite !app_nil_r. reflexivity. Qed.
Lemma enc_vf x h : blen h = 32 -> encode_container [PVar x; PFix h] = le_bytes 4 36 ++ h ++ x.
Proof. intros L. unfold encode_container. cbn [heads tails heads_len part_head_len]. rewrite L, !app_nil_r, <- app_assoc. reflexivity. Qed.
Lemma enc_vvf x y h : blen h = 32 -> encode_container [PVar x; PVar y; PFix h] = le_bytes 4 40 ++ le_bytes 4 (40 + blen x) ++ h ++ x ++ y.
Proof. intros L. unfold encode_container. cbn [heads tails heads_len part_head_len]. rewrite L, !app_nil_r, <- !app_assoc. reflexivity. Qed.

Lemma proof_enc p : proof_ok p -> decode_proof (encode_var_list p) = Ok p /\ bytes_ok (encode_var_list p) /\ blen (encode_var_list p) <= 66820.
Proof.
  intros [L F].
  assert (B : blen (encode_var_list p) <= 66820).
  { rewrite encode_var_list_len. assert (C : blen (concat p) <= 1024 * blen p).
    { clear L. induction F as [|x p [H _] F IH]; cbn [concat]; [rewrite blen_nil; lia|]. rewrite blen_app, blen_cons. lia. }
    lia. }
  split; [|split; [|exact B]].
  - unfold decode_proof. rewrite decode_encode_var_list; [|lia|exact L]. cbn [obind]. clear L B. induction F as [|x p [H _] F IH]; [reflexivity|].
    cbn [map all_ok]. unfold decode_bytelist at 1. replace (1024 <? blen x) with false by lia. cbn [obind]. rewrite IH. reflexivity.
  - unfold encode_var_list, encode_container. apply bytes_ok_app. split.
    + generalize (heads_len (map PVar p)). clear. induction p as [|x p IH]; intros n; cbn [map heads]; [constructor|]. apply bytes_ok_app. split; [apply le_bytes_ok|apply IH].
    + rewrite tails_var. clear - F. induction F as [|x p [_ H] F IH]; cbn [concat]; [constructor|]. apply bytes_ok_app. auto.
Qed.
Lemma all_ok_inv {A B} (f : A -> outcome B) l r : all_ok (map f l) = Ok r -> Forall2 (fun x y => f x = Ok y) l r.
Proof.
  revert r. induction l as [|x l IH]; intros r H; cbn [map all_ok] in H; [injection H as <-; constructor|].
  destruct (f x) as [y| |] eqn:E; try discriminate. cbn [obind] in H. destruct (all_ok (map f l)) as [q| |]; try discriminate.
  injection H as <-. constructor; auto.
Qed.
Lemma var_list_items_ok p : bytes_ok (encode_var_list p) -> Forall bytes_ok p.
Proof.
  unfold encode_var_list, encode_container. intros H. apply bytes_ok_app in H as [_ H]. rewrite tails_var in H.
  induction p as [|x p IH]; [constructor|]. cbn [concat] in H. apply bytes_ok_app in H as [A B]. constructor; auto.
Qed.
Lemma proof_dec b p : bytes_ok b -> decode_proof b = Ok p -> proof_ok p /\ encode_var_list p = b.
Proof.
  intros Hb H. unfold decode_proof in H. destruct (decode_var_list (Some 65) b) as [l| |] eqn:D; try discriminate. cbn [obind] in H.
  apply decode_var_list_canonical in D as [E L]; [|exact Hb]. apply all_ok_inv in H.
  assert (l = p /\ Forall (fun x => blen x <= 1024) p) as [-> S].
  { clear - H. induction H as [|x y l p D F [-> S]]; [split; constructor|]. unfold decode_bytelist in D. destruct (1024 <? blen x) eqn:C; [discriminate|].
    injection D as ->. split; [reflexivity|]. constructor; [lia|exact S]. }
  split; [|exact E]. split; [exact L|]. rewrite <- E in Hb. apply var_list_items_ok in Hb. clear - S Hb.
  induction S; inversion Hb; subst; constructor; [split|]; auto.
Qed.
Lemma proof_no_panic b : decode_proof b <> Panic.
Proof.
  unfold decode_proof. pose proof (decode_var_list_no_panic (Some 65) b) as N. destruct (decode_var_list (Some 65) b) as [l| |]; cbn [obind]; [|discriminate|congruence].
  clear N. induction l as [|x l IH]; cbn [map all_ok]; [discriminate|]. unfold decode_bytelist at 1. destruct (_ <? _); cbn [obind]; [discriminate|].
  destruct (all_ok (map (decode_bytelist 1024) l)); cbn [obind]; congruence.
Qed.

(** The five forms. *)
Lemma trie_node_enc n : node_ok n -> decode_trie_node (state_encode (TrieNode n)) = Ok (TrieNode n).
Proof.
  intros [L _]. unfold decode_trie_node. cbn [state_encode]. change (PVar n) with (part_of None n).
  rewrite container1_ok; [|exact I|].
  - cbn [obind]. unfold decode_bytelist. replace (1024 <? blen n) with false by lia. reflexivity.
  - change (part_of None n) with (PVar n). rewrite enc_v, blen_app. change (blen (le_bytes 4 4)) with 4. lia.
Qed.
Lemma bytecode_enc c : code_ok c -> decode_bytecode (state_encode (Bytecode c)) = Ok (Bytecode c).
Proof.
  intros [L _]. unfold decode_bytecode. cbn [state_encode]. change (PVar c) with (part_of None c).
  rewrite container1_ok; [|exact I|].
  - cbn [obind]. unfold decode_bytelist. replace (32768 <? blen c) with false by lia. reflexivity.
  - change (part_of None c) with (PVar c). rewrite enc_v, blen_app. change (blen (le_bytes 4 4)) with 4. lia.
Qed.
Lemma account_enc p h : decode_proof (encode_var_list p) = Ok p -> blen (encode_var_list p) <= 66820 -> blen h = 32 ->
  decode_account_proof (state_encode (AccountTrieNodeWithProof p h)) = Ok (AccountTrieNodeWithProof p h).
Proof.
  intros D L Lh. unfold decode_account_proof. cbn [state_encode].
  change [PVar (encode_var_list p); PFix h] with [part_of None (encode_var_list p); part_of (Some 32) h].
  rewrite container2_ok; [|exact I|exact Lh|].
  - cbn [obind fst snd]. rewrite D. reflexivity.
  - cbn [part_of]. rewrite enc_vf by exact Lh. rewrite !blen_app, Lh. change (blen (le_bytes 4 36)) with 4. lia.
Qed.
Lemma storage_enc p a h : decode_proof (encode_var_list p) = Ok p -> blen (encode_var_list p) <= 66820 ->
  decode_proof (encode_var_list a) = Ok a -> blen (encode_var_list a) <= 66820 -> blen h = 32 ->
  decode_storage_proof (state_encode (ContractStorageTrieNodeWithProof p a h)) = Ok (ContractStorageTrieNodeWithProof p a h).
Proof.
  intros D L Da La Lh. unfold decode_storage_proof. cbn [state_encode].
  change [PVar (encode_var_list p); PVar (encode_var_list a); PFix h] with [part_of None (encode_var_list p); part_of None (encode_var_list a); part_of (Some 32) h].
  rewrite container3_ok; [|exact I|exact I|exact Lh|].
  - cbn [obind fst snd]. rewrite D. cbn [obind]. rewrite Da. reflexivity.
  - cbn [part_of]. rewrite enc_vvf by exact Lh. rewrite !blen_app, Lh. unfold blen at 1 2. rewrite !le_bytes_length. lia.
Qed.
Lemma bytecode_proof_enc c a h : blen c <= 32768 ->
  decode_proof (encode_var_list a) = Ok a -> blen (encode_var_list a) <= 66820 -> blen h = 32 ->
  decode_bytecode_proof (state_encode (BytecodeWithProof c a h)) = Ok (BytecodeWithProof c a h).
Proof.
  intros L Da La Lh. unfold decode_bytecode_proof. cbn [state_encode].
  change [PVar c; PVar (encode_var_list a); PFix h] with [part_of None c; part_of None (encode_var_list a); part_of (Some 32) h].
  rewrite container3_ok; [|exact I|exact I|exact Lh|].
  - cbn [obind fst snd]. unfold decode_bytelist. replace (32768 <? blen c) with false by lia. cbn [obind]. rewrite Da. reflexivity.
  - cbn [part_of]. rewrite enc_vvf by exact Lh. rewrite !blen_app, Lh. unfold blen at 1 2. rewrite !le_bytes_length. lia.
Qed.

Lemma bytelist_inv n b x : decode_bytelist n b = Ok x -> x = b /\ blen b <= n.
Proof. unfold decode_bytelist. destruct (n <? blen b) eqn:E; [discriminate|]. intros [= ->]. split; [reflexivity|lia]. Qed.

Lemma trie_node_dec b v : bytes_ok b -> decode_trie_node b = Ok v -> exists n, v = TrieNode n /\ node_ok n /\ state_encode v = b.
Proof.
  intros Hb H. unfold decode_trie_node in H. apply obind_ok in H as (x & H & D). apply omap_ok in D as (n & D & <-).
  apply bytelist_inv in D as [-> L]. apply container1_inv in H as [_ E]; [|exact Hb]. cbn [part_of] in E.
  exists x. split; [reflexivity|]. split; [|exact E]. split; [exact L|]. rewrite <- E, enc_v in Hb. apply bytes_ok_app in Hb. apply Hb.
Qed.
Lemma bytecode_dec b v : bytes_ok b -> decode_bytecode b = Ok v -> exists n, v = Bytecode n /\ code_ok n /\ state_encode v = b.
Proof.
  intros Hb H. unfold decode_bytecode in H. apply obind_ok in H as (x & H & D). apply omap_ok in D as (n & D & <-).
  apply bytelist_inv in D as [-> L]. apply container1_inv in H as [_ E]; [|exact Hb]. cbn [part_of] in E.
  exists x. split; [reflexivity|]. split; [|exact E]. split; [exact L|]. rewrite <- E, enc_v in Hb. apply bytes_ok_app in Hb. apply Hb.
Qed.
Lemma hash32_blen h : blen h = 32 -> bytes_ok h -> hash32 h.
Proof. intros L B. split; [unfold blen in L; lia|exact B]. Qed.
Lemma account_dec b v : bytes_ok b -> decode_account_proof b = Ok v ->
  exists p h, v = AccountTrieNodeWithProof p h /\ proof_ok p /\ hash32 h /\ state_encode v = b.
Proof.
  intros Hb H. unfold decode_account_proof in H. apply obind_ok in H as ([x h] & H & D). cbn [fst snd] in D. apply obind_ok in D as (p & D & V).
  injection V as <-. apply container2_inv in H as (_ & Lh & E); [|exact Hb]. cbn [part_of] in E. cbn [Keys_Proofs.fits] in Lh.
  pose proof Hb as Hb'. rewrite <- E, enc_vf in Hb' by exact Lh. apply bytes_ok_app in Hb' as [_ Hb']. apply bytes_ok_app in Hb' as [Bh Bx].
  apply proof_dec in D as [P Ep]; [|exact Bx]. exists p, h. cbn [state_encode]. rewrite Ep. auto 10 using hash32_blen.
Qed.
Lemma storage_dec b v : bytes_ok b -> decode_storage_proof b = Ok v ->
  exists s a h, v = ContractStorageTrieNodeWithProof s a h /\ proof_ok s /\ proof_ok a /\ hash32 h /\ state_encode v = b.
Proof.
  intros Hb H. unfold decode_storage_proof in H. apply obind_ok in H as ([[x y] h] & H & D). cbn [fst snd] in D.
  apply obind_ok in D as (p & D & V). apply obind_ok in V as (a & Da & V).
  injection V as <-. apply container3_inv in H as (_ & _ & Lh & E); [|exact Hb]. cbn [part_of] in E. cbn [Keys_Proofs.fits] in Lh.
  pose proof Hb as Hb'. rewrite <- E, enc_vvf in Hb' by exact Lh. rewrite !bytes_ok_app in Hb'. destruct Hb' as (_ & _ & Bh & Bx & By).
  apply proof_dec in D as [P Ep]; [|exact Bx]. apply proof_dec in Da as [Pa Ea]; [|exact By].
  exists p, a, h. cbn [state_encode]. rewrite Ep, Ea. auto 10 using hash32_blen.
Qed.
Lemma bytecode_proof_dec b v : bytes_ok b -> decode_bytecode_proof b = Ok v ->
  exists c a h, v = BytecodeWithProof c a h /\ code_ok c /\ proof_ok a /\ hash32 h /\ state_encode v = b.
Proof.
  intros Hb H. unfold decode_bytecode_proof in H. apply obind_ok in H as ([[x y] h] & H & D). cbn [fst snd] in D.
  apply obind_ok in D as (c & D & V). apply obind_ok in V as (a & Da & V).
  injection V as <-. apply container3_inv in H as (_ & _ & Lh & E); [|exact Hb]. cbn [part_of] in E. cbn [Keys_Proofs.fits] in Lh.
  pose proof Hb as Hb'. rewrite <- E, enc_vvf in Hb' by exact Lh. rewrite !bytes_ok_app in Hb'. destruct Hb' as (_ & _ & Bh & Bx & By).
  apply bytelist_inv in D as [-> L]. apply proof_dec in Da as [Pa Ea]; [|exact By].
  exists x, a, h. cbn [state_encode]. rewrite Ea. assert (code_ok x) by (split; assumption). auto 10 using hash32_blen.
Qed.

(** A bare value is not taken for one with a proof: the first offset differs. *)
Lemma bare_account_no x : bytes_ok x -> decode_account_proof (encode_container [PVar x]) = Err.
Proof.
  intros Bx. destruct (decode_account_proof (encode_container [PVar x])) as [v| |] eqn:D; [|reflexivity|].
  - apply account_dec in D; [|rewrite enc_v; apply bytes_ok_app; split; [apply le_bytes_ok|exact Bx]].
    destruct D as (p & h & -> & _ & Hh & E). cbn [state_encode] in E. rewrite enc_vf, enc_v in E by (apply blen_hash, Hh). discriminate E.
  - exfalso. revert D. unfold decode_account_proof. destruct (container2 None (Some 32) (encode_container [PVar x])) as [[y h]| |] eqn:C; cbn [obind].
    + pose proof (proof_no_panic y). destruct (decode_proof (fst (y, h))) eqn:Q; cbn [fst obind] in *; congruence.
    + discriminate.
    + exfalso. apply (container2_no_panic _ _ _ C).
Qed.
Ltac np3 := repeat match goal with
  | |- obind ?x _ <> Panic => let E := fresh in destruct x eqn:E; cbn [obind]; [|discriminate|exfalso; revert E]
  | |- omap _ ?x <> Panic => let E := fresh in destruct x eqn:E; cbn [omap]; [discriminate|discriminate|exfalso; revert E]
  | |- decode_proof _ = Panic -> False => apply proof_no_panic
  | |- container1 _ _ = Panic -> False => apply container1_no_panic
  | |- container2 _ _ _ = Panic -> False => apply container2_no_panic
  | |- container3 _ _ _ _ = Panic -> False => apply container3_no_panic
  | |- decode_bytelist _ _ = Panic -> False => unfold decode_bytelist; destruct (_ <? _); discriminate
  | |- Ok _ <> Panic => discriminate
  end.
Lemma account_np b : decode_account_proof b <> Panic.
Proof. unfold decode_account_proof. np3. Qed.
Lemma storage_np b : decode_storage_proof b <> Panic.
Proof. unfold decode_storage_proof. np3. Qed.
Lemma bytecode_proof_np b : decode_bytecode_proof b <> Panic.
Proof. unfold decode_bytecode_proof. np3. Qed.
Lemma trie_node_np b : decode_trie_node b <> Panic.
Proof. unfold decode_trie_node. np3. Qed.
Lemma bytecode_np b : decode_bytecode b <> Panic.
Proof. unfold decode_bytecode. np3. Qed.
Lemma bare_bytes x : bytes_ok x -> bytes_ok (encode_container [PVar x]).
Proof. intros B. rewrite enc_v. apply bytes_ok_app. split; [apply le_bytes_ok|exact B]. Qed.
Lemma bare_storage_no x : bytes_ok x -> decode_storage_proof (encode_container [PVar x]) = Err.
Proof.
  intros Bx. pose proof (storage_np (encode_container [PVar x])). destruct (decode_storage_proof (encode_container [PVar x])) as [v| |] eqn:D; [|reflexivity|congruence].
  apply storage_dec in D; [|apply bare_bytes, Bx].
  destruct D as (p & a & h & -> & _ & _ & Hh & E). cbn [state_encode] in E. rewrite enc_vvf, enc_v in E by (apply blen_hash, Hh). discriminate E.
Qed.
Lemma bare_bytecode_no x : bytes_ok x -> decode_bytecode_proof (encode_container [PVar x]) = Err.
Proof.
  intros Bx. pose proof (bytecode_proof_np (encode_container [PVar x])). destruct (decode_bytecode_proof (encode_container [PVar x])) as [v| |] eqn:D; [|reflexivity|congruence].
  apply bytecode_proof_dec in D; [|apply bare_bytes, Bx].
  destruct D as (p & a & h & -> & _ & _ & Hh & E). cbn [state_encode] in E. rewrite enc_vvf, enc_v in E by (apply blen_hash, Hh). discriminate E.
Qed.

Lemma state_round_trip k : unambiguous (state_value_ok k) state_encode (state_decode k).
Proof.
  apply unambiguous_of.
  - intros v V. destruct k as [p h|a p h|a h], v as [n|q g|s q g|c|c q g]; cbn [state_value_ok] in V; try contradiction; cbn [state_decode].
    + split; [apply bare_bytes, V|]. cbn [state_encode]. rewrite (bare_account_no _ (proj2 V)). apply trie_node_enc, V.
    + destruct V as [Q G]. destruct (proof_enc q Q) as (D & B & L). split.
      * cbn [state_encode]. rewrite enc_vf by (apply blen_hash, G). rewrite !bytes_ok_app. repeat split; [apply le_bytes_ok|apply G|exact B].
      * rewrite account_enc by auto using blen_hash. reflexivity.
    + split; [apply bare_bytes, V|]. cbn [state_encode]. rewrite (bare_storage_no _ (proj2 V)). apply trie_node_enc, V.
    + destruct V as (S & Q & G). destruct (proof_enc q Q) as (D & B & L), (proof_enc s S) as (D' & B' & L'). split.
      * cbn [state_encode]. rewrite enc_vvf by (apply blen_hash, G). rewrite !bytes_ok_app. repeat split; auto using le_bytes_ok. apply G.
      * rewrite storage_enc by auto using blen_hash. reflexivity.
    + split; [apply bare_bytes, V|]. cbn [state_encode]. rewrite (bare_bytecode_no _ (proj2 V)). apply bytecode_enc, V.
    + destruct V as (S & Q & G). destruct (proof_enc q Q) as (D & B & L). split.
      * cbn [state_encode]. rewrite enc_vvf by (apply blen_hash, G). rewrite !bytes_ok_app. repeat split; auto using le_bytes_ok; [apply G|apply S].
      * rewrite bytecode_proof_enc by (auto using blen_hash; apply S). reflexivity.
  - intros b v Hb H. destruct k as [p h|a p h|a h]; cbn [state_decode] in H.
    + destruct (decode_account_proof b) as [w| |] eqn:E; cbn [or_else] in H; [| |discriminate].
      * injection H as ->. apply account_dec in E as (q & g & -> & Q & G & E); [|exact Hb]. cbn. auto.
      * apply trie_node_dec in H as (n & -> & V & E'); [|exact Hb]. cbn. auto.
    + destruct (decode_storage_proof b) as [w| |] eqn:E; cbn [or_else] in H; [| |discriminate].
      * injection H as ->. apply storage_dec in E as (s & q & g & -> & S & Q & G & E); [|exact Hb]. cbn. auto.
      * apply trie_node_dec in H as (n & -> & V & E'); [|exact Hb]. cbn. auto.
    + destruct (decode_bytecode_proof b) as [w| |] eqn:E; cbn [or_else] in H; [| |discriminate].
      * injection H as ->. apply bytecode_proof_dec in E as (s & q & g & -> & S & Q & G & E); [|exact Hb]. cbn. auto.
      * apply bytecode_dec in H as (n & -> & V & E'); [|exact Hb]. cbn. auto.
  - intros b. pose proof (account_np b). pose proof (storage_np b). pose proof (bytecode_proof_np b). pose proof (trie_node_np b). pose proof (bytecode_np b).
    destruct k as [p h|a p h|a h]; cbn [state_decode];
      [destruct (decode_account_proof b)|destruct (decode_storage_proof b)|destruct (decode_bytecode_proof b)]; cbn [or_else]; congruence.
Qed.
