(** C104: the bridge at the head of the chain. *)
From Verif Require Import Base Keys_Model Keys_Spec Keys_Props Ssz_Model Trie_Model StateContent_Model StateContent_Proofs Merkle_Model Merkle_Spec Merkle_Proofs Header_Model Header_Spec Header_Proofs Header_Props LegacyHistory_Model LegacyHistory_Spec LegacyHistory_Proofs LegacyHistory_Props
  Builders_Model Builders_Spec Builders_Props HeadGen_Model HeadGen_Spec HeadGen_Proofs EphBridge_Model EphBridge_Spec EphBridge_Proofs.

Section Props.
Context {tx rct wdl wd : Type}.
Context (HC : codec full_header) (HL : codec (list full_header)) (TC : codec tx) (RC : codec rct) (WC : codec wdl).
Context (keccak : bytes -> bytes) (trie_root : list bytes -> bytes) (sha : bytes -> bytes).
Context (rest : el_header -> bytes) (to_wd : wd -> wdl) (decode_tx : bytes -> outcome tx) (requests_root : list bytes -> bytes).
Context (bloom_root extra_root : bytes -> bytes) (txs_root : list bytes -> bytes) (wds_root : list wd -> bytes) (requests_tree : el_requests -> bytes) (debug : bool).
Notation block := (el_block wd).
Notation item := (el_header * @block_body tx wdl * list rct)%type.
Notation step := (step HC HL TC WC keccak trie_root sha rest to_wd decode_tx requests_root bloom_root extra_root txs_root wds_root requests_tree debug).
Notation after := (after HC HL TC WC keccak trie_root sha rest to_wd decode_tx requests_root bloom_root extra_root txs_root wds_root requests_tree debug).
Notation append_next := (append_next HC HL TC WC keccak trie_root sha rest to_wd decode_tx requests_root bloom_root extra_root txs_root wds_root requests_tree).
Notation append_many := (append_many HC HL TC WC keccak trie_root sha rest to_wd decode_tx requests_root bloom_root extra_root txs_root wds_root requests_tree).
Notation push_parent := (push_parent HC HL TC WC keccak trie_root sha rest to_wd decode_tx requests_root bloom_root extra_root txs_root wds_root requests_tree).
Notation process_update := (process_update HC HL TC WC keccak trie_root sha rest to_wd decode_tx requests_root bloom_root extra_root txs_root wds_root requests_tree).
Notation process_finalized := (process_finalized debug).
Notation root_of := (root_of sha bloom_root extra_root txs_root wds_root requests_tree).
Notation the_root := (the_root sha bloom_root extra_root txs_root wds_root requests_tree).
Notation linked := (linked sha bloom_root extra_root txs_root wds_root requests_tree).
Notation is_block := (is_block HC HL TC WC keccak trie_root rest to_wd decode_tx requests_root).
Notation sound := (sound HC HL TC WC keccak trie_root rest to_wd decode_tx requests_root).
Notation receipts_of := (receipts_of RC trie_root).
Notation num b := (p_block_number (b_payload b)).
Hypothesis roots_len : (forall x, len32 (bloom_root x)) /\ (forall x, len32 (extra_root x)) /\ (forall x, len32 (txs_root x)) /\ (forall x, len32 (wds_root x)) /\ (forall x, len32 (requests_tree x)).

Definition stored_ok (l : list (event rct wd)) (b : block) : Prop := hashes_ok b /\ exists r, served l b r.
Definition cached_ok (l : list (event rct wd)) (n : N) (r : list rct) : Prop := exists b, num b = n /\ served l b r.
Lemma reach_kept l s : typed_blocks l -> after new_bridge l = Some s -> kept (stored_ok l) (cached_ok l) s.
Proof.
  intros T E. eapply after_kept; [|apply new_kept|exact E]. intros c root q b r I E1 E2. split.
  - split; [exact (T _ _ _ _ I E1)|]. exists r, c, root, q. auto.
  - exists b. split; [reflexivity|]. exists c, root, q. auto.
Qed.
Lemma next_snoc head (l : list item) b h bd r : is_block b h bd -> next_parent_root head (l ++ [(h, bd, r)]) = Ok (parent_root b).
Proof. intros H. unfold next_parent_root. rewrite rev_unit. rewrite (block_parent _ _ _ _ _ _ _ _ _ _ _ _ _ H). reflexivity. Qed.
Lemma next_many (P : block -> Prop) (Q : N -> list rct -> Prop) k : (forall b, P b -> hashes_ok b) -> forall s head (l : list item) root s' l', kept P Q s -> next_parent_root head l = Ok root ->
  append_many k s head l = (s', Ok l') ->
  exists bs items, l' = l ++ items /\ length bs = k /\ linked root bs /\
    Forall2 (fun b it => P b /\ is_block b (fst (fst it)) (snd (fst it)) /\ Q (num b) (snd it)) bs items.
Proof.
  intros HP. induction k as [|k IH]; intros s head l root s' l' K Hn E; cbn [EphBridge_Model.append_many] in E.
  - injection E as _ <-. exists [], []. rewrite app_nil_r. split; [reflexivity|]. split; [reflexivity|]. split; [exact I|constructor].
  - destruct (append_next_kept HC HL TC WC keccak trie_root sha rest to_wd decode_tx requests_root bloom_root extra_root txs_root wds_root requests_tree P Q s head l K) as [K1 _].
    destruct (append_next s head l) as [s1 [l1| |]] eqn:A; [|discriminate|discriminate]. cbn [fst] in K1. unfold EphBridge_Model.append_next in A. rewrite Hn in A.
    destruct (get_block root (beacon_blocks s)) as [b|] eqn:G; [|discriminate]. unfold lru_get in A. destruct (cached (num b) (receipts s)) as [r|] eqn:C; [|discriminate]. apply (f_equal snd) in A. cbn [snd] in A.
    destruct K as (_ & KP & KQ). pose proof (KP _ _ (get_in _ _ _ G)) as Pb. apply push_iff in A as (next & h & bd & A1 & A2 & A3 & ->); [|exact roots_len|apply HP, Pb]. rewrite Hn in A1. injection A1 as <-.
    apply IH with (root := parent_root b) in E as (bs & items & -> & E2 & E3 & E4); [|exact K1|apply next_snoc, A3].
    exists (b :: bs), ((h, bd, r) :: items). rewrite <- app_assoc. split; [reflexivity|]. split; [cbn; congruence|]. split; [split; assumption|]. constructor; [|exact E4]. cbn. split; [exact Pb|]. split; [exact A3|]. apply KQ, cached_in, C.
Qed.
Lemma update_bundle (P : block -> Prop) (Q : N -> list rct -> Prop) s head s' h l : (forall b, P b -> hashes_ok b) -> kept P Q s -> step s (Update head) = (s', Some (GossipBundle h l)) ->
  h = head /\ exists bs, length bs = 13%nat /\ linked head bs /\ Forall2 (fun b it => P b /\ is_block b (fst (fst it)) (snd (fst it)) /\ Q (num b) (snd it)) bs l.
Proof.
  intros HP K E. cbn [EphBridge_Model.step] in E. unfold EphBridge_Model.process_update in E. destruct (beacon_blocks s); [discriminate|].
  destruct (append_many total_buffer_count s head []) as [s1 [l1| |]] eqn:A; cbn [omap] in E; try discriminate. injection E as _ <- <-. split; [reflexivity|].
  apply (next_many P Q) with (root := head) in A as (bs & items & -> & A2 & A3 & A4); [|exact HP|exact K|reflexivity]. exists bs. split; [exact A2|]. split; [exact A3|exact A4].
Qed.

(** *** What is gossiped at the head *)
(** Whatever the clients served: a bundle for an attested header has 13 blocks, from the one with the root of the header backwards;
    their headers and bodies are those of the beacon blocks, and the receipts are some that were served for a block with the same number. *)
Theorem C104_bundle : forall (l : list (event rct wd)) (s : bridge rct wd) root s' h items, typed_blocks l -> after new_bridge l = Some s -> step s (Update root) = (s', Some (GossipBundle h items)) ->
  h = root /\ exists bs, length bs = 13%nat /\ linked root bs /\
    Forall2 (fun b it => is_block b (fst (fst it)) (snd (fst it)) /\ (exists r, served l b r) /\ exists b', num b' = num b /\ served l b' (snd it)) bs items.
Proof.
  intros l s root s' h items T E U. apply (update_bundle (stored_ok l) (cached_ok l)) in U as (-> & bs & L & Li & F); [|intros b [H _]; exact H|apply reach_kept; assumption].
  split; [reflexivity|]. exists bs. split; [exact L|]. split; [exact Li|]. clear - F. induction F as [|b it bs items (F1 & F2 & F3) _ IH]; constructor; [|exact IH]. split; [exact F2|]. split; [apply F1|exact F3].
Qed.
(** Before there is any block an update changes nothing, and neither does a checkpoint that does not end a period; both are no failures. *)
Theorem C104_quiet : forall (s : bridge rct wd) root, ((forall r b, ~ has s r b) -> step s (Update root) = (s, Some Nothing)) /\
  (forall epoch st, epoch mod 256 <> 0 -> step s (Finalized epoch root st) = (s, Some Nothing)).
Proof.
  intros s root. split.
  - intros N. cbn [EphBridge_Model.step]. unfold EphBridge_Model.process_update, has in *. destruct (beacon_blocks s) as [|[r b] l]; [reflexivity|]. destruct (N r b). left. reflexivity.
  - intros epoch st M. cbn [EphBridge_Model.step]. unfold EphBridge_Model.process_finalized. apply N.eqb_neq in M. rewrite M. reflexivity.
Qed.
(** If receipts are only served for their block, and blocks with the same number have the same receipts, all receipts are those of their block. *)
Theorem C104_receipts : forall (l : list (event rct wd)) (s : bridge rct wd) root s' h items, typed_blocks l -> after new_bridge l = Some s -> step s (Update root) = (s', Some (GossipBundle h items)) ->
  (forall b r, served l b r -> receipts_of b r) -> (forall b b' r r', served l b r -> served l b' r' -> num b = num b' -> p_receipts_root (b_payload b) = p_receipts_root (b_payload b')) ->
  Forall (fun it => trie_root (map (enc RC) (snd it)) = e_receipts_root (fst (fst it))) items.
Proof.
  intros l s root s' h items T E U H1 H2. destruct (C104_bundle l s root s' h items T E U) as (_ & bs & _ & _ & F). clear - F H1 H2.
  induction F as [|b it bs items (F1 & (r & F2) & b' & F3 & F4) _ IH]; constructor; [|exact IH]. rewrite (H1 _ _ F4). destruct F1 as (txs & _ & D & _). rewrite (d_receipts _ _ _ _ _ _ _ _ _ _ D).
  exact (eq_sym (H2 _ _ _ _ F2 F4 (eq_sym F3))).
Qed.

(** *** When the bridge stops *)
Lemma push_panic head (l : list item) b (r : list rct) root : hashes_ok b -> next_parent_root head l = Ok root -> push_parent head l b r = Panic -> the_root b = root /\ ~ sound b.
Proof.
  intros Hb Hn E. assert (A : the_root b = root).
  { unfold EphBridge_Model.push_parent in E. rewrite Hn in E. cbn [obind] in E. rewrite (root_is sha bloom_root extra_root txs_root wds_root requests_tree roots_len b Hb) in E. destruct (beqb root (the_root b)) eqn:Eb; [apply beqb_spec in Eb; auto|discriminate]. }
  split; [exact A|]. intros (h & bd & H). assert (X : push_parent head l b r = Ok (l ++ [(h, bd, r)])) by (apply push_iff; [exact roots_len|exact Hb|]; exists root, h, bd; auto). congruence.
Qed.
Lemma many_panic k : forall (s : bridge rct wd) head (l : list item) root, kept (fun b : block => hashes_ok b) (fun _ _ => True) s -> next_parent_root head l = Ok root -> snd (append_many k s head l) = Panic ->
  exists bs b r, linked root (bs ++ [b]) /\ has s r b /\ ~ sound b.
Proof.
  induction k as [|k IH]; intros s head l root K Hn E; [discriminate|]. cbn [EphBridge_Model.append_many] in E.
  destruct (append_next_kept HC HL TC WC keccak trie_root sha rest to_wd decode_tx requests_root bloom_root extra_root txs_root wds_root requests_tree _ _ s head l K) as [K1 K2].
  destruct (append_next s head l) as [s1 o] eqn:A. cbn [fst] in *. unfold EphBridge_Model.append_next in A. rewrite Hn in A. destruct (get_block root (beacon_blocks s)) as [b|] eqn:G; [|injection A as _ <-; discriminate].
  unfold lru_get in A. destruct (cached (num b) (receipts s)) as [r|] eqn:C; [|injection A as _ <-; discriminate]. apply (f_equal snd) in A. cbn [snd] in A. destruct K as (_ & KP & _). pose proof (KP _ _ (get_in _ _ _ G)) as Hb. subst o.
  destruct (push_parent head l b r) as [l1| |] eqn:Pu; [|discriminate|].
  - apply push_iff in Pu as (next & h & bd & A1 & A2 & A3 & ->); [|exact roots_len|exact Hb]. rewrite Hn in A1. injection A1 as <-. destruct (IH s1 head _ (parent_root b) K1 (next_snoc head l b h bd r A3) E) as (bs & b' & r' & X1 & X2 & X3).
    exists (b :: bs), b', r'. split; [split; assumption|]. split; [unfold has in *; rewrite K2 in X2; exact X2|exact X3].
  - destruct (push_panic head l b r root Hb Hn Pu) as [X1 X2]. exists [], b, root. split; [split; [exact X1|exact I]|]. split; [apply get_in, G|exact X2].
Qed.
Lemma head_stops c (s : bridge rct wd) root : (forall q, cl_by_root c q <> Panic) -> (forall q n, el_receipts c q n <> Panic) -> forall k, snd (download k c s root) <> Panic.
Proof.
  intros C1 C2 k. revert s root. induction k as [|k IH]; intros s r; [discriminate|]. cbn [download]. assert (Y : snd (get_or_download c s r) <> Panic).
  { unfold get_or_download. destruct (get_block r _); [discriminate|]. pose proof (C1 r). destruct (cl_by_root c r) as [b| |]; [|discriminate|congruence]. pose proof (C2 r (num b)). destruct (el_receipts c r (num b)); [discriminate|discriminate|congruence]. }
  destruct (get_or_download c s r) as [s1 [b| |]]; [apply IH|discriminate|destruct (Y eq_refl)].
Qed.
Lemma mul_panic a b : mul64 debug a b = Panic -> debug = true /\ 2 ^ 64 <= a * b.
Proof. unfold mul64, u64_max. destruct (N.ltb_spec (a * b) (2 ^ 64)) as [|H]; [discriminate|]. destruct debug; [|discriminate]. auto. Qed.
Lemma sub_panic a b : sub64 debug a b = Panic -> debug = true /\ a < b.
Proof. unfold sub64. destruct (N.leb_spec b a) as [|H]; [discriminate|]. destruct debug; [|discriminate]. auto. Qed.
Lemma sub_err a b : sub64 debug a b <> Err.
Proof. unfold sub64. destruct (b <=? a); [|destruct debug]; discriminate. Qed.
Lemma mul_err a b : mul64 debug a b <> Err.
Proof. unfold mul64. destruct (_ <? _); [|destruct debug]; discriminate. Qed.
Lemma finalized_stops (s : bridge rct wd) epoch root : snd (process_finalized s epoch root) = Panic -> debug = true /\ (epoch = 0 \/ 2 ^ 64 <= epoch * 32).
Proof.
  unfold EphBridge_Model.process_finalized. destruct (negb _); [discriminate|]. destruct (get_block root _) as [b|]; [|discriminate].
  pose proof (sub_err epoch 1) as S1. pose proof (sub_panic epoch 1) as S2. destruct (sub64 debug epoch 1) as [e| |] eqn:E1; [|congruence|intros _; destruct (S2 eq_refl) as [D L]; split; [exact D|left; lia]]. cbn [obind].
  pose proof (mul_err e 32) as M1. pose proof (mul_panic e 32) as M2. destruct (mul64 debug e 32) as [last| |]; [|congruence|].
  - destruct (take_back _ _ _ _) as [l1 [r|]]; [|discriminate]. destruct l1; [discriminate|]. pose proof (mul_err epoch 32) as M3. pose proof (mul_panic epoch 32) as M4. destruct (mul64 debug epoch 32); [discriminate|congruence|].
    intros _. destruct (M4 eq_refl). auto.
  - intros _. destruct (M2 eq_refl) as [D L]. split; [exact D|]. unfold sub64 in E1. destruct (N.leb_spec 1 epoch); [injection E1 as <-; right; lia|]. rewrite D in E1. discriminate.
Qed.
Lemma update_stops (s : bridge rct wd) root : kept (fun b : block => hashes_ok b) (fun _ _ => True) s -> snd (process_update s root) = Panic ->
  exists bs b r, linked root (bs ++ [b]) /\ has s r b /\ ~ sound b.
Proof.
  intros K. unfold EphBridge_Model.process_update. destruct (beacon_blocks s); [discriminate|]. generalize total_buffer_count. intros k. pose proof (many_panic k s root [] root K eq_refl) as M.
  destruct (append_many k s root []) as [s1 [l1| |]]; [discriminate|discriminate|]. intros _. apply M. reflexivity.
Qed.
(** The bridge stops only if a block that the attested header stands for, or an ancestor of it, is not a valid one, or if the epoch of a finalized block is 0 or
    beyond 2^59 and overflows are checked. *)
Theorem C104_stops : forall (l : list (event rct wd)) (s : bridge rct wd) e s', typed_blocks l -> (forall c r, e = Head c r -> (forall q, cl_by_root c q <> Panic) /\ forall q n, el_receipts c q n <> Panic) ->
  after new_bridge l = Some s -> step s e = (s', None) ->
  (exists root bs b r, e = Update root /\ linked root (bs ++ [b]) /\ has s r b /\ ~ sound b) \/
  (debug = true /\ exists epoch root st, e = Finalized epoch root st /\ (epoch = 0 \/ 2 ^ 64 <= epoch * 32)).
Proof.
  intros l s e s' T Hc E St. apply (f_equal snd) in St. destruct e as [c root|root|epoch root st]; cbn [EphBridge_Model.step] in St.
  - exfalso. destruct (Hc c root eq_refl) as [C1 C2]. pose proof (head_stops c s root C1 C2 total_buffer_count) as X. unfold process_head in St. destruct (download total_buffer_count c s root) as [s1 [b| |]]; [discriminate|discriminate|]. apply X. reflexivity.
  - left. pose proof (reach_kept l s T E) as (K1 & K2 & K3). assert (K : kept (fun b : block => hashes_ok b) (fun _ _ => True) s) by (split; [exact K1|]; split; [intros r b I; apply (K2 r b I)|auto]).
    pose proof (update_stops s root K) as M. destruct (process_update s root) as [s1 [[l1|]| |]]; [discriminate|discriminate|discriminate|].
    destruct (M eq_refl) as (bs & b & r & M1 & M2 & M3). exists root, bs, b, r. auto.
  - right. pose proof (finalized_stops s epoch root) as X. destruct (process_finalized s epoch root) as [s1 [[r|]| |]]; [discriminate|discriminate|discriminate|]. destruct (X eq_refl) as [Y1 Y2]. split; [exact Y1|]. exists epoch, root, st. auto.
Qed.

(** *** What is downloaded and built *)
Lemma cached_use n m (r : list rct) l : cached n (use m r l) = if n =? m then Some r else cached n l.
Proof.
  unfold use. cbn [cached]. destruct (N.eqb_spec n m) as [->|Ne]; [reflexivity|]. induction l as [|[k x] l IH]; [reflexivity|]. cbn [filter fst cached]. destruct (N.eqb_spec m k) as [->|]; cbn [negb].
  - destruct (N.eqb_spec n k); [congruence|exact IH].
  - cbn [cached]. destruct (n =? k); [reflexivity|exact IH].
Qed.
Lemma use_length n (r : list rct) l : (length (use n r l) <= S (length l))%nat.
Proof. unfold use. cbn [length]. apply le_n_S. induction l as [|x l IH]; [apply le_n|]. cbn [filter]. destruct (negb _); cbn [length]; lia. Qed.
Lemma push_small n (r : list rct) l : (length l < 64)%nat -> lru_push n r l = use n r l.
Proof. intros H. unfold lru_push. apply firstn_all2. pose proof (use_length n r l). change receipts_capacity with 64%nat. lia. Qed.
Lemma get_put q r b (l : list (bytes * block)) : get_block q (put_block r b l) = if beqb q r then Some b else get_block q l.
Proof.
  unfold put_block. cbn [get_block]. destruct (beqb q r) eqn:E; [reflexivity|]. induction l as [|[k x] l IH]; [reflexivity|]. unfold drop_block. cbn [filter fst get_block]. fold (drop_block r l). destruct (beqb r k) eqn:Ek; cbn [negb].
  - apply beqb_spec in Ek. subst k. rewrite E. exact IH.
  - cbn [get_block]. destruct (beqb q k); [reflexivity|exact IH].
Qed.
Lemma beqb_false a b : a <> b -> beqb a b = false.
Proof. intros H. destruct (beqb a b) eqn:E; [apply beqb_spec in E; congruence|reflexivity]. Qed.
Lemma beqb_refl a : beqb a a = true.
Proof. apply beqb_spec. reflexivity. Qed.
Lemma append_complete (rs : block -> list rct) : forall bs s head (l : list item) root, next_parent_root head l = Ok root -> linked root bs ->
  (forall b, In b bs -> hashes_ok b /\ sound b /\ get_block (the_root b) (beacon_blocks s) = Some b /\ cached (num b) (receipts s) = Some (rs b)) ->
  exists items, append_many (length bs) s head l = ({| beacon_blocks := beacon_blocks s; receipts := fold_left (fun l b => use (num b) (rs b) l) bs (receipts s) |}, Ok (l ++ items)) /\
    Forall2 (fun b it => is_block b (fst (fst it)) (snd (fst it)) /\ snd it = rs b) bs items.
Proof.
  induction bs as [|b bs IH]; intros s head l root Hn Li H.
  - exists []. cbn. rewrite app_nil_r. split; [destruct s; reflexivity|constructor].
  - destruct Li as [L1 L2]. destruct (H b (or_introl eq_refl)) as (Hb & (h & bd & So) & G & C). cbn [length EphBridge_Model.append_many]. unfold EphBridge_Model.append_next. rewrite Hn. rewrite <- L1, G. unfold lru_get. rewrite C.
    assert (P : push_parent head l b (rs b) = Ok (l ++ [(h, bd, rs b)])) by (apply push_iff; [exact roots_len|exact Hb|]; exists root, h, bd; auto). rewrite P.
    destruct (IH {| beacon_blocks := beacon_blocks s; receipts := use (num b) (rs b) (receipts s) |} head (l ++ [(h, bd, rs b)]) (parent_root b) (next_snoc head l b h bd (rs b) So) L2) as (items & E & F).
    { intros b' I. destruct (H b' (or_intror I)) as (X1 & X2 & X3 & X4). cbn [beacon_blocks receipts]. split; [exact X1|]. split; [exact X2|]. split; [exact X3|]. rewrite cached_use. destruct (N.eqb_spec (num b') (num b)) as [En|]; [|exact X4]. rewrite En, C in X4. exact X4. }
    exists ((h, bd, rs b) :: items). rewrite E. cbn [beacon_blocks receipts fold_left]. rewrite <- app_assoc. split; [reflexivity|]. constructor; [cbn; auto|exact F].
Qed.
Lemma update_complete rs bs (s : bridge rct wd) root : length bs = 13%nat -> linked root bs ->
  (forall b, In b bs -> hashes_ok b /\ sound b /\ get_block (the_root b) (beacon_blocks s) = Some b /\ cached (num b) (receipts s) = Some (rs b)) ->
  exists items, step s (Update root) = ({| beacon_blocks := beacon_blocks s; receipts := fold_left (fun l b => use (num b) (rs b) l) bs (receipts s) |}, Some (GossipBundle root items)) /\
    Forall2 (fun b it => is_block b (fst (fst it)) (snd (fst it)) /\ snd it = rs b) bs items.
Proof.
  intros L Li H. destruct (append_complete rs bs s root [] root eq_refl Li H) as (items & E & F). exists items. split; [|exact F]. cbn [EphBridge_Model.step]. unfold EphBridge_Model.process_update. change total_buffer_count with 13%nat. rewrite <- L, E.
  destruct bs as [|b bs]; [discriminate|]. destruct (H b (or_introl eq_refl)) as (_ & _ & G & _). destruct (beacon_blocks s); [discriminate|]. reflexivity.
Qed.
Lemma download_stored c (s : bridge rct wd) : forall bs root, linked root bs -> (forall b, In b bs -> get_block (the_root b) (beacon_blocks s) = Some b) -> download (length bs) c s root = (s, Ok tt).
Proof.
  induction bs as [|b bs IH]; intros root Li H; [reflexivity|]. destruct Li as [<- L2]. cbn [length download]. unfold get_or_download. rewrite (H b (or_introl eq_refl)). apply IH; [exact L2|]. intros b' I. apply H. right. exact I.
Qed.
Lemma download_fresh c (rs : block -> list rct) : forall bs (s : bridge rct wd) root, linked root bs -> NoDup (map the_root bs) -> NoDup (map (fun b => num b) bs) ->
  (forall b, In b bs -> get_block (the_root b) (beacon_blocks s) = None /\ cl_by_root c (the_root b) = Ok b /\ el_receipts c (the_root b) (num b) = Ok (rs b)) -> (length (receipts s) + length bs <= 64)%nat ->
  exists s', download (length bs) c s root = (s', Ok tt) /\ (forall b, In b bs -> get_block (the_root b) (beacon_blocks s') = Some b /\ cached (num b) (receipts s') = Some (rs b)) /\
    (forall r, ~ In r (map the_root bs) -> get_block r (beacon_blocks s') = get_block r (beacon_blocks s)) /\ (forall n, ~ In n (map (fun b => num b) bs) -> cached n (receipts s') = cached n (receipts s)) /\
    (length (receipts s') <= length (receipts s) + length bs)%nat.
Proof.
  induction bs as [|b bs IH]; intros s root Li N1 N2 H L.
  - exists s. split; [reflexivity|]. split; [intros b []|]. split; [reflexivity|]. split; [reflexivity|lia].
  - destruct Li as [<- L2]. cbn [map] in N1, N2. inversion N1 as [|? ? N1a N1b]; subst. inversion N2 as [|? ? N2a N2b]; subst. cbn [length] in L. destruct (H b (or_introl eq_refl)) as (G & C1 & C2).
    cbn [length download]. unfold get_or_download. rewrite G, C1, C2. rewrite push_small by lia. pose proof (use_length (num b) (rs b) (receipts s)) as Ul.
    destruct (IH {| beacon_blocks := put_block (the_root b) b (beacon_blocks s); receipts := use (num b) (rs b) (receipts s) |} (parent_root b) L2 N1b N2b) as (s' & D & S1 & S2 & S3 & S4).
    { intros b' I. destruct (H b' (or_intror I)) as (X1 & X2). split; [|exact X2]. cbn [beacon_blocks]. rewrite get_put, beqb_false; [exact X1|]. intros Eq. apply N1a. rewrite <- Eq. apply in_map, I. }
    { cbn [receipts]. lia. }
    cbn [beacon_blocks receipts] in *. exists s'. split; [exact D|]. split; [|split; [|split]].
    + intros b' [<-|I]; [|apply S1, I]. rewrite S2, S3 by assumption. rewrite get_put, beqb_refl, cached_use, N.eqb_refl. split; reflexivity.
    + intros r Nr. rewrite S2 by (intros I; apply Nr; right; exact I). rewrite get_put, beqb_false; [reflexivity|]. intros ->. apply Nr. left. reflexivity.
    + intros n Nn. rewrite S3 by (intros I; apply Nn; right; exact I). rewrite cached_use. destruct (N.eqb_spec n (num b)) as [->|]; [destruct Nn; left; reflexivity|reflexivity].
    + lia.
Qed.
(** Receipts are kept by number.  If the head changes from one block to another with the same number, and back, the receipts of the other are gossiped for it. *)
Theorem C104_reorg_refuted : forall a b tail c1 c2 c3 (rs : block -> list rct) rb, length tail = 12%nat -> linked (the_root a) (a :: tail) -> parent_root b = parent_root a -> num b = num a ->
  NoDup (map the_root (b :: a :: tail)) -> NoDup (map (fun b => num b) (a :: tail)) -> Forall (fun b => hashes_ok b /\ sound b) (a :: tail) ->
  (forall x, In x (a :: tail) -> cl_by_root c1 (the_root x) = Ok x /\ el_receipts c1 (the_root x) (num x) = Ok (rs x)) ->
  cl_by_root c2 (the_root b) = Ok b -> el_receipts c2 (the_root b) (num b) = Ok rb ->
  exists s s' items h bd, after new_bridge [Head c1 (the_root a); Head c2 (the_root b); Head c3 (the_root a)] = Some s /\
    step s (Update (the_root a)) = (s', Some (GossipBundle (the_root a) items)) /\ nth_error items 0 = Some (h, bd, rb) /\ is_block a h bd.
Proof.
  intros a b tail c1 c2 c3 rs rb L Li Pb Nb N1 N2 F C1 C2 C2r. cbn [map] in N1. inversion N1 as [|? ? Nb1 Na]; subst. cbn [map] in N2.
  destruct (download_fresh c1 rs (a :: tail) new_bridge (the_root a) Li Na N2) as (s1 & D1 & G1 & G2 & G3 & G4).
  { intros x I. split; [reflexivity|]. apply C1, I. } { cbn [length]. rewrite L. cbn. lia. }
  set (s2 := {| beacon_blocks := put_block (the_root b) b (beacon_blocks s1); receipts := use (num b) rb (receipts s1) |}).
  assert (S2 : forall x, In x (a :: tail) -> get_block (the_root x) (beacon_blocks s2) = Some x).
  { intros x I. cbn [s2 beacon_blocks]. rewrite get_put, beqb_false; [apply G1, I|]. intros Eq. apply Nb1. rewrite <- Eq. apply (in_map the_root) in I. exact I. }
  assert (Gb : get_block (the_root b) (beacon_blocks s1) = None) by (rewrite G2 by exact Nb1; reflexivity).
  assert (D2 : download 13 c2 s1 (the_root b) = (s2, Ok tt)).
  { rewrite <- L. cbn [download]. unfold get_or_download. rewrite Gb, C2, C2r, Pb. rewrite push_small; [|cbn [length new_bridge receipts] in G4; lia]. fold s2. apply download_stored; [apply Li|]. intros x I. apply S2. right. exact I. }
  assert (D3 : download 13 c3 s2 (the_root a) = (s2, Ok tt)) by (rewrite <- L; exact (download_stored c3 s2 (a :: tail) (the_root a) Li S2)).
  destruct (update_complete (fun x => if num x =? num a then rb else rs x) (a :: tail) s2 (the_root a)) as (items & U & Fi); [cbn; lia|exact Li| |].
  { intros x I. rewrite Forall_forall in F. destruct (F x I) as [F1 F2]. split; [exact F1|]. split; [exact F2|]. split; [apply S2, I|]. cbn [s2 receipts]. rewrite cached_use, Nb. destruct (num x =? num a); [reflexivity|apply G1, I]. }
  inversion Fi as [|? it ? items' [Ia Ir] _]; subst. destruct it as [[h bd] r]. cbn [fst snd] in *. rewrite N.eqb_refl in Ir. subst r.
  exists s2. eexists. exists ((h, bd, rb) :: items'), h, bd. split; [|split; [exact U|split; [reflexivity|exact Ia]]].
  cbn [EphBridge_Model.after EphBridge_Model.step]. unfold process_head. change total_buffer_count with 13%nat. cbn [length] in D1. rewrite L in D1. rewrite D1, D2, D3. reflexivity.
Qed.

(** *** Finalized periods *)
Definition drop_all (p l : list (bytes * block)) : list (bytes * block) := fold_left (fun l x => drop_block (fst x) l) p l.
Lemma in_drop_all p : forall l x, In x (drop_all p l) <-> In x l /\ ~ In (fst x) (map fst p).
Proof.
  induction p as [|y p IH]; intros l x; [cbn; tauto|]. cbn [drop_all fold_left map In]. fold (drop_all p (drop_block (fst y) l)). rewrite IH, in_drop. intuition congruence.
Qed.
Lemma first_slot_iff epoch slot : epoch mod 256 = 0 -> 0 < epoch -> (first_slot_in_a_period slot = first_slot_in_a_period ((epoch - 1) * 32) <-> in_period_before epoch slot).
Proof. intros H1 H2. unfold first_slot_in_a_period, in_period_before. lia. Qed.
Lemma take_all first : forall (p : list (bytes * block)) n l root, NoDup (map fst l) -> NoDup (map fst p) -> stored_back {| beacon_blocks := l; receipts := @nil (N * list rct) |} root p ->
  Forall (fun x => first_slot_in_a_period (b_slot (snd x)) = first) p -> ~ In (end_of root p) (map fst l) -> (length p < n)%nat -> take_back n first l root = (drop_all p l, Some (map snd p)).
Proof.
  induction p as [|[r b] p IH]; intros n l root N1 N2 H F E L; (destruct n as [|n]; [cbn in L; lia|]); cbn [take_back].
  - cbn [end_of] in E. apply get_none in E. rewrite E. reflexivity.
  - destruct H as (-> & H1 & H2). unfold has in H1. cbn [beacon_blocks] in H1. rewrite (in_get _ _ _ N1 H1). pose proof (Forall_inv F) as F1. pose proof (Forall_inv_tail F) as F2. cbn [snd] in F1. rewrite F1, N.eqb_refl. cbn [map fst] in N2. inversion N2 as [|? ? N2a N2b]; subst.
    rewrite (IH n (drop_block root l) (parent_root b)); [reflexivity|apply drop_nodup, N1|exact N2b| |exact F2| |cbn in L; lia].
    + clear - H2 N2a. revert H2 N2a. generalize (parent_root b) as q. induction p as [|[r x] p IH]; intros q H N; [exact I|]. destruct H as (H1 & H2 & H3). split; [exact H1|]. split; [|apply IH; [exact H3|intros I; apply N; right; exact I]].
      unfold has in *. cbn [beacon_blocks] in *. apply in_drop. split; [exact H2|]. cbn [fst]. intros ->. apply N. left. exact H1.
    + cbn [end_of] in E. intros I. apply E. apply in_map_iff in I as (x & Ex & I). apply in_drop in I as [I _]. apply in_map_iff. exists x. auto.
Qed.
Lemma take_other first : forall (p : list (bytes * block)) n l root r b, NoDup (map fst l) -> NoDup (map fst (p ++ [(r, b)])) -> stored_back {| beacon_blocks := l; receipts := @nil (N * list rct) |} root (p ++ [(r, b)]) ->
  Forall (fun x => first_slot_in_a_period (b_slot (snd x)) = first) p -> first_slot_in_a_period (b_slot b) <> first -> (length p < n)%nat -> take_back n first l root = (drop_all (p ++ [(r, b)]) l, None).
Proof.
  induction p as [|[q x] p IH]; intros n l root r b N1 N2 H F Nb L; (destruct n as [|n]; [cbn in L; lia|]); cbn [take_back].
  - destruct H as (-> & H1 & _). rewrite (in_get _ _ _ N1 H1). apply N.eqb_neq in Nb. rewrite Nb. reflexivity.
  - destruct H as (-> & H1 & H2). unfold has in H1. cbn [beacon_blocks] in H1. rewrite (in_get _ _ _ N1 H1). pose proof (Forall_inv F) as F1. pose proof (Forall_inv_tail F) as F2. cbn [snd] in F1. rewrite F1, N.eqb_refl. cbn [map fst app] in N2. inversion N2 as [|? ? N2a N2b]; subst.
    rewrite (IH n (drop_block root l) (parent_root x) r b); [reflexivity|apply drop_nodup, N1|exact N2b| |exact F2|exact Nb|cbn in L; lia].
    clear - H2 N2a. revert H2 N2a. generalize (parent_root x) as q. generalize (p ++ [(r, b)]). clear p r b. intros p. induction p as [|[r y] p IH]; intros q H N; [exact I|]. destruct H as (H1 & H2 & H3). split; [exact H1|]. split; [|apply IH; [exact H3|intros I; apply N; right; exact I]].
    unfold has in *. cbn [beacon_blocks] in *. apply in_drop. split; [exact H2|]. cbn [fst]. intros ->. apply N. left. exact H1.
Qed.
Lemma back_short (s : bridge rct wd) : forall p root, stored_back s root p -> NoDup (map fst p) -> (length p < S (length (beacon_blocks s)))%nat.
Proof.
  intros p root H N. apply le_n_S. rewrite <- (map_length fst p), <- (map_length fst (beacon_blocks s)). apply NoDup_incl_length; [exact N|]. clear N. revert root H. induction p as [|[r b] p IH]; intros root H x I; [destruct I|].
  destruct H as (-> & H1 & H2). destruct I as [<-|I]; [apply in_map_iff; exists (root, b); auto|exact (IH _ H2 x I)].
Qed.
Lemma back_same (s : bridge rct wd) (rs : list (N * list rct)) : forall p root, stored_back s root p -> stored_back {| beacon_blocks := beacon_blocks s; receipts := rs |} root p.
Proof. induction p as [|[r b] p IH]; intros root H; [exact I|]. destruct H as (H1 & H2 & H3). split; [exact H1|]. split; [exact H2|apply IH, H3]. Qed.
Lemma epoch_ok epoch : 0 < epoch -> epoch * 32 < 2 ^ 64 -> obind (sub64 debug epoch 1) (fun e => mul64 debug e 32) = Ok ((epoch - 1) * 32) /\ mul64 debug epoch 32 = Ok (epoch * 32).
Proof.
  intros H1 H2. unfold sub64, mul64, u64_max. destruct (N.leb_spec 1 epoch); [|lia]. cbn [obind]. destruct (N.ltb_spec ((epoch - 1) * 32) (2 ^ 64)); [|lia]. destruct (N.ltb_spec (epoch * 32) (2 ^ 64)); [|lia]. split; reflexivity.
Qed.
Lemma unique_keys (l : list (event rct wd)) s : after new_bridge l = Some s -> NoDup (map fst (beacon_blocks s)).
Proof. intros E. assert (K : kept (fun _ : block => True) (fun _ _ => True) s) by (eapply after_kept; [|apply new_kept|exact E]; auto). apply K. Qed.
(** When the first slot of a period is finalized, the stored ancestors of its block, if they are all from the period before, are gossiped with proofs, and everything from before is removed. *)
Theorem C104_finalized : forall (l : list (event rct wd)) (s : bridge rct wd) epoch root st b p, after new_bridge l = Some s -> epoch mod 256 = 0 -> 0 < epoch -> epoch * 32 < 2 ^ 64 ->
  has s root b -> stored_back s (parent_root b) p -> NoDup (map fst p) -> (forall x, ~ has s (end_of (parent_root b) p) x) -> Forall (fun x => in_period_before epoch (b_slot (snd x))) p ->
  exists s', step s (Finalized epoch root st) = (s', Some (GossipProven st (map snd p))) /\ forall r x, has s' r x <-> has s r x /\ epoch * 32 <= b_slot x.
Proof.
  intros l s epoch root st b p E H1 H2 H3 Hb Hp Np He Fp. pose proof (unique_keys l s E) as Nk. cbn [EphBridge_Model.step]. unfold EphBridge_Model.process_finalized. rewrite H1. cbn [N.eqb negb]. rewrite (in_get _ _ _ Nk Hb).
  destruct (epoch_ok epoch H2 H3) as [-> ->]. rewrite (take_all (first_slot_in_a_period ((epoch - 1) * 32)) p); [|exact Nk|exact Np|apply back_same, Hp| | |apply (back_short s p (parent_root b)); assumption].
  - assert (X : forall r x, has s r x /\ epoch * 32 <= b_slot x <-> In (r, x) (drop_all p (beacon_blocks s)) /\ epoch * 32 <= b_slot x).
    { intros r x. rewrite in_drop_all. unfold has. split; [|tauto]. intros [I L]. split; [|exact L]. split; [exact I|]. cbn [fst]. intros I2. apply in_map_iff in I2 as ([r' y] & Er & I2). cbn [fst] in Er. subst r'.
      assert (Hy : In (r, y) (beacon_blocks s)). { clear - Hp I2. revert Hp. generalize (parent_root b) as q. induction p as [|[q x] p IH]; intros q0 H; [destruct I2|]. destruct H as (-> & A & C). destruct I2 as [[= -> ->]|I2]; [exact A|exact (IH I2 _ C)]. }
      pose proof (in_get _ _ _ Nk I) as G1. rewrite (in_get _ _ _ Nk Hy) in G1. injection G1 as ->. rewrite Forall_forall in Fp. specialize (Fp _ I2). cbn [snd] in Fp. unfold in_period_before in Fp. lia. }
    destruct (drop_all p (beacon_blocks s)) as [|y l'] eqn:D.
    + eexists. split; [reflexivity|]. intros r x. rewrite X. unfold has. cbn. tauto.
    + eexists. split; [reflexivity|]. intros r x. rewrite X. unfold has. cbn [beacon_blocks]. rewrite filter_In. cbn [snd]. rewrite N.leb_le. tauto.
  - rewrite Forall_forall in *. intros x I. apply first_slot_iff; [exact H1|exact H2|apply Fp, I].
  - intros I. apply in_map_iff in I as ([r x] & Er & I). cbn [fst] in Er. subst r. exact (He x I).
Qed.
(** If the slot has no block, the finalized block is the last of the period before.  It is removed, and not gossiped. *)
Theorem C104_skipped_refuted : forall (l : list (event rct wd)) (s : bridge rct wd) epoch root st b p, after new_bridge l = Some s -> epoch mod 256 = 0 -> 0 < epoch -> epoch * 32 < 2 ^ 64 ->
  has s root b -> stored_back s (parent_root b) p -> NoDup (root :: map fst p) -> (forall x, ~ has s (end_of (parent_root b) p) x) -> Forall (fun x => in_period_before epoch (b_slot (snd x))) p ->
  b_slot b < epoch * 32 ->
  exists s', step s (Finalized epoch root st) = (s', Some (GossipProven st (map snd p))) /\ ~ In (root, b) p /\ forall x, ~ has s' root x.
Proof.
  intros l s epoch root st b p E H1 H2 H3 Hb Hp Np He Fp Sl. inversion Np as [|? ? Np1 Np2]; subst. destruct (C104_finalized l s epoch root st b p E H1 H2 H3 Hb Hp Np2 He Fp) as (s' & St & Hs). exists s'. split; [exact St|]. split.
  - intros I. apply Np1, in_map_iff. exists (root, b). auto.
  - intros x I. apply Hs in I as [I L]. pose proof (unique_keys l s E) as Nk. pose proof (in_get _ _ _ Nk I) as G1. rewrite (in_get _ _ _ Nk Hb) in G1. injection G1 as ->. lia.
Qed.
(** If a stored ancestor is from another period, nothing is gossiped.  But it and all the blocks after it are removed. *)
Theorem C104_lost_refuted : forall (l : list (event rct wd)) (s : bridge rct wd) epoch root st b p r x, after new_bridge l = Some s -> epoch mod 256 = 0 -> 0 < epoch -> epoch * 32 < 2 ^ 64 ->
  has s root b -> stored_back s (parent_root b) (p ++ [(r, x)]) -> NoDup (map fst (p ++ [(r, x)])) -> Forall (fun x => in_period_before epoch (b_slot (snd x))) p -> ~ in_period_before epoch (b_slot x) ->
  exists s', step s (Finalized epoch root st) = (s', Some Failed) /\ forall q y, has s' q y <-> has s q y /\ ~ In q (map fst (p ++ [(r, x)])).
Proof.
  intros l s epoch root st b p r x E H1 H2 H3 Hb Hp Np Fp Nx. pose proof (unique_keys l s E) as Nk. cbn [EphBridge_Model.step]. unfold EphBridge_Model.process_finalized. rewrite H1. cbn [N.eqb negb]. rewrite (in_get _ _ _ Nk Hb).
  destruct (epoch_ok epoch H2 H3) as [-> _]. rewrite (take_other (first_slot_in_a_period ((epoch - 1) * 32)) p _ _ _ r x); [|exact Nk|exact Np|apply back_same, Hp| | |].
  - eexists. split; [reflexivity|]. intros q y. unfold has. cbn [beacon_blocks]. rewrite in_drop_all. cbn [fst]. tauto.
  - rewrite Forall_forall in *. intros y I. apply first_slot_iff; [exact H1|exact H2|apply Fp, I].
  - intros Ex. apply Nx, first_slot_iff; assumption.
  - pose proof (back_short s (p ++ [(r, x)]) (parent_root b) Hp Np) as L. rewrite app_length in L. cbn [length] in L. lia.
Qed.

(** *** Along a chain *)
(** The keys of the cache: those used later are first, and none is more than 31 before one that was used earlier. *)
Definition near (a b : N) : Prop := b <= a + 31.
Lemma sorted_filter p l : StronglySorted near l -> StronglySorted near (filter p l).
Proof.
  induction 1 as [|a l S IH F]; [constructor|]. cbn [filter]. destruct (p a); [|exact IH]. constructor; [exact IH|]. rewrite Forall_forall in *. intros x I. apply filter_In in I as [I _]. apply F, I.
Qed.
Lemma sorted_firstn k : forall l, StronglySorted near l -> StronglySorted near (firstn k l).
Proof.
  induction k as [|k IH]; intros l S; [constructor|]. destruct S as [|a l S F]; [constructor|]. cbn [firstn]. constructor; [apply IH, S|]. rewrite Forall_forall in *. intros x I. apply F, (in_firstn k), I.
Qed.
Lemma sorted_split x i y : StronglySorted near (x ++ i :: y) -> Forall (fun j => i <= j + 31) x.
Proof.
  induction x as [|a x IH]; intros S; [constructor|]. inversion S as [|? ? S1 S2]; subst. constructor; [|apply IH, S1]. rewrite Forall_forall in S2. apply S2. apply in_or_app. right. left. reflexivity.
Qed.
Lemma use_keys n (r : list rct) l : map fst (use n r l) = n :: filter (fun k => negb (n =? k)) (map fst l).
Proof. unfold use. cbn [map fst]. f_equal. induction l as [|[k x] l IH]; [reflexivity|]. cbn [filter map fst]. destruct (negb (n =? k)); cbn [map fst]; rewrite IH; reflexivity. Qed.
Definition cache_ok (top : N) (l : list (N * list rct)) : Prop := StronglySorted near (map fst l) /\ NoDup (map fst l) /\ Forall (fun n => n <= top) (map fst l).
Lemma use_ok top n r l : cache_ok top l -> n <= top -> top <= n + 31 -> cache_ok top (use n r l).
Proof.
  intros (S & Nd & F) H1 H2. unfold cache_ok. rewrite use_keys. split; [|split].
  - constructor; [apply sorted_filter, S|]. rewrite Forall_forall in *. intros x I. apply filter_In in I as [I _]. specialize (F x I). cbn beta in F. unfold near. lia.
  - constructor; [|apply NoDup_filter, Nd]. intros I. apply filter_In in I as [_ I]. rewrite N.eqb_refl in I. discriminate.
  - constructor; [exact H1|]. rewrite Forall_forall in *. intros x I. apply filter_In in I as [I _]. apply F, I.
Qed.
Lemma first_ok top k l : cache_ok top l -> cache_ok top (firstn k l).
Proof.
  intros (S & Nd & F). unfold cache_ok. rewrite <- firstn_map. split; [apply sorted_firstn, S|]. split.
  - rewrite <- (firstn_skipn k (map fst l)) in Nd. clear - Nd. revert Nd. generalize (firstn k (map fst l)) (skipn k (map fst l)). intros a b. induction a as [|x a IH]; intros N; [constructor|]. inversion N; subst. constructor; [|apply IH; assumption]. intros I. apply H1, in_or_app. left. exact I.
  - rewrite Forall_forall in *. intros x I. apply F, (in_firstn k), I.
Qed.
Lemma push_ok top n r l : cache_ok top l -> n <= top -> top <= n + 31 -> cache_ok top (lru_push n r l).
Proof. intros H H1 H2. apply first_ok, use_ok; assumption. Qed.
Lemma top_le top top' l : cache_ok top l -> top <= top' -> cache_ok top' l.
Proof. intros (S & Nd & F) H. split; [exact S|]. split; [exact Nd|]. rewrite Forall_forall in *. intros x I. specialize (F x I). cbn beta in *. lia. Qed.
Lemma stays top i l : cache_ok top l -> In i (map fst l) -> top <= i + 31 -> In i (map fst (firstn 64 l)).
Proof.
  intros (Ss & Nd & F) I H. rewrite <- firstn_map. apply in_split in I as (x & y & E). rewrite E in *. pose proof (sorted_split x i y Ss) as Fx.
  assert (L : (length x <= 63)%nat).
  { assert (A : (length x <= length (map N.of_nat (seq (N.to_nat (i - 31)) 63)))%nat); [|rewrite map_length, seq_length in A; exact A].
    apply NoDup_incl_length.
    - clear - Nd. induction x as [|a x IH]; [constructor|]. inversion Nd; subst. constructor; [|apply IH; assumption]. intros I. apply H1, in_or_app. left. exact I.
    - intros a Ia. rewrite Forall_forall in Fx, F. specialize (Fx a Ia). specialize (F a (in_or_app _ _ _ (or_introl Ia))). cbn beta in *. apply in_map_iff. exists (N.to_nat a). split; [apply N2Nat.id|]. apply in_seq. lia. }
  rewrite firstn_app. apply in_or_app. right. replace (64 - length x)%nat with (S (63 - length x))%nat by lia. left. reflexivity.
Qed.
Lemma use_in n i (r : list rct) l : In i (map fst l) -> In i (map fst (use n r l)).
Proof. intros I. rewrite use_keys. destruct (N.eqb_spec n i) as [->|Ne]; [left; reflexivity|]. right. apply filter_In. split; [exact I|]. apply N.eqb_neq in Ne. rewrite Ne. reflexivity. Qed.
Lemma push_stays top n i (r : list rct) l : cache_ok top l -> n <= top -> top <= n + 31 -> In i (map fst l) \/ i = n -> top <= i + 31 -> In i (map fst (lru_push n r l)).
Proof. intros H H1 H2 I Hi. apply (stays top); [apply use_ok; assumption| |exact Hi]. destruct I as [I| ->]; [apply use_in, I|]. rewrite use_keys. left. reflexivity. Qed.

Section Chain.
Context (blk : nat -> block) (rc : nat -> list rct) (last : nat).
Hypothesis G : growing HC HL TC WC keccak trie_root sha rest to_wd decode_tx requests_root bloom_root extra_root txs_root wds_root requests_tree blk last.
Notation R k := (the_root (blk k)).
Notation B k := (p_block_number (b_payload (blk k))).
Notation serves := (serves sha bloom_root extra_root txs_root wds_root requests_tree blk rc).
Notation along := (along sha bloom_root extra_root txs_root wds_root requests_tree blk rc last).
Lemma num_at k : (k <= last)%nat -> B k = B 0 + N.of_nat k.
Proof. induction k as [|k IH]; intros H; [lia|]. rewrite (g_number _ _ _ _ _ _ _ _ _ _ _ _ _ _ _ _ _ _ G), IH; lia. Qed.
Lemma num_inj j k : (j <= last)%nat -> (k <= last)%nat -> B j = B k -> j = k.
Proof. intros H1 H2. rewrite (num_at j H1), (num_at k H2). lia. Qed.
Lemma root_inj j k : (j <= last)%nat -> (k <= last)%nat -> R j = R k -> j = k.
Proof. apply (g_root _ _ _ _ _ _ _ _ _ _ _ _ _ _ _ _ _ _ G). Qed.
Lemma parent_at k : (k < last)%nat -> parent_root (blk (S k)) = R k.
Proof. apply (g_parent _ _ _ _ _ _ _ _ _ _ _ _ _ _ _ _ _ _ G). Qed.
Lemma slot_lt j k : (j < k)%nat -> (k <= last)%nat -> b_slot (blk j) < b_slot (blk k).
Proof. induction 1 as [|k _ IH]; intros H; [apply (g_slot _ _ _ _ _ _ _ _ _ _ _ _ _ _ _ _ _ _ G); lia|]. pose proof (g_slot _ _ _ _ _ _ _ _ _ _ _ _ _ _ _ _ _ _ G k ltac:(lia)). lia. Qed.
Ltac same H := apply root_inj in H; [|lia|lia].

(** Everything is from the chain, up to [top]. *)
Definition on_chain (top : nat) (s : bridge rct wd) : Prop :=
  (top <= last)%nat /\ NoDup (map fst (beacon_blocks s)) /\ (forall r b, In (r, b) (beacon_blocks s) -> exists j, (j <= top)%nat /\ r = R j /\ b = blk j) /\
  cache_ok (B top) (receipts s) /\ (forall n r, In (n, r) (receipts s) -> exists j, (j <= top)%nat /\ n = B j /\ r = rc j).
Definition in_store (s : bridge rct wd) j : Prop := (j <= last)%nat /\ In (R j, blk j) (beacon_blocks s).
Definition in_cache (s : bridge rct wd) j : Prop := (j <= last)%nat /\ In (B j) (map fst (receipts s)).
Lemma on_get top s j : on_chain top s -> in_store s j -> get_block (R j) (beacon_blocks s) = Some (blk j).
Proof. intros (_ & N & _) [_ I]. apply in_get; assumption. Qed.
Lemma on_cached top s j : on_chain top s -> in_cache s j -> cached (B j) (receipts s) = Some (rc j).
Proof. intros (T & _ & _ & _ & V) [Hj I]. destruct (in_cached _ _ I) as [r Er]. rewrite Er. destruct (V _ _ (cached_in _ _ _ Er)) as (i & Hi & E1 & ->). apply num_inj in E1; [|lia|lia]. subst i. reflexivity. Qed.
Lemma on_top top top' s : on_chain top s -> (top <= top' <= last)%nat -> on_chain top' s.
Proof.
  intros (A0 & A & A2 & A3 & A4) H. split; [lia|]. split; [exact A|]. split; [intros r b I; destruct (A2 r b I) as (j & J1 & J2); exists j; split; [lia|exact J2]|].
  split; [|intros n r I; destruct (A4 n r I) as (j & J1 & J2); exists j; split; [lia|exact J2]]. apply (top_le _ _ _ A3). rewrite (num_at top), (num_at top') by lia. lia.
Qed.
Lemma one_download top c s i : on_chain top s -> (i <= top <= i + 12)%nat -> serves c top ->
  exists s', get_or_download c s (R i) = (s', Ok (blk i)) /\ on_chain top s' /\ (forall j, in_store s j -> in_store s' j) /\ in_store s' i /\ (forall j, in_store s' j -> in_store s j \/ j = i) /\
    (forall j, (top <= j + 31)%nat -> in_cache s j -> in_cache s' j) /\ (~ in_store s i -> in_cache s' i).
Proof.
  intros Oc Hi Sv. assert (Ht : (top <= last)%nat) by exact (proj1 Oc). unfold get_or_download. destruct (get_block (R i) (beacon_blocks s)) as [b|] eqn:Ge.
  - exists s. pose proof (get_in _ _ _ Ge) as I. pose proof Oc as (_ & _ & O2 & _). destruct (O2 _ _ I) as (j & Hj & J1 & J2). same J1. subst j b. assert (I' : in_store s i) by (split; [lia|exact I]). split; [reflexivity|]. split; [exact Oc|]. split; [auto|]. split; [exact I'|]. split; [auto|]. split; [auto|]. intros Nn. destruct (Nn I').
  - destruct (Sv i ltac:(lia)) as [S1 S2]. rewrite S1, S2. eexists. split; [reflexivity|]. destruct Oc as (_ & O1 & O2 & O3 & O4). pose proof (num_at i ltac:(lia)) as Ni. pose proof (num_at top Ht) as Nt. split; [|split; [|split; [|split; [|split]]]].
    + split; [exact Ht|]. split; [apply put_nodup, O1|]. split; [|split].
      * cbn [beacon_blocks]. intros r b [E|I]; [injection E as <- <-; exists i; split; [lia|auto]|]. apply in_drop in I as [I _]. exact (O2 _ _ I).
      * cbn [receipts]. apply push_ok; [exact O3|lia|lia].
      * cbn [receipts]. intros n r I. apply in_push in I as [[= -> ->]|I]; [exists i; split; [lia|auto]|exact (O4 _ _ I)].
    + intros j [Hj I]. split; [exact Hj|]. cbn [beacon_blocks]. destruct (Nat.eq_dec i j) as [->|Ne]; [left; reflexivity|]. right. apply in_drop. split; [exact I|]. cbn [fst]. intros E. same E. congruence.
    + split; [lia|]. left. reflexivity.
    + intros j [Hj [E|I]]; [right; injection E as E _; same E; congruence|left; split; [exact Hj|]; apply in_drop in I as [I _]; exact I].
    + intros j Hj [Hl I]. split; [exact Hl|]. cbn [receipts]. pose proof (num_at j Hl). apply (push_stays (B top)); [exact O3|lia|lia|left; exact I|lia].
    + intros _. split; [lia|]. cbn [receipts]. apply (push_stays (B top)); [exact O3|lia|lia|right; reflexivity|lia].
Qed.
Lemma many_downloads top c m : serves c top -> forall n i s root, on_chain top s -> (n = 0%nat \/ root = R i) -> (n <= i + 1)%nat -> (i <= top)%nat -> (top + n <= i + 13)%nat -> (forall j, (m <= j <= i)%nat -> ~ in_store s j) ->
  exists s', download n c s root = (s', Ok tt) /\ on_chain top s' /\ (forall j, in_store s j -> in_store s' j) /\ (forall j, (i < j + n)%nat -> (j <= i)%nat -> in_store s' j) /\
    (forall j, (top <= j + 31)%nat -> in_cache s j -> in_cache s' j) /\ (forall j, (m <= j <= i)%nat -> (i < j + n)%nat -> in_cache s' j).
Proof.
  intros Sv. induction n as [|n IH]; intros i s root Oc Hr H1 H2 H3 Hk; (assert (Ht : (top <= last)%nat) by apply Oc).
  - exists s. split; [reflexivity|]. split; [exact Oc|]. split; [auto|]. split; [intros j ? ?; lia|]. split; [auto|]. intros j ? ?. lia.
  - destruct Hr as [Hr|Hr]; [discriminate|]. subst root. destruct (one_download top c s i Oc) as (s1 & D & O1 & S1 & S2 & S3 & S4 & S5); [lia|exact Sv|]. cbn [download]. rewrite D. destruct (Nat.eq_dec n 0) as [->|Nz].
    { exists s1. split; [reflexivity|]. split; [exact O1|]. split; [exact S1|]. split; [intros j J1 J2; replace j with i by lia; exact S2|]. split; [exact S4|]. intros j J1 J2. replace j with i by lia. apply S5, Hk. lia. }
    destruct (IH (i - 1)%nat s1 (parent_root (blk i)) O1) as (s2 & D2 & O2 & T1 & T2 & T3 & T4).
    { destruct i as [|i]; [left; lia|right]. rewrite parent_at by lia. f_equal. f_equal. lia. } { lia. } { lia. } { destruct i; lia. }
    { intros j Hj I. destruct (S3 j I) as [I'| ->]; [apply (Hk j); [lia|exact I']|lia]. }
    exists s2. split; [exact D2|]. split; [exact O2|]. split; [auto|]. split; [|split; [auto|]].
    + intros j J1 J2. destruct (Nat.eq_dec j i) as [->|]; [auto|]. apply T2; lia.
    + intros j J1 J2. destruct (Nat.eq_dec j i) as [->|]; [|apply T4; lia]. apply T3; [lia|]. apply S5. apply Hk. lia.
Qed.

Definition following (lo k : nat) (s : bridge rct wd) : Prop :=
  on_chain k s /\ (lo + 12 <= k)%nat /\ (forall j, (lo <= j <= k)%nat -> in_store s j) /\ (forall j, (lo <= j <= k)%nat -> (k <= j + 31)%nat -> in_cache s j).
Lemma first_follows c k : (12 <= k <= last)%nat -> serves c k -> exists s', step new_bridge (Head c (R k)) = (s', Some Nothing) /\ following (k - 12) k s'.
Proof.
  intros H Sv. destruct (many_downloads k c 0 Sv 13 k new_bridge (R k)) as (s' & D & O & _ & S & _ & C).
  { split; [lia|]. split; [constructor|]. split; [intros r b []|]. split; [|intros n r []]. split; [constructor|]. split; constructor. } { right. reflexivity. } { lia. } { lia. } { lia. } { intros j _ [_ []]. }
  exists s'. split; [cbn [EphBridge_Model.step]; unfold process_head; change total_buffer_count with 13%nat; rewrite D; reflexivity|]. split; [exact O|]. split; [lia|]. split; [intros j Hj; apply S; lia|intros j Hj _; apply C; lia].
Qed.
Lemma head_follows s lo k c k' : following lo k s -> (k <= k' <= last)%nat -> serves c k' ->
  exists s', step s (Head c (R k')) = (s', Some Nothing) /\ following (if (k' - 12 <=? k + 1)%nat then lo else k' - 12)%nat k' s'.
Proof.
  intros (O & L & S & C) H Sv. destruct (many_downloads k' c (k + 1) Sv 13 k' s (R k')) as (s' & D & O' & S1 & S2 & C1 & C2).
  { apply (on_top k); assumption. } { right. reflexivity. } { lia. } { lia. } { lia. }
  { intros j Hj [_ I]. destruct O as (_ & _ & O2 & _). destruct (O2 _ _ I) as (i & I1 & I2 & _). same I2. lia. }
  exists s'. split; [cbn [EphBridge_Model.step]; unfold process_head; change total_buffer_count with 13%nat; rewrite D; reflexivity|]. split; [exact O'|].
  destruct (Nat.leb_spec (k' - 12) (k + 1)).
  - split; [lia|]. split.
    + intros j Hj. destruct (Nat.le_gt_cases j k); [apply S1, S; lia|apply S2; lia].
    + intros j Hj Hw. destruct (Nat.le_gt_cases j k); [apply C1; [lia|]; apply C; lia|apply C2; lia].
  - split; [lia|]. split; [intros j Hj; apply S2; lia|intros j Hj _; apply C2; lia].
Qed.
Lemma back_linked n : forall k, (n <= k + 1)%nat -> (k <= last)%nat -> linked (R k) (map blk (back k n)).
Proof.
  induction n as [|n IH]; intros k H Hl; [exact I|]. unfold back. cbn [seq map EphBridge_Spec.linked]. rewrite Nat.sub_0_r. split; [reflexivity|]. destruct n as [|n]; [exact I|]. destruct k as [|k]; [lia|]. rewrite parent_at by lia.
  specialize (IH k ltac:(lia) ltac:(lia)). unfold back in IH. rewrite map_map in *. rewrite <- seq_shift, map_map. exact IH.
Qed.
Lemma uses_ok lo k : forall l s, following lo k s -> (forall i, In i l -> (i <= k <= i + 31)%nat) ->
  following lo k {| beacon_blocks := beacon_blocks s; receipts := fold_left (fun x b => use (p_block_number (b_payload b)) (rc (N.to_nat (p_block_number (b_payload b) - B 0))) x) (map blk l) (receipts s) |}.
Proof.
  induction l as [|i l IH]; intros s F H; [destruct s; exact F|]. cbn [map fold_left]. destruct F as ((Ht & O1 & O2 & O3 & O4) & L & S & C). pose proof (H i (or_introl eq_refl)) as Hi. pose proof (num_at i ltac:(lia)) as Ni. pose proof (num_at k Ht) as Nk.
  refine (IH {| beacon_blocks := beacon_blocks s; receipts := use (B i) (rc (N.to_nat (B i - B 0))) (receipts s) |} _ (fun j I => H j (or_intror I))).
  split; [|split; [exact L|split; [exact S|]]].
  - split; [exact Ht|]. split; [exact O1|]. split; [exact O2|]. split; [cbn [receipts]; apply use_ok; [exact O3|lia|lia]|]. cbn [receipts]. intros n r I. apply in_use in I as [[= -> ->]|I]; [|exact (O4 _ _ I)]. exists i. split; [lia|]. split; [reflexivity|]. f_equal. lia.
  - intros j J1 J2. split; [lia|]. cbn [receipts]. apply use_in. apply C; assumption.
Qed.
Definition rcpt (b : block) : list rct := rc (N.to_nat (num b - B 0)).
Lemma rcpt_at i : (i <= last)%nat -> rcpt (blk i) = rc i.
Proof. intros H. unfold rcpt. f_equal. pose proof (num_at i H). lia. Qed.
Lemma update_follows s lo k j : following lo k s -> (j <= k <= j + 19)%nat -> (lo + 12 <= j)%nat ->
  exists s' items, step s (Update (R j)) = (s', Some (GossipBundle (R j) items)) /\ following lo k s' /\
    Forall2 (fun i it => is_block (blk i) (fst (fst it)) (snd (fst it)) /\ snd it = rc i) (back j 13) items.
Proof.
  intros F H1 H2. assert (Ht : (k <= last)%nat) by exact (proj1 (proj1 F)). assert (Hb : forall i, In i (back j 13) -> (j <= i + 12)%nat /\ (i <= j)%nat) by (intros i I; apply in_back in I as (d & D1 & ->); lia).
  destruct (update_complete rcpt (map blk (back j 13)) s (R j)) as (items & E & Fi).
  { rewrite map_length, back_length. reflexivity. } { apply back_linked; lia. }
  { intros b I. apply in_map_iff in I as (i & <- & I). apply Hb in I. destruct F as (O & L & S & C). split; [apply (g_typed _ _ _ _ _ _ _ _ _ _ _ _ _ _ _ _ _ _ G); lia|]. split; [apply (g_sound _ _ _ _ _ _ _ _ _ _ _ _ _ _ _ _ _ _ G); lia|].
    split; [apply (on_get k); [exact O|apply S; lia]|]. rewrite rcpt_at by lia. apply (on_cached k); [exact O|]. apply C; lia. }
  eexists. exists items. split; [exact E|]. split.
  - apply (uses_ok lo k (back j 13) s F). intros i I. apply Hb in I. lia.
  - assert (Hl : forall i, In i (back j 13) -> (i <= last)%nat) by (intros i I; apply Hb in I; lia). clear - Fi G Hl. revert Fi Hl. generalize (back j 13) as l. intros l. revert items. induction l as [|i l IH]; intros items Fi Hl; inversion Fi as [|? it ? items' [X1 X2] X3]; subst; constructor; [rewrite X2, rcpt_at by (apply Hl; left; reflexivity); auto|apply IH; [exact X3|intros q Q; apply Hl; right; exact Q]].
Qed.
Lemma take_above f first : forall n (l : list (bytes * block)) root, (forall r b, In (r, b) l -> exists j, (j <= last)%nat /\ r = R j /\ b = blk j) -> (root = parent_root (blk 0%nat) \/ exists i, (i < f)%nat /\ root = R i) ->
  forall j, (f <= j <= last)%nat -> In (R j, blk j) l -> In (R j, blk j) (fst (take_back n first l root)).
Proof.
  induction n as [|n IH]; intros l root Hl Hr j Hj I; [exact I|]. cbn [take_back]. destruct (get_block root l) as [b|] eqn:Ge; [|exact I]. apply get_in in Ge. destruct (Hl _ _ Ge) as (i & Li & E1 & ->).
  assert (Hi : (i < f)%nat). { destruct Hr as [Hr|(i' & H1 & H2)]; [destruct (g_start _ _ _ _ _ _ _ _ _ _ _ _ _ _ _ _ _ _ G i Li); congruence|]. replace i with i' by (apply root_inj; [lia|lia|congruence]). exact H1. }
  assert (I2 : In (R j, blk j) (drop_block root l)). { apply in_drop. split; [exact I|]. cbn [fst]. rewrite E1. intros Eq. same Eq. lia. }
  destruct (_ =? first); [|exact I2]. specialize (IH (drop_block root l) (parent_root (blk i))). destruct (take_back n first _ _) as [l' r]. cbn [fst] in *. apply IH; [intros r0 b0 I0; apply in_drop in I0 as [I0 _]; exact (Hl _ _ I0)| |exact Hj|exact I2].
  destruct i as [|i]; [left; reflexivity|right]. exists i. split; [lia|apply parent_at; lia].
Qed.
Lemma finalized_follows s lo k f epoch st : following lo k s -> (f + 32 <= k)%nat -> epoch * 32 < b_slot (blk (S f)) -> 0 < epoch -> epoch * 32 < 2 ^ 64 ->
  exists s' r, step s (Finalized epoch (R f) st) = (s', Some r) /\ following (Nat.max lo (S f)) k s'.
Proof.
  intros (O & L & S & C) H1 H2 H3 H4. assert (Ht : (k <= last)%nat) by exact (proj1 O). assert (Z : exists s' r, step s (Finalized epoch (R f) st) = (s', Some r) /\ forall j, (Nat.max lo (Datatypes.S f) <= j <= k)%nat -> in_store s' j).
  { cbn [EphBridge_Model.step]. unfold EphBridge_Model.process_finalized. destruct (negb _); [eexists; eexists; split; [reflexivity|]; intros j Hj; apply S; lia|].
    destruct (get_block (R f) (beacon_blocks s)) as [b|] eqn:Ge; [|eexists; eexists; split; [reflexivity|]; intros j Hj; apply S; lia]. destruct (epoch_ok epoch H3 H4) as [-> ->].
    destruct O as (_ & _ & O2 & _). apply get_in in Ge. destruct (O2 _ _ Ge) as (f' & Hf & E1 & E2). same E1. subst f' b.
    pose proof (take_above f (first_slot_in_a_period ((epoch - 1) * 32)) (Datatypes.S (length (beacon_blocks s))) (beacon_blocks s) (parent_root (blk f))) as T.
    destruct (take_back _ _ _ _) as [l' r]. cbn [fst] in T.
    assert (T' : forall j, (Nat.max lo (Datatypes.S f) <= j <= k)%nat -> In (R j, blk j) l').
    { intros j Hj. apply T; [intros r0 b0 I0; destruct (O2 _ _ I0) as (q & Lq & Q); exists q; split; [lia|exact Q]| |lia|apply S; lia]. destruct f as [|f]; [left; reflexivity|right; exists f; split; [lia|apply parent_at; lia]]. }
    destruct r as [bs|]; [|eexists; eexists; split; [reflexivity|intros j Hj; split; [lia|exact (T' j Hj)]]]. destruct l' as [|y l']; [destruct (T' k ltac:(lia))|]. eexists. eexists. split; [reflexivity|].
    intros j Hj. split; [lia|]. cbn [beacon_blocks]. apply filter_In. split; [apply T', Hj|]. cbn [snd]. apply N.leb_le. destruct (Nat.eq_dec j (Datatypes.S f)) as [->|]; [lia|]. pose proof (slot_lt (Datatypes.S f) j ltac:(lia) ltac:(lia)). lia. }
  destruct Z as (s' & r & E & St). exists s', r. split; [exact E|]. cbn [EphBridge_Model.step] in E. destruct (finalized_sub debug s epoch (R f)) as (F1 & F2 & F3). destruct (process_finalized s epoch (R f)) as [s1 o]. cbn [fst] in *. apply (f_equal fst) in E. cbn [fst] in E. subst s1.
  destruct O as (_ & O1 & O2 & O3 & O4). split; [|split; [lia|split; [exact St|]]].
  - split; [exact Ht|]. split; [apply F3, O1|]. split; [intros r' b I; exact (O2 _ _ (F2 _ I))|]. rewrite F1. split; assumption.
  - intros j J1 J2. split; [lia|]. rewrite F1. apply C; lia.
Qed.
Lemma along_follows l lo k : along l lo k -> exists s, after new_bridge l = Some s /\ following lo k s.
Proof.
  induction 1 as [c k H Sv|l lo k c k' A (s & E & F) H Sv|l lo k j A (s & E & F) H1 H2|l lo k f epoch st A (s & E & F) H1 H2 H3 H4].
  - destruct (first_follows c k H Sv) as (s & E & F). exists s. split; [|exact F]. cbn [EphBridge_Model.after]. rewrite E. reflexivity.
  - destruct (head_follows s lo k c k' F H Sv) as (s' & E' & F'). exists s'. split; [|exact F']. rewrite after_app, E. cbn [EphBridge_Model.after]. rewrite E'. reflexivity.
  - destruct (update_follows s lo k j F H1 H2) as (s' & it & E' & F' & _). exists s'. split; [|exact F']. rewrite after_app, E. cbn [EphBridge_Model.after]. rewrite E'. reflexivity.
  - destruct (finalized_follows s lo k f epoch st F H1 H2 H3 H4) as (s' & r & E' & F'). exists s'. split; [|exact F']. rewrite after_app, E. cbn [EphBridge_Model.after]. rewrite E'. reflexivity.
Qed.
(** Along a chain without re-orgs the bridge does not stop, and for every attested header at most 19 blocks behind the head, if the 12 blocks before it were seen, the 13 blocks
    are gossiped with their receipts. *)
Theorem C104_honest : forall l lo k j, along l lo k -> (j <= k <= j + 19)%nat -> (lo + 12 <= j)%nat ->
  exists s s' items, after new_bridge l = Some s /\ step s (Update (R j)) = (s', Some (GossipBundle (R j) items)) /\
    Forall2 (fun i it => is_block (blk i) (fst (fst it)) (snd (fst it)) /\ snd it = rc i) (back j 13) items.
Proof.
  intros l lo k j A H1 H2. destruct (along_follows l lo k A) as (s & E & F). destruct (update_follows s lo k j F H1 H2) as (s' & items & E' & _ & Fi). exists s, s', items. auto.
Qed.
Lemma lowest s top : on_chain top s -> forall f, (f <= last + 1)%nat -> exists m, (m <= f)%nat /\ (forall j, (m <= j < f)%nat -> in_store s j) /\ (m = 0%nat \/ ~ in_store s (m - 1)).
Proof.
  intros O. assert (Ht : (top <= last)%nat) by exact (proj1 O). induction f as [|f IH]; intros Hf; [exists 0%nat; split; [lia|]; split; [intros j Hj; lia|left; reflexivity]|]. destruct (IH ltac:(lia)) as (m & H1 & H2 & H3).
  destruct (get_block (R f) (beacon_blocks s)) as [b|] eqn:Ge.
  - exists m. split; [lia|]. split; [|exact H3]. intros j Hj. destruct (Nat.eq_dec j f) as [->|]; [|apply H2; lia]. apply get_in in Ge. destruct O as (_ & _ & O2 & _). destruct (O2 _ _ Ge) as (i & Hi & E1 & ->). same E1. subst i. split; [lia|exact Ge].
  - exists (S f). split; [lia|]. split; [intros j Hj; lia|]. right. replace (S f - 1)%nat with f by lia. intros [_ I]. apply get_none in Ge. apply Ge, in_map_iff. exists (R f, blk f). auto.
Qed.
Definition with_roots (l : list nat) : list (bytes * block) := map (fun i => (R i, blk i)) l.
Lemma back_stored s n : forall f m, (m + n = f)%nat -> (f <= last)%nat -> (forall j, (m <= j < f)%nat -> in_store s j) ->
  stored_back s (parent_root (blk f)) (with_roots (back (f - 1) n)) /\ end_of (parent_root (blk f)) (with_roots (back (f - 1) n)) = parent_root (blk m).
Proof.
  induction n as [|n IH]; intros f m H1 Hl H2; [replace m with f by lia; split; [exact I|reflexivity]|]. destruct f as [|f]; [lia|]. replace (S f - 1)%nat with f by lia.
  rewrite back_S. unfold with_roots. cbn [map stored_back end_of]. rewrite parent_at by lia. destruct (IH f m ltac:(lia) ltac:(lia) (fun j Hj => H2 j ltac:(lia))) as [I1 I2].
  split; [|exact I2]. split; [reflexivity|]. split; [apply H2; lia|exact I1].
Qed.
(** Then, when the block in the first slot of a period is finalized, and nothing is left from before the period that ends: all seen blocks of the period are gossiped with proofs. *)
Theorem C104_proven : forall l lo k f epoch st s, along l lo k -> after new_bridge l = Some s -> epoch mod 256 = 0 -> 0 < epoch -> epoch * 32 < 2 ^ 64 -> (lo <= f <= k)%nat -> b_slot (blk f) = epoch * 32 ->
  (forall r b, has s r b -> (epoch - 256) * 32 <= b_slot b) ->
  exists s' m, step s (Finalized epoch (R f) st) = (s', Some (GossipProven st (map blk (back (f - 1) (f - m))))) /\ (m <= lo)%nat /\ forall r b, has s' r b -> epoch * 32 <= b_slot b.
Proof.
  intros l lo k f epoch st s A E H1 H2 H3 Hf Sl Hold. destruct (along_follows l lo k A) as (s0 & E0 & (O & L & S & C)). rewrite E in E0. injection E0 as <-. assert (Ht : (k <= last)%nat) by exact (proj1 O). destruct (lowest s k O f ltac:(lia)) as (m & M1 & M2 & M3).
  destruct (back_stored s (f - m) f m ltac:(lia) ltac:(lia) M2) as [P1 P2].
  destruct (C104_finalized l s epoch (R f) st (blk f) (with_roots (back (f - 1) (f - m))) E H1 H2 H3) as (s' & St & Hs); [apply S; lia|exact P1| | | |].
  - unfold with_roots. rewrite map_map. cbn [fst]. unfold back. rewrite map_map. assert (Nd : forall n q, (q + n <= f)%nat -> NoDup (map (fun x => R (f - 1 - x)) (seq q n))).
    { induction n as [|n IH]; intros q Hq; [constructor|]. cbn [seq map]. constructor; [|apply IH; lia]. intros I. apply in_map_iff in I as (d & Ed & I). apply in_seq in I. same Ed. lia. }
    apply Nd. lia.
  - intros x. rewrite P2. intros I. destruct m as [|m].
    + destruct O as (_ & _ & O2 & _). destruct (O2 _ _ I) as (j & Hj & Ej & _). exact (g_start _ _ _ _ _ _ _ _ _ _ _ _ _ _ _ _ _ _ G j ltac:(lia) Ej).
    + rewrite parent_at in I by lia. destruct M3 as [M3|M3]; [discriminate|]. apply M3. replace (Datatypes.S m - 1)%nat with m by lia. destruct O as (_ & _ & O2 & _). destruct (O2 _ _ I) as (j & Hj & Ej & ->). same Ej. subst j. split; [lia|exact I].
  - apply Forall_forall. intros x I. apply in_map_iff in I as (i & <- & I). apply in_back in I as (d & D1 & ->). cbn [snd]. split; [apply (Hold (R (f - 1 - d))), M2; lia|]. rewrite <- Sl. apply slot_lt; lia.
  - exists s', m. split; [|split].
    + rewrite St. unfold with_roots. rewrite map_map. reflexivity.
    + destruct (Nat.le_gt_cases m lo); [assumption|]. exfalso. destruct M3 as [M3|M3]; [lia|]. apply M3, S. lia.
    + intros r b I. apply Hs in I. apply I.
Qed.
End Chain.

(** *** What the nodes make of it *)
Context (fk : forks).
Notation header_series := (header_series HC HL TC RC WC keccak rest).
Notation bundle_contents := (bundle_contents HC HL TC RC WC keccak rest).
Notation gossip_proven := (gossip_proven HC HL TC RC WC keccak trie_root sha rest to_wd decode_tx requests_root bloom_root extra_root txs_root wds_root requests_tree).
Notation proven_contents := (proven_contents HC HL TC RC WC keccak trie_root sha rest to_wd decode_tx requests_root bloom_root extra_root txs_root wds_root requests_tree).
Notation validate := (validate_legacy HC HL TC RC WC keccak trie_root sha fk).
Notation block_id h := (keccak (enc HC (lower rest h))).
Lemma block_body_of b h bd : is_block b h bd -> body_of HL TC WC keccak trie_root bd (lower rest h).
Proof.
  intros (txs & _ & D & _ & B1 & B2 & B3). unfold body_of, same_uncles, same_transactions, same_withdrawals. cbn [lower ommers_hash transactions_root withdrawals_root].
  rewrite B1, B2, B3, (d_ommers _ _ _ _ _ _ _ _ _ _ D), (d_transactions _ _ _ _ _ _ _ _ _ _ D), (d_withdrawals _ _ _ _ _ _ _ _ _ _ D). cbn [has_withdrawals if_has option_map]. rewrite map_map. auto.
Qed.
(** What is offered of a bundle: the headers at once, and then the body and the receipts of each block *)
Theorem C104_contents : forall (items : list item),
  (forall key value, In (key, Ok value) (header_series items) <-> exists h bd r, In (h, bd, r) items /\ key = EphemeralHeaderOffer (block_id h) /\ legacy_encode HC HL TC RC WC (VOffer (lower rest h)) = Ok value) /\
  (forall key value, In (key, Ok value) (bundle_contents items) <-> exists h bd r, In (h, bd, r) items /\
    (key = BlockBody (block_id h) /\ legacy_encode HC HL TC RC WC (VBody bd) = Ok value \/ key = BlockReceipts (block_id h) /\ legacy_encode HC HL TC RC WC (VReceipts r) = Ok value)).
Proof.
  intros items. split; intros key value.
  - unfold EphBridge_Model.header_series. rewrite in_map_iff. split.
    + intros ([[h bd] r] & E & I). apply pair_equal_spec in E as [<- E]. exists h, bd, r. auto.
    + intros (h & bd & r & I & -> & E). exists (h, bd, r). rewrite <- E. auto.
  - unfold EphBridge_Model.bundle_contents. rewrite in_app_iff, !in_map_iff. split.
    + intros [([[h bd] r] & E & I)|([[h bd] r] & E & I)]; apply pair_equal_spec in E as [<- E]; exists h, bd, r; auto.
    + intros (h & bd & r & I & [[-> E]|[-> E]]); [left|right]; exists (h, bd, r); rewrite <- E; auto.
Qed.
(** A node whose header is found accepts the body, and the receipts if they are those of the block. *)
Theorem C104_accepted : proper HC -> proper HL -> proper TC -> proper RC -> proper WC -> forall v source get b h bd r key value,
  is_block b h bd -> find_header HC HL TC RC WC fk get (block_id h) = Ok (lower rest h) ->
  (key = BlockBody (block_id h) /\ legacy_value_ok HC HL TC RC WC fk key (VBody bd) /\ legacy_encode HC HL TC RC WC (VBody bd) = Ok value \/
   key = BlockReceipts (block_id h) /\ receipts_of b r /\ legacy_value_ok HC HL TC RC WC fk key (VReceipts r) /\ legacy_encode HC HL TC RC WC (VReceipts r) = Ok value) ->
  validate v source get key value = (v, Ok CanonicallyValid).
Proof.
  intros PHC PHL PTC PRC PWC v source get b h bd r key value Ib F [(-> & V & E)|(-> & R & V & E)].
  - apply (C52_honest_body HC HL TC RC WC keccak trie_root sha fk PHC PHL PTC PRC PWC v source get _ (lower rest h) bd value F (block_body_of b h bd Ib) V E).
  - apply (C52_honest_receipts HC HL TC RC WC keccak trie_root sha fk PHC PHL PTC PRC PWC v source get _ (lower rest h) r value F); [|exact V|exact E].
    destruct Ib as (txs & _ & D & _). cbn [lower receipts_root]. rewrite (d_receipts _ _ _ _ _ _ _ _ _ _ D). exact (eq_sym R).
Qed.
(** But no node accepts a header that is offered without a proof, and without the header none accepts the body or the receipts. *)
Theorem C104_refused_refuted : forall v source get (items : list item) key value,
  (In (key, Ok value) (header_series items) -> validate v source get key value = (v, Ok StateContent_Model.Invalid)) /\
  (In (key, Ok value) (bundle_contents items) -> (forall h bd r, In (h, bd, r) items -> find_header HC HL TC RC WC fk get (block_id h) = Err) -> snd (validate v source get key value) <> Ok CanonicallyValid).
Proof.
  intros v source get items key value. destruct (C104_contents items) as [C1 C2]. split.
  - intros I. apply C1 in I as (h & bd & r & _ & -> & _). reflexivity.
  - intros I F. apply C2 in I as (h & bd & r & I & [[-> _]|[-> _]]); specialize (F h bd r I); cbn [validate_legacy snd]; rewrite F; [destruct (decode_body _ _ _ _)|destruct (decode_receipts _ _)]; discriminate.
Qed.

(** *** The proofs *)
Notation tree b := (tree_of bloom_root extra_root txs_root wds_root requests_tree Electra b).
Notation build b br sr := (build TC WC to_wd decode_tx trie_root (fun h => hash_slow HC keccak (lower rest h)) (keccak (enc HL [])) requests_root sha bloom_root extra_root txs_root wds_root requests_tree Electra b br sr).
Definition proof_of (b : block) (br : list bytes) : header_proof := SummariesDeneb (build_historical_summaries_proof sha (b_slot b) br (tree b)).
Lemma build_is_block b br sr h p bd : build b br sr = Ok (h, p, bd) <-> is_block b h bd /\ p = proof_of b br.
Proof.
  rewrite (C100_block TC WC to_wd decode_tx trie_root _ (keccak (enc HL [])) requests_root sha bloom_root extra_root txs_root wds_root requests_tree). unfold EphBridge_Spec.is_block. split.
  - intros (txs & A1 & A2 & A3 & A4 & A5). split; [exists txs; auto|exact A5].
  - intros ((txs & A1 & A2 & A3 & A4) & A5). exists txs. auto.
Qed.
Lemma proven_all br sr : forall l, Forall sound l -> snd (proven_contents br sr l) = Ok tt /\
  forall key val, In (key, val) (fst (proven_contents br sr l)) <-> exists b h bd, In b l /\ is_block b h bd /\ (key = BlockHeaderByHash (block_id h) \/ key = BlockHeaderByNumber (num b)) /\ val = legacy_encode HC HL TC RC WC (VHeader (lower rest h, proof_of b br)).
Proof.
  induction l as [|b l IH]; intros F; [split; [reflexivity|]; intros key val; split; [intros []|intros (b & h & bd & [] & _)]|]. inversion F as [|? ? (h & bd & Hb) F2]; subst. destruct (IH F2) as [I1 I2]. cbn [EphBridge_Model.proven_contents].
  rewrite (proj2 (build_is_block b br sr h (proof_of b br) bd) (conj Hb eq_refl)). destruct (proven_contents br sr l) as [r o]. cbn [fst snd] in *. split; [exact I1|]. intros key val.
  assert (Hn : number (lower rest h) = num b) by (destruct Hb as (txs & _ & D & _); exact (d_number _ _ _ _ _ _ _ _ _ _ D)). rewrite Hn. cbn [In]. rewrite I2. split.
  - intros [E|[E|(b' & h' & bd' & X1 & X)]].
    + injection E as <- <-. exists b, h, bd. auto.
    + injection E as <- <-. exists b, h, bd. auto.
    + exists b', h', bd'. auto.
  - intros (b' & h' & bd' & [<-|X1] & X2 & X3 & X4); [|right; right; exists b', h', bd'; auto].
    assert (Eh : h' = h). { pose proof (proj2 (build_is_block b br sr h' (proof_of b br) bd') (conj X2 eq_refl)) as E1. rewrite (proj2 (build_is_block b br sr h (proof_of b br) bd) (conj Hb eq_refl)) in E1. injection E1 as E1 _. symmetry. exact E1. }
    subst h' val. destruct X3 as [-> | ->]; [left|right; left]; reflexivity.
Qed.
(** If the state that is served has the roots of the period, every block is offered by hash and by number, with a header that every node accepts. *)
Theorem C104_headers : forall c v source ba st l, proper HC -> chain_ok c -> reach sha fk c v -> honest sha c source ->
  st_block_roots st = block_roots ba ->
  Forall (fun b => hashes_ok b /\ sound b /\ period c Electra (b_slot b) ba /\ knows sha c Electra (b_slot b) source /\ cancun_time fk <= p_timestamp (b_payload b) /\
     nth_error (block_roots ba) (N.to_nat (b_slot b mod 8192)) = Some (the_root b)) l ->
  snd (gossip_proven (Ok st) l) = Ok tt /\
  (forall b, In b l -> exists h bd, is_block b h bd /\
     let value := legacy_encode HC HL TC RC WC (VHeader (lower rest h, proof_of b (block_roots ba))) in
     In (BlockHeaderByHash (block_id h), value) (fst (gossip_proven (Ok st) l)) /\ In (BlockHeaderByNumber (num b), value) (fst (gossip_proven (Ok st) l))) /\
  (forall key value get, In (key, Ok value) (fst (gossip_proven (Ok st) l)) ->
     (forall b h bd, In b l -> is_block b h bd -> legacy_value_ok HC HL TC RC WC fk key (VHeader (lower rest h, proof_of b (block_roots ba)))) -> snd (validate v source get key value) = Ok CanonicallyValid).
Proof.
  intros c v source ba st l PHC Ck Rc Hs Er F. cbn [EphBridge_Model.gossip_proven]. rewrite Er.
  assert (Fs : Forall sound l) by (eapply Forall_impl; [|exact F]; intros b H; apply H). destruct (proven_all (block_roots ba) (st_state_roots st) l Fs) as [P1 P2]. split; [exact P1|]. split.
  - intros b I. rewrite Forall_forall in Fs. destruct (Fs b I) as (h & bd & Hb). exists h, bd. split; [exact Hb|]. split; apply P2; exists b, h, bd; auto.
  - intros key value get I OK. apply P2 in I as (b & h & bd & I & Hb & Hk & Hv). rewrite Forall_forall in F. destruct (F b I) as (F1 & F2 & F3 & F4 & F5 & F6). specialize (OK b h bd I Hb).
    pose proof (proj2 (build_is_block b (block_roots ba) (state_roots ba) h (proof_of b (block_roots ba)) bd) (conj Hb eq_refl)) as E.
    destruct (C100_accepted HC HL TC WC to_wd decode_tx keccak trie_root rest requests_root sha bloom_root extra_root txs_root wds_root requests_tree fk c v source Electra b ba h _ bd roots_len F1 Ck Rc Hs F3 F4 F6 F5 E) as ((v' & V) & _ & _).
    assert (O : blen (enc HC (lower rest h)) <= 2048 /\ LegacyHistory_Spec.era fk (lower rest h) (proof_of b (block_roots ba)) /\ proof_ok (proof_of b (block_roots ba))) by (destruct Hk as [-> | ->]; exact OK).
    destruct O as (O1 & O2 & O3). destruct (C52_honest_header HC HL TC RC WC keccak trie_root sha fk PHC v source get _ _ v' O1 O2 O3 V) as [X Y].
    assert (Ev : value = header_value HC (lower rest h) [] (proof_of b (block_roots ba))).
    { injection Hv as ->. unfold encode_hwp, header_value, encode_header, encode_proof. cbn [fst snd]. rewrite app_nil_r, firstn_all2 by (unfold blen in O1; lia). unfold proof_of. rewrite ?enc_block_proof. reflexivity. }
    rewrite Ev. assert (Hn : number (lower rest h) = num b) by (destruct Hb as (txs & _ & D & _); exact (d_number _ _ _ _ _ _ _ _ _ _ D)). rewrite Hn in Y. destruct Hk as [-> | ->]; [rewrite X|rewrite Y]; reflexivity.
Qed.
(** If the roots of the state are others than those of the period of a block, at an index that is not the block's, then no node accepts the
    header that is offered for the block, or two inputs in the trees over the roots have the same hash. *)
Theorem C104_roots_refuted : (forall x, len32 (sha x)) -> proper HC -> forall c v source ba st l b h bd q get, chain_ok c -> reach sha fk c v -> honest sha c source ->
  Forall sound l -> In b l -> is_block b h bd -> hashes_ok b -> period c Electra (b_slot b) ba ->
  blen (st_block_roots st) = 8192 -> Forall len32 (st_block_roots st) ->
  q <> N.to_nat (b_slot b mod 8192) -> nth_error (st_block_roots st) q <> nth_error (block_roots ba) q ->
  legacy_value_ok HC HL TC RC WC fk (BlockHeaderByHash (block_id h)) (VHeader (lower rest h, proof_of b (st_block_roots st))) ->
  exists value,
  In (BlockHeaderByHash (block_id h), Ok value) (fst (gossip_proven (Ok st) l)) /\ In (BlockHeaderByNumber (num b), Ok value) (fst (gossip_proven (Ok st) l)) /\
  ((snd (validate v source get (BlockHeaderByHash (block_id h)) value) <> Ok CanonicallyValid /\ snd (validate v source get (BlockHeaderByNumber (num b)) value) <> Ok CanonicallyValid) \/
   exists x y, In x (hashed_by_tree sha 13 (put (N.to_nat (b_slot b mod 8192)) (the_root b) (st_block_roots st))) /\ In y (hashed_by_tree sha 13 (block_roots ba)) /\ collision sha x y).
Proof.
  intros Hsha PHC c v source ba st l b h bd q get (C1 & C2 & C3) Rc Hs F Ib Hb Hh (_ & Hba) L Fr Hq1 Hq2 (O1 & O2 & O3).
  destruct (proven_all (st_block_roots st) (st_state_roots st) l F) as [_ P]. exists (header_value HC (lower rest h) [] (proof_of b (st_block_roots st))).
  assert (Ev : legacy_encode HC HL TC RC WC (VHeader (lower rest h, proof_of b (st_block_roots st))) = Ok (header_value HC (lower rest h) [] (proof_of b (st_block_roots st)))).
  { cbn [legacy_encode]. unfold encode_hwp, header_value, encode_header, encode_proof. cbn [fst snd]. rewrite app_nil_r, firstn_all2 by (unfold blen in O1; lia). unfold proof_of. rewrite ?enc_block_proof. reflexivity. }
  rewrite <- Ev. cbn [EphBridge_Model.gossip_proven]. split; [apply P; exists b, h, bd; auto|]. split; [apply P; exists b, h, bd; auto|].
  assert (Hn : number (lower rest h) = num b) by (destruct Hb as (txs & _ & D & _); exact (d_number _ _ _ _ _ _ _ _ _ _ D)). rewrite <- Hn.
  set (vh := {| h_number := number (lower rest h); h_timestamp := timestamp (lower rest h); h_hash := keccak (enc HC (lower rest h)) |}).
  destruct (validate_header_with_proof sha fk v source vh (proof_of b (st_block_roots st))) as [v' o] eqn:V.
  assert (D : o = Ok tt \/ (snd (validate v source get (BlockHeaderByHash (block_id h)) (header_value HC (lower rest h) [] (proof_of b (st_block_roots st)))) <> Ok CanonicallyValid /\
     snd (validate v source get (BlockHeaderByNumber (number (lower rest h))) (header_value HC (lower rest h) [] (proof_of b (st_block_roots st)))) <> Ok CanonicallyValid)).
  { cbn [validate_legacy]. rewrite hwp_ok; [|apply PHC|rewrite app_nil_r; exact O1|exact O2|exact O3]. cbn [fst]. unfold LegacyHistory_Model.hash_slow at 1. rewrite beqb_refl, N.eqb_refl. cbn [negb].
    unfold check_proof, view, LegacyHistory_Model.hash_slow. cbn [fst snd]. fold vh. rewrite V. destruct o as [[]| |]; [left; reflexivity| |]; right; cbn [snd]; split; discriminate. }
  destruct D as [-> |D]; [|left; exact D]. right. clear P Ev.
  unfold proof_of in V. cbn [validate_header_with_proof] in V. unfold verify_post_deneb_header in V. destruct (cancun_active _ _); [|discriminate]. cbn [negb] in V. destruct (verify_deneb_execution_proof _ _ _ _); [|discriminate]. cbn [negb] in V.
  unfold build_historical_summaries_proof in V. cbn [Header_Model.slot beacon_block_root beacon_block_proof] in V.
  destruct (verify_historical_summaries_proof _ _ _ _ _ _) as [v2 ok] eqn:V2. destruct ok; [|discriminate]. clear V.
  unfold verify_historical_summaries_proof in V2. destruct (get_historical_summary _ _ _) as [ca sm] eqn:Gs. destruct sm as [sm|]; [|discriminate]. injection V2 as _ V2.
  pose proof (tree_shaped bloom_root extra_root txs_root wds_root requests_tree roots_len Electra b Hh) as Sh. destruct (execution_proof_ok sha 5 (tree b) 6444 Sh (or_intror eq_refl) eq_refl eq_refl eq_refl) as (Br & _). rewrite Br in V2.
  destruct (reach_parts sha fk c v Rc) as (_ & _ & P3). destruct (get_summary sha c _ _ _ _ _ P3 Hs Gs) as (_ & ba' & Eb & ->). rewrite Hba in Eb. injection Eb as <-.
  assert (Bo : batch_ok ba) by (rewrite Forall_forall in C3; apply C3; exact (nth_error_In _ _ Hba)). destruct Bo as (B1 & B2 & _).
  change slots_per_historical_root with 8192 in V2. apply other_roots in V2 as [V2|V2]; [destruct (Hq2 (V2 q Hq1))|exact V2|exact Hsha|exact L|exact B1|exact Fr|exact B2|unfold block_tree; cbn [merkle_root]; apply Hsha|apply N.mod_lt; discriminate].
Qed.
End Props.

Print Assumptions C104_bundle.
Print Assumptions C104_receipts.
Print Assumptions C104_stops.
Print Assumptions C104_reorg_refuted.
Print Assumptions C104_finalized.
Print Assumptions C104_skipped_refuted.
Print Assumptions C104_lost_refuted.
Print Assumptions C104_honest.
Print Assumptions C104_proven.
Print Assumptions C104_contents.
Print Assumptions C104_accepted.
Print Assumptions C104_refused_refuted.
Print Assumptions C104_headers.
Print Assumptions C104_roots_refuted.

(** A chain of 46 blocks; the block 10 is in the first slot of a period. *)
Module Toy.
Definition sha (x : bytes) : bytes := le_bytes 32 (fold_left (fun a b => N.land (a * 37 + b) 1048575) x 7).
Definition fk : forks := {| paris_block := 1; shanghai_time := 100; cancun_time := 200 |}.
Definition rest (h : el_header) : bytes := e_parent_hash h.
Definition hash_of (h : el_header) : bytes := toy_keccak (enc toyHC (lower rest h)).
Definition decode_tx (b : bytes) : outcome N := match b with [n] => Ok n | _ => Err end.
Definition hd (n : N) (rs : list N) (parent : bytes) : el_header := {|
  e_parent_hash := repeat 1 32; e_ommers_hash := toy_keccak (enc (listc toyHC) []); e_beneficiary := repeat 2 20; e_state_root := repeat 3 32; e_transactions_root := toy_root [];
  e_receipts_root := toy_root (map (enc Nc) rs); e_logs_bloom := repeat 0 256; e_difficulty := 0; e_number := n; e_gas_limit := 1000; e_gas_used := 0; e_timestamp := 250;
  e_extra_data := [7]; e_mix_hash := repeat 5 32; e_nonce := repeat 0 8; e_base_fee_per_gas := Some 8; e_withdrawals_root := Some (toy_root []);
  e_blob_gas_used := Some 0; e_excess_blob_gas := Some 0; e_parent_beacon_block_root := Some parent; e_requests_hash := Some (toy_root [[0]; [1]; [2]]) |}.
Definition bl (n slot : N) (rs : list N) (parent : bytes) : el_block N := {|
  b_slot := slot; proposer_index := 3; parent_root := parent; b_state_root := repeat 9 32; before := repeat (repeat 2 32) 9;
  b_payload := {| parent_hash := repeat 1 32; fee_recipient := repeat 2 20; state_root := repeat 3 32; p_receipts_root := toy_root (map (enc Nc) rs); logs_bloom := repeat 0 256; prev_randao := repeat 5 32;
    p_block_number := n; gas_limit := 1000; gas_used := 0; p_timestamp := 250; extra_data := [7]; base_fee_per_gas := 8; p_block_hash := hash_of (hd n rs parent);
    p_transactions := []; p_withdrawals := []; blob_gas_used := 0; excess_blob_gas := 0 |};
  changes := repeat 3 32; commitments := repeat 6 32; requests := {| deposits := []; withdrawal_requests := []; consolidations := [] |} |}.
Definition root1 (b : bytes) : bytes := toy_keccak b.
Definition rootq (r : el_requests) : bytes := toy_keccak (deposits r).
Notation the_root := (the_root sha root1 root1 toy_root root1 rootq).
Definition body : @block_body N N := {| transactions := []; ommers := []; withdrawals := Some [] |}.
Notation is_block := (is_block toyHC (listc toyHC) Nc Nc toy_keccak toy_root rest (fun x => x + 1) decode_tx toy_root).
Notation sound := (sound toyHC (listc toyHC) Nc Nc toy_keccak toy_root rest (fun x => x + 1) decode_tx toy_root).
Lemma block_is n slot rs parent : is_block (bl n slot rs parent) (hd n rs parent) body.
Proof.
  exists []. split; [constructor|]. split; [constructor; try reflexivity; split; reflexivity|]. split; [reflexivity|]. split; [|split]; reflexivity.
Qed.
Lemma fine n slot rs parent : len32 parent -> hashes_ok (bl n slot rs parent).
Proof. intros H. split; [repeat (constructor; [first [exact H|reflexivity]|]); constructor|]. split; [reflexivity|]. split; [reflexivity|]. apply Forall_forall. intros x I. apply repeat_spec in I as ->. reflexivity. Qed.
Definition rc (k : nat) : list N := [N.of_nat k + 1].
Definition slot0 : N := 6225910.
Definition make (k : nat) (parent : bytes) : el_block N := bl (7 + N.of_nat k) (slot0 + N.of_nat k) (rc k) parent.
Fixpoint generate (n k : nat) (parent : bytes) : list bytes := match n with O => [] | S n => let r := the_root (make k parent) in r :: generate n (S k) r end.
Definition roots : list bytes := Eval vm_compute in generate 46 0 (repeat 8 32).
Definition blk (k : nat) : el_block N := make k (nth k (repeat 8 32 :: roots) []).
Definition last : nat := 45.
Lemma roots32 b : len32 (the_root b).
Proof. unfold len32, EphBridge_Spec.the_root, block_tree. cbn [merkle_root]. apply le_bytes_length. Qed.
Lemma root_at k : (k <= last)%nat -> the_root (blk k) = nth k roots [].
Proof.
  intros H. apply beqb_spec. assert (E : forallb (fun k => beqb (the_root (blk k)) (nth k roots [])) (seq 0 46) = true) by (vm_compute; reflexivity).
  rewrite forallb_forall in E. apply E, in_seq. unfold last in H. lia.
Qed.
Lemma parent_at k : (k < last)%nat -> parent_root (blk (S k)) = the_root (blk k).
Proof. intros H. rewrite root_at by lia. reflexivity. Qed.
Lemma blk_fine k : (k <= last)%nat -> hashes_ok (blk k).
Proof. intros H. apply fine. destruct k as [|k]; [reflexivity|]. cbn [nth]. rewrite <- root_at by lia. apply roots32. Qed.
Lemma blk_is k : exists h, is_block (blk k) h body.
Proof. eexists. apply block_is. Qed.
Fixpoint distinct (l : list bytes) : bool := match l with [] => true | x :: l => forallb (fun y => negb (beqb x y)) l && distinct l end.
Lemma distinct_nodup l : distinct l = true -> NoDup l.
Proof.
  induction l as [|x l IH]; intros H; constructor; cbn [distinct] in H; apply andb_prop in H as [H1 H2]; [|auto].
  intros I. rewrite forallb_forall in H1. specialize (H1 x I). rewrite beqb_refl in H1. discriminate.
Qed.
Lemma distinct_roots : NoDup (repeat 8 32 :: roots).
Proof. apply distinct_nodup. vm_compute. reflexivity. Qed.
Lemma nth_roots k : (k <= last)%nat -> nth_error roots k = Some (the_root (blk k)).
Proof. intros H. rewrite root_at by exact H. apply nth_error_nth'. unfold last in H. change (length roots) with 46%nat. lia. Qed.
Lemma grows : growing toyHC (listc toyHC) Nc Nc toy_keccak toy_root sha rest (fun x => x + 1) decode_tx toy_root root1 root1 toy_root root1 rootq blk last.
Proof.
  pose proof distinct_roots as D. inversion D as [|? ? D1 D2]; subst. constructor.
  - exact blk_fine.
  - exact parent_at.
  - intros k _. cbn [blk make bl b_payload p_block_number]. lia.
  - intros k _. cbn [blk make bl b_slot]. lia.
  - intros k _. destruct (blk_is k) as [h H]. exists h, body. exact H.
  - intros k H E. apply D1. apply (nth_error_In roots k). rewrite nth_roots by exact H. f_equal. exact (eq_sym E).
  - intros j k Hj Hk E. apply (proj1 (NoDup_nth_error roots) D2); [change (length roots) with 46%nat; unfold last in *; lia|]. rewrite !nth_roots by assumption. congruence.
Qed.
(** clients that know these blocks *)
Fixpoint position (x : bytes) (l : list bytes) : option nat := match l with [] => None | y :: l => if beqb x y then Some 0%nat else option_map S (position x l) end.
Lemma position_nth x : forall l k, NoDup l -> nth_error l k = Some x -> position x l = Some k.
Proof.
  induction l as [|y l IH]; intros k D E; [destruct k; discriminate|]. inversion D as [|? ? D1 D2]; subst. cbn [position]. destruct (beqb x y) eqn:Eb.
  - apply beqb_spec in Eb. subst y. destruct k as [|k]; [reflexivity|]. destruct D1. exact (nth_error_In l k E).
  - destruct k as [|k]; cbn [nth_error] in E; [injection E as ->; rewrite beqb_refl in Eb; discriminate|]. rewrite (IH k D2 E). reflexivity.
Qed.
Definition cl : clients N N := {|
  cl_by_root := fun r => match position r roots with Some k => Ok (blk k) | None => Err end;
  el_receipts := fun r _ => match position r roots with Some k => Ok (rc k) | None => Err end |}.
Lemma cl_serves k : (k <= last)%nat -> serves sha root1 root1 toy_root root1 rootq blk rc cl k.
Proof.
  intros H j Hj. pose proof distinct_roots as D. inversion D as [|? ? _ D2]; subst. cbn [cl cl_by_root el_receipts]. rewrite (position_nth _ roots j D2) by (apply nth_roots; lia). auto.
Qed.
Notation along := (along sha root1 root1 toy_root root1 rootq blk rc last).
Notation R k := (the_root (blk k)).
Definition history : list (event N N) := [Head cl (R 12); Head cl (R 20); Update (R 15); Head cl (R 30); Head cl (R 42); Update (R 40); Head cl (R 45)].
Lemma history_along : along history 0 45.
Proof.
  assert (S : forall k, (k <= 45)%nat -> serves sha root1 root1 toy_root root1 rootq blk rc cl k) by (intros k H; apply cl_serves; unfold last; lia). unfold history.
  change [Head cl (R 12); Head cl (R 20); Update (R 15); Head cl (R 30); Head cl (R 42); Update (R 40); Head cl (R 45)]
    with (((((([Head cl (R 12)] ++ [Head cl (R 20)]) ++ [Update (R 15)]) ++ [Head cl (R 30)]) ++ [Head cl (R 42)]) ++ [Update (R 40)]) ++ [Head cl (R 45)]).
  apply (al_head _ _ _ _ _ _ _ _ _ _ 0 42); [|unfold last; lia|apply S; lia]. apply al_update; [|lia|lia].
  apply (al_head _ _ _ _ _ _ _ _ _ _ 0 30); [|unfold last; lia|apply S; lia]. apply (al_head _ _ _ _ _ _ _ _ _ _ 0 20); [|unfold last; lia|apply S; lia]. apply al_update; [|lia|lia].
  apply (al_head _ _ _ _ _ _ _ _ _ _ 0 12); [|unfold last; lia|apply S; lia]. apply (al_first _ _ _ _ _ _ _ _ _ cl 12); [unfold last; lia|apply S; lia].
Qed.
Notation after := (after toyHC (listc toyHC) Nc Nc toy_keccak toy_root sha rest (fun x => x + 1) decode_tx toy_root root1 root1 toy_root root1 rootq true).
Notation step := (step toyHC (listc toyHC) Nc Nc toy_keccak toy_root sha rest (fun x => x + 1) decode_tx toy_root root1 root1 toy_root root1 rootq true).
Definition state (a n : nat) : bridge N N := {| beacon_blocks := map (fun k => (R k, blk k)) (seq a n); receipts := map (fun k => (7 + N.of_nat k, rc k)) (seq a n) |}.
Lemma state_has a n j : (a <= j < a + n)%nat -> (j <= last)%nat -> has (state a n) (R j) (blk j).
Proof. intros H _. apply in_map_iff. exists j. split; [reflexivity|]. apply in_seq. exact H. Qed.
Lemma roots_len : (forall x, len32 (root1 x)) /\ (forall x, len32 (root1 x)) /\ (forall x, len32 (toy_root x)) /\ (forall x, len32 (root1 x)) /\ (forall x, len32 (rootq x)).
Proof. split; [|split; [|split; [|split]]]; intros; reflexivity. Qed.
End Toy.
(** The block 40 is attested: it and the 12 before it are gossiped.  Then the block 10, in the first slot of a period, is finalized: the ten before it are gossiped with proofs. *)
Example C104_example : exists s s1 items s2,
  Toy.after new_bridge Toy.history = Some s /\ Toy.step s (Update (Toy.the_root (Toy.blk 40))) = (s1, Some (GossipBundle (Toy.the_root (Toy.blk 40)) items)) /\ length items = 13%nat /\
  map snd items = map Toy.rc (back 40 13) /\
  Toy.step s (Finalized 194560 (Toy.the_root (Toy.blk 10)) [5]) = (s2, Some (GossipProven [5] (map Toy.blk (back 9 10)))).
Proof.
  destruct (C104_honest toyHC (listc toyHC) Nc Nc toy_keccak toy_root Toy.sha Toy.rest (fun x => x + 1) Toy.decode_tx toy_root Toy.root1 Toy.root1 toy_root Toy.root1 Toy.rootq true Toy.roots_len
    Toy.blk Toy.rc Toy.last Toy.grows Toy.history 0 45 40 Toy.history_along ltac:(lia) ltac:(lia)) as (s & s1 & items & E & U & F).
  assert (Old : forall r b, has s r b -> (194560 - 256) * 32 <= b_slot b).
  { destruct (along_follows toyHC (listc toyHC) Nc Nc toy_keccak toy_root Toy.sha Toy.rest (fun x => x + 1) Toy.decode_tx toy_root Toy.root1 Toy.root1 toy_root Toy.root1 Toy.rootq true Toy.roots_len
      Toy.blk Toy.rc Toy.last Toy.grows Toy.history 0 45 Toy.history_along) as (s0 & E0 & (_ & _ & O & _) & _). rewrite E in E0. injection E0 as <-. intros r b I. destruct (O r b I) as (j & _ & _ & ->). cbn [Toy.blk Toy.make Toy.bl b_slot]. unfold Toy.slot0. lia. }
  destruct (C104_proven toyHC (listc toyHC) Nc Nc toy_keccak toy_root Toy.sha Toy.rest (fun x => x + 1) Toy.decode_tx toy_root Toy.root1 Toy.root1 toy_root Toy.root1 Toy.rootq true Toy.roots_len
    Toy.blk Toy.rc Toy.last Toy.grows Toy.history 0 45 10 194560 [5] s Toy.history_along E eq_refl eq_refl eq_refl ltac:(lia) eq_refl Old) as (s2 & m & P & Hm & _).
  exists s, s1, items, s2. split; [exact E|]. split; [exact U|]. replace m with 0%nat in P by lia. assert (M : map snd items = map Toy.rc (back 40 13)); [|split; [rewrite <- (map_length snd), M; reflexivity|]; split; [exact M|exact P]].
  clear - F. induction F as [|i it l l' [_ H] _ IH]; [reflexivity|]. cbn [map]. rewrite H, IH. reflexivity.
Qed.
Print Assumptions C104_example.
(** After a re-org to another block with the number of the block 12 and back, the block 12 is gossiped with the receipts of the other. *)
Example C104_reorg_example :
  let other := Toy.bl 19 (Toy.slot0 + 14) [3; 9; 9] (Toy.the_root (Toy.blk 11)) in
  let cl2 := {| cl_by_root := fun _ => Ok other; el_receipts := fun _ _ => Ok [3; 9; 9] |} in
  exists s s' items h bd, Toy.after new_bridge [Head Toy.cl (Toy.the_root (Toy.blk 12)); Head cl2 (Toy.the_root other); Head Toy.cl (Toy.the_root (Toy.blk 12))] = Some s /\
    Toy.step s (Update (Toy.the_root (Toy.blk 12))) = (s', Some (GossipBundle (Toy.the_root (Toy.blk 12)) items)) /\ nth_error items 0 = Some (h, bd, [3; 9; 9]) /\ Toy.is_block (Toy.blk 12) h bd /\
    toy_root (map (enc Nc) [3; 9; 9]) <> e_receipts_root h.
Proof.
  intros other cl2. assert (Eb : map Toy.blk (back 12 13) = Toy.blk 12 :: map Toy.blk (back 11 12)) by reflexivity.
  destruct (C104_reorg_refuted toyHC (listc toyHC) Nc Nc toy_keccak toy_root Toy.sha Toy.rest (fun x => x + 1) Toy.decode_tx toy_root Toy.root1 Toy.root1 toy_root Toy.root1 Toy.rootq true Toy.roots_len
    (Toy.blk 12) other (map Toy.blk (back 11 12)) Toy.cl cl2 Toy.cl (fun b => Toy.rc (N.to_nat (p_block_number (b_payload b) - 7))) [3; 9; 9]) as (s & s' & items & h & bd & E1 & E2 & E3 & E4).
  - reflexivity.
  - rewrite <- Eb. eapply (back_linked _ _ _ _ _ _ _ _ _ _ _ _ _ _ _ _ Toy.blk Toy.rc Toy.last Toy.grows); [lia|unfold Toy.last; lia].
  - reflexivity.
  - reflexivity.
  - apply Toy.distinct_nodup. vm_compute. reflexivity.
  - rewrite <- Eb, map_map. vm_compute. repeat constructor; cbn [In]; intuition discriminate.
  - rewrite <- Eb. apply Forall_forall. intros x I. apply in_map_iff in I as (k & <- & H). apply in_back in H as (d & D & ->). split; [apply Toy.blk_fine; unfold Toy.last; lia|]. destruct (Toy.blk_is (12 - d)) as [h H]. exists h, Toy.body. exact H.
  - intros x I. rewrite <- Eb in I. apply in_map_iff in I as (k & <- & I). apply in_back in I as (d & D & ->). destruct (Toy.cl_serves 12 ltac:(unfold Toy.last; lia) (12 - d)%nat ltac:(lia)) as [A B]. split; [exact A|]. rewrite B. f_equal. f_equal.
    pose proof (num_at _ _ _ _ _ _ _ _ _ _ _ _ _ _ _ _ Toy.blk Toy.rc Toy.last Toy.grows (12 - d)%nat ltac:(unfold Toy.last; lia)) as Q. rewrite Q. change (p_block_number (b_payload (Toy.blk 0))) with 7. lia.
  - reflexivity.
  - reflexivity.
  - exists s, s', items, h, bd. split; [exact E1|]. split; [exact E2|]. split; [exact E3|]. split; [exact E4|]. destruct E4 as (txs & _ & D & _). rewrite (d_receipts _ _ _ _ _ _ _ _ _ _ D). vm_compute. discriminate.
Qed.
Print Assumptions C104_reorg_example.
(** There is no block in the first slot of the period, and the last one before it is finalized: it is not gossiped with the others, and it is gone. *)
Example C104_skipped_example : exists s s',
  Toy.after new_bridge [Head Toy.cl (Toy.the_root (Toy.blk 9))] = Some s /\ Toy.step s (Finalized 194560 (Toy.the_root (Toy.blk 9)) [5]) = (s', Some (GossipProven [5] (map Toy.blk (back 8 9)))) /\
  forall x, ~ has s' (Toy.the_root (Toy.blk 9)) x.
Proof.
  assert (E : Toy.after new_bridge [Head Toy.cl (Toy.the_root (Toy.blk 9))] = Some (Toy.state 0 10)) by (vm_compute; reflexivity).
  destruct (back_stored toyHC (listc toyHC) Nc Nc toy_keccak toy_root Toy.sha Toy.rest (fun x => x + 1) Toy.decode_tx toy_root Toy.root1 Toy.root1 toy_root Toy.root1 Toy.rootq Toy.blk Toy.rc Toy.last Toy.grows (Toy.state 0 10) 9 9 0 eq_refl) as [S1 S2].
  { unfold Toy.last; lia. } { intros j Hj. split; [unfold Toy.last; lia|]. apply Toy.state_has; unfold Toy.last; lia. }
  destruct (C104_skipped_refuted toyHC (listc toyHC) Nc Nc toy_keccak toy_root Toy.sha Toy.rest (fun x => x + 1) Toy.decode_tx toy_root Toy.root1 Toy.root1 toy_root Toy.root1 Toy.rootq true Toy.roots_len
    _ _ 194560 (Toy.the_root (Toy.blk 9)) [5] (Toy.blk 9) _ E eq_refl eq_refl eq_refl (Toy.state_has 0 10 9 ltac:(lia) ltac:(unfold Toy.last; lia)) S1) as (s' & E1 & _ & E2).
  - unfold with_roots. rewrite map_map. apply Toy.distinct_nodup. vm_compute. reflexivity.
  - intros x. rewrite S2. intros I. apply in_map_iff in I as (k & Ek & I). apply in_seq in I. apply pair_equal_spec in Ek as [Ek _]. apply (g_start _ _ _ _ _ _ _ _ _ _ _ _ _ _ _ _ _ _ Toy.grows k); [unfold Toy.last; lia|exact (eq_sym Ek)].
  - apply Forall_forall. intros x I. apply in_map_iff in I as (k & <- & I). apply in_back in I as (d & D & ->). cbn [snd Toy.blk Toy.make Toy.bl b_slot]. unfold in_period_before, Toy.slot0. lia.
  - reflexivity.
  - exists (Toy.state 0 10), s'. split; [exact E|]. split; [|exact E2]. rewrite E1. unfold with_roots. rewrite map_map. reflexivity.
Qed.
(** The checkpoint of a period was missed: blocks from before are still there at the next one, and nothing is gossiped, but the blocks are removed. *)
Example C104_lost_example : exists s s',
  Toy.after new_bridge [Head Toy.cl (Toy.the_root (Toy.blk 20))] = Some s /\ Toy.step s (Finalized 194816 (Toy.the_root (Toy.blk 20)) [5]) = (s', Some Failed) /\
  (forall k, (9 <= k <= 20)%nat -> has s (Toy.the_root (Toy.blk k)) (Toy.blk k)) /\ forall k x, (9 <= k <= 19)%nat -> ~ has s' (Toy.the_root (Toy.blk k)) x.
Proof.
  assert (E : Toy.after new_bridge [Head Toy.cl (Toy.the_root (Toy.blk 20))] = Some (Toy.state 8 13)) by (vm_compute; reflexivity).
  destruct (back_stored toyHC (listc toyHC) Nc Nc toy_keccak toy_root Toy.sha Toy.rest (fun x => x + 1) Toy.decode_tx toy_root Toy.root1 Toy.root1 toy_root Toy.root1 Toy.rootq Toy.blk Toy.rc Toy.last Toy.grows (Toy.state 8 13) 11 20 9 eq_refl) as [S1 _].
  { unfold Toy.last; lia. } { intros j Hj. split; [unfold Toy.last; lia|]. apply Toy.state_has; unfold Toy.last; lia. }
  change (with_roots Toy.sha Toy.root1 Toy.root1 toy_root Toy.root1 Toy.rootq Toy.blk (back (20 - 1) 11)) with (with_roots Toy.sha Toy.root1 Toy.root1 toy_root Toy.root1 Toy.rootq Toy.blk (back 19 10) ++ [(Toy.the_root (Toy.blk 9), Toy.blk 9)]) in S1.
  destruct (C104_lost_refuted toyHC (listc toyHC) Nc Nc toy_keccak toy_root Toy.sha Toy.rest (fun x => x + 1) Toy.decode_tx toy_root Toy.root1 Toy.root1 toy_root Toy.root1 Toy.rootq true Toy.roots_len
    _ _ 194816 (Toy.the_root (Toy.blk 20)) [5] (Toy.blk 20) _ _ _ E eq_refl eq_refl eq_refl (Toy.state_has 8 13 20 ltac:(lia) ltac:(unfold Toy.last; lia)) S1) as (s' & E1 & E2).
  - apply Toy.distinct_nodup. vm_compute. reflexivity.
  - apply Forall_forall. intros x I. apply in_map_iff in I as (k & <- & I). apply in_back in I as (d & D & ->). cbn [snd Toy.blk Toy.make Toy.bl b_slot]. unfold in_period_before, Toy.slot0. lia.
  - cbn [snd Toy.blk Toy.make Toy.bl b_slot]. unfold in_period_before, Toy.slot0. lia.
  - exists (Toy.state 8 13), s'. split; [exact E|]. split; [exact E1|]. split; [intros k Hk; apply Toy.state_has; unfold Toy.last; lia|].
    intros k x Hk I. apply E2 in I as [_ I]. apply I. rewrite map_app. apply in_app_iff. destruct (Nat.eq_dec k 9) as [->|]; [right; left; reflexivity|left]. unfold with_roots. rewrite map_map. cbn [fst].
    apply (in_map (fun k => Toy.the_root (Toy.blk k))). apply in_back. exists (19 - k)%nat. lia.
Qed.
Print Assumptions C104_skipped_example.
Print Assumptions C104_lost_example.

Section All.
Context (P : bytes -> Prop) (f : bytes -> bytes) (Pf : forall x, P (f x)) (P0 : P (repeat 0 32)).
Lemma rs_root_all d : forall l, Forall P l -> length l = (2 ^ d)%nat -> P (rs_root f d l).
Proof. destruct d as [|d]; intros l F L; cbn [rs_root]; [|apply Pf]. destruct l as [|x l]; [discriminate|]. exact (Forall_inv F). Qed.
Lemma rs_proof_all d : forall l i, Forall P l -> length l = (2 ^ d)%nat -> Forall P (rs_proof f d l i).
Proof.
  induction d as [|d IH]; intros l i F L; cbn [rs_proof]; [constructor|]. cbn [Nat.pow] in L.
  destruct (N.testbit i (N.of_nat d)); apply Forall_app; (split; [apply IH|constructor; [apply rs_root_all|constructor]]); first [apply firstn_forall; exact F|apply skipn_forall; exact F|rewrite firstn_length; lia|rewrite skipn_length; lia].
Qed.
Lemma rs_proof_length d : forall l i, length (rs_proof f d l i) = d.
Proof. induction d as [|d IH]; intros l i; cbn [rs_proof]; [reflexivity|]. destruct (N.testbit i (N.of_nat d)); rewrite app_length, IH; cbn [length]; lia. Qed.
Lemma built_all l i : Forall P l -> Forall P (build_merkle_proof f l i).
Proof.
  intros F. unfold build_merkle_proof. apply rs_proof_all.
  - apply firstn_forall, Forall_app. split; [exact F|]. apply Forall_forall. intros x I. apply repeat_spec in I as ->. exact P0.
  - rewrite firstn_length, app_length, repeat_length, N2Nat.inj_pow. change (N.to_nat 2) with 2%nat. lia.
Qed.
End All.
Module Toy2.
Definition count : nat := N.to_nat 8192.
Definition period_roots : list bytes := map (fun i => Toy.the_root (Toy.blk (N.to_nat (N.of_nat i - 8182)))) (seq 0 count).
Definition ba : batch := {| block_roots := period_roots; state_roots := repeat (repeat 9 32) count |}.
Definition ch : chain := {| epochs := []; batches := []; later_batches := [ba; ba] |}.
Definition source := Some (map (batch_summary Toy.sha) (later_batches ch)).
Definition st : beacon_state := {| st_slot := 6225920; st_block_roots := period_roots; st_state_roots := repeat (repeat 9 32) count; st_summaries := [] |}.
(** the state of the next slot, after one without a block: the first root was replaced *)
Definition later : beacon_state := {| st_slot := 6225921; st_block_roots := put 0 (repeat 77 32) period_roots; st_state_roots := repeat (repeat 9 32) count; st_summaries := [] |}.
Lemma len_sha x : hash32 (Toy.sha x).
Proof. split; [apply le_bytes_length|apply le_bytes_ok]. Qed.
Lemma len_roots : blen period_roots = 8192.
Proof. unfold blen, period_roots. rewrite map_length, seq_length. apply N2Nat.id. Qed.
Lemma root_hash b : hash32 (Toy.the_root b).
Proof. unfold EphBridge_Spec.the_root, block_tree. cbn [merkle_root]. apply len_sha. Qed.
Lemma roots_hash : Forall hash32 period_roots.
Proof. unfold period_roots. generalize count. intros n. apply Forall_forall. intros x I. apply in_map_iff in I as (s & <- & _). apply root_hash. Qed.
Lemma roots_32 : Forall len32 period_roots.
Proof. eapply Forall_impl; [|exact roots_hash]. intros x [H _]. exact H. Qed.
Lemma chain_fine : chain_ok ch.
Proof.
  assert (B : batch_ok ba).
  { split; [apply len_roots|]. split; [apply roots_32|]. split; [unfold blen, ba; cbn [state_roots]; rewrite repeat_length; apply N2Nat.id|]. apply Forall_forall. intros x I. apply repeat_spec in I as ->. reflexivity. }
  split; [constructor|]. split; [constructor|]. constructor; [exact B|constructor; [exact B|constructor]].
Qed.
Lemma source_honest : honest Toy.sha ch source.
Proof. intros l E. exists 2%nat. assert (Q : forall A (x y : A), Some x = Some y -> x = y) by (intros A x y H; injection H; auto). apply Q in E. rewrite <- E. reflexivity. Qed.
Lemma slot_at k : (k <= 9)%nat -> b_slot (Toy.blk k) mod 8192 = 8182 + N.of_nat k /\ (b_slot (Toy.blk k) - 194048 * 32) / 8192 = 1.
Proof. intros H. cbn [Toy.blk Toy.make Toy.bl b_slot]. unfold Toy.slot0. lia. Qed.
Lemma root_in k : (k <= 9)%nat -> nth_error period_roots (N.to_nat (b_slot (Toy.blk k) mod 8192)) = Some (Toy.the_root (Toy.blk k)).
Proof.
  intros H. destruct (slot_at k H) as [-> _]. unfold period_roots. rewrite nth_error_map. assert (L : (N.to_nat (8182 + N.of_nat k) < count)%nat) by (unfold count; lia). rewrite (nth_error_nth' _ 0%nat) by (rewrite seq_length; exact L).
  rewrite seq_nth by exact L. cbn [option_map]. f_equal. f_equal. f_equal. lia.
Qed.
Lemma period_of k : (k <= 9)%nat -> period ch Electra (b_slot (Toy.blk k)) ba.
Proof. intros H. split; [cbn [Toy.blk Toy.make Toy.bl b_slot]; unfold Toy.slot0; lia|]. destruct (slot_at k H) as [_ ->]. reflexivity. Qed.
Definition tree k := tree_of Toy.root1 Toy.root1 toy_root Toy.root1 Toy.rootq Electra (Toy.blk k).
Definition hashb (x : bytes) : bool := (blen x =? 32) && forallb (fun b => b <? 256) x.
Lemma hashb_ok x : hashb x = true -> hash32 x.
Proof.
  intros H. apply andb_prop in H as [H1 H2]. apply N.eqb_eq in H1. split; [unfold blen in H1; lia|]. apply Forall_forall. intros b I. rewrite forallb_forall in H2. apply N.ltb_lt, H2, I.
Qed.
Lemma leaves k : (k <= 9)%nat -> Forall hash32 (payload (tree k) ++ body_before (tree k) ++ body_after (tree k) ++ bb_fields (tree k) ++ [payload_root Toy.sha (tree k); body_root Toy.sha (tree k)]).
Proof.
  intros H. assert (E : forallb (fun k => forallb hashb (payload (tree k) ++ body_before (tree k) ++ body_after (tree k) ++ bb_fields (tree k) ++ [payload_root Toy.sha (tree k); body_root Toy.sha (tree k)])) (seq 0 10) = true) by (vm_compute; reflexivity).
  rewrite forallb_forall in E. specialize (E k). rewrite forallb_forall in E. apply Forall_forall. intros x I. apply hashb_ok, E; [apply in_seq; lia|exact I].
Qed.
Notation validate := (validate_legacy toyHC (listc toyHC) Nc Nc Nc toy_keccak toy_root Toy.sha Toy.fk).
Notation gossip_proven := (gossip_proven toyHC (listc toyHC) Nc Nc Nc toy_keccak toy_root Toy.sha Toy.rest (fun x => x + 1) Toy.decode_tx toy_root Toy.root1 Toy.root1 toy_root Toy.root1 Toy.rootq).
Notation proof_of := (proof_of Toy.sha Toy.root1 Toy.root1 toy_root Toy.root1 Toy.rootq).
Lemma tree_ok k : (k <= 9)%nat -> shaped 5 (tree k).
Proof. intros H. apply tree_shaped; [exact Toy.roots_len|]. apply Toy.blk_fine. unfold Toy.last. lia. Qed.
Lemma fits k br : (k <= 9)%nat -> blen br = 8192 -> Forall hash32 br -> proof_ok (proof_of (Toy.blk k) br).
Proof.
  intros H L F. pose proof (leaves k H) as Fl. rewrite !Forall_app in Fl. destruct Fl as (F1 & F2 & F3 & F4 & F5). pose proof (Forall_inv F5) as G1. pose proof (Forall_inv (Forall_inv_tail F5)) as G2.
  destruct (execution_proof_ok Toy.sha 5 (tree k) 6444 (tree_ok k H) (or_intror eq_refl) eq_refl eq_refl eq_refl) as (T1 & T2 & _).
  assert (Z : hash32 (repeat 0 32)) by (split; [reflexivity|unfold bytes_ok; apply Forall_forall; intros x I; apply repeat_spec in I as ->; reflexivity]).
  unfold EphBridge_Props.proof_of, build_historical_summaries_proof. fold (tree k). split; cbn [typed beacon_block_proof execution_block_proof].
  - split; [|exact T2]. unfold build_merkle_proof. rewrite rs_proof_length, L. reflexivity.
  - split; [|split; [|split]]; cbn [beacon_block_proof beacon_block_root execution_block_proof Header_Model.slot].
    + apply built_all; [exact len_sha|exact Z|exact F].
    + rewrite T1. exact (root_hash (Toy.blk k)).
    + unfold build_execution_block_hash_proof. rewrite !Forall_app. split; [|split]; apply built_all; try exact len_sha; try exact Z; [exact F1| |].
      * rewrite !Forall_app. split; [exact F2|]. split; [constructor; [exact G1|constructor]|exact F3].
      * rewrite Forall_app. split; [exact F4|constructor; [exact G2|constructor]].
    + cbn [Toy.blk Toy.make Toy.bl b_slot]. unfold Toy.slot0. lia.
Qed.
Lemma header_small k parent : (k <= 9)%nat -> blen (enc toyHC (lower Toy.rest (Toy.hd (7 + N.of_nat k) (Toy.rc k) parent))) <= 2048.
Proof.
  intros H. change (lower Toy.rest (Toy.hd (7 + N.of_nat k) (Toy.rc k) parent)) with (lower Toy.rest (Toy.hd (7 + N.of_nat k) (Toy.rc k) [])).
  assert (E : forallb (fun k => blen (enc toyHC (lower Toy.rest (Toy.hd (7 + N.of_nat k) (Toy.rc k) []))) <=? 2048) (seq 0 10) = true) by (vm_compute; reflexivity).
  rewrite forallb_forall in E. apply N.leb_le, E, in_seq. lia.
Qed.
End Toy2.
Lemma toy_first : nth_error Toy2.period_roots 0 = Some (Toy.the_root (Toy.blk 0)).
Proof.
  unfold Toy2.period_roots. rewrite nth_error_map, (nth_error_nth' _ 0%nat) by (rewrite seq_length; unfold Toy2.count; lia). rewrite seq_nth by (unfold Toy2.count; lia). reflexivity.
Qed.
Opaque Toy2.period_roots.
Lemma toy_later : st_block_roots Toy2.later = put 0 (repeat 77 32) Toy2.period_roots. Proof. unfold Toy2.later. cbn [st_block_roots]. reflexivity. Qed.
Lemma toy_state : st_block_roots Toy2.st = block_roots Toy2.ba. Proof. unfold Toy2.st, Toy2.ba. cbn [st_block_roots block_roots]. reflexivity. Qed.
Definition toy_blocks : list (el_block N) := map Toy.blk (back 9 10).
Lemma toy_in b : In b toy_blocks -> exists k, (k <= 9)%nat /\ b = Toy.blk k.
Proof. intros I. apply in_map_iff in I as (k & <- & I). apply in_back in I as (d & D & ->). exists (9 - d)%nat. split; [lia|reflexivity]. Qed.
Lemma toy_sound : Forall (sound toyHC (listc toyHC) Nc Nc toy_keccak toy_root Toy.rest (fun x => x + 1) Toy.decode_tx toy_root) toy_blocks.
Proof. apply Forall_forall. intros b I. destruct (toy_in b I) as (k & _ & ->). destruct (Toy.blk_is k) as [h H]. exists h, Toy.body. exact H. Qed.
Lemma toy_value k h bd br key : (k <= 9)%nat -> Toy.is_block (Toy.blk k) h bd -> blen br = 8192 -> Forall hash32 br -> (exists x, key = BlockHeaderByHash x) \/ (exists x, key = BlockHeaderByNumber x) ->
  legacy_value_ok toyHC (listc toyHC) Nc Nc Nc Toy.fk key (VHeader (lower Toy.rest h, Toy2.proof_of (Toy.blk k) br)).
Proof.
  intros Hk Hb L F Ky. assert (G : blen (enc toyHC (lower Toy.rest h)) <= 2048 /\ LegacyHistory_Spec.era Toy.fk (lower Toy.rest h) (Toy2.proof_of (Toy.blk k) br) /\ proof_ok (Toy2.proof_of (Toy.blk k) br)).
  { split; [|split; [|exact (Toy2.fits k br Hk L F)]].
    - pose proof (proj2 (build_is_block toyHC (listc toyHC) Nc Nc toy_keccak toy_root Toy.sha Toy.rest (fun x => x + 1) Toy.decode_tx toy_root Toy.root1 Toy.root1 toy_root Toy.root1 Toy.rootq (Toy.blk k) br [] h _ bd) (conj Hb eq_refl)) as E1.
      pose proof (proj2 (build_is_block toyHC (listc toyHC) Nc Nc toy_keccak toy_root Toy.sha Toy.rest (fun x => x + 1) Toy.decode_tx toy_root Toy.root1 Toy.root1 toy_root Toy.root1 Toy.rootq (Toy.blk k) br [] _ _ _) (conj (Toy.block_is _ _ _ _) eq_refl)) as E2.
      rewrite E1 in E2. apply (f_equal (fun o => match o with Ok (a, _, _) => a | _ => h end)) in E2. cbv beta iota in E2. rewrite E2. apply Toy2.header_small. exact Hk.
    - destruct Hb as (txs & _ & D & _). cbn [LegacyHistory_Spec.era EphBridge_Props.proof_of lower timestamp]. rewrite (d_timestamp _ _ _ _ _ _ _ _ _ _ D). vm_compute. discriminate. }
  destruct Ky as [[x ->]|[x ->]]; exact G.
Qed.
(** The state has the roots of the period: the headers of the ten blocks are offered, and each node accepts them. *)
Example C104_headers_example :
  snd (Toy2.gossip_proven (Ok Toy2.st) toy_blocks) = Ok tt /\
  (forall k, (k <= 9)%nat -> exists value, In (BlockHeaderByNumber (7 + N.of_nat k), value) (fst (Toy2.gossip_proven (Ok Toy2.st) toy_blocks))) /\
  Forall (fun x => exists value, snd x = Ok value /\ snd (Toy2.validate (fresh Toy.sha Toy2.ch) Toy2.source (fun _ => None) (fst x) value) = Ok CanonicallyValid) (fst (Toy2.gossip_proven (Ok Toy2.st) toy_blocks)).
Proof.
  destruct (C104_headers toyHC (listc toyHC) Nc Nc Nc toy_keccak toy_root Toy.sha Toy.rest (fun x => x + 1) Toy.decode_tx toy_root Toy.root1 Toy.root1 toy_root Toy.root1 Toy.rootq Toy.roots_len Toy.fk
    Toy2.ch (fresh Toy.sha Toy2.ch) Toy2.source Toy2.ba Toy2.st toy_blocks (proj1 toy_proper) Toy2.chain_fine (R_new _ _ _) Toy2.source_honest toy_state) as (A & B & C).
  - apply Forall_forall. intros b I. pose proof toy_sound as S. rewrite Forall_forall in S. specialize (S b I). destruct (toy_in b I) as (k & Hk & ->). split; [apply Toy.blk_fine; unfold Toy.last; lia|]. split; [exact S|].
    split; [exact (Toy2.period_of k Hk)|]. split; [exists 2%nat; split; [destruct (Toy2.slot_at k Hk) as [_ ->]; lia|reflexivity]|]. split; [vm_compute; discriminate|]. exact (Toy2.root_in k Hk).
  - split; [exact A|]. split.
    + intros k Hk. destruct (B (Toy.blk k)) as (h & bd & _ & _ & I); [apply in_map, in_back; exists (9 - k)%nat; lia|]. eexists. exact I.
    + destruct (proven_all toyHC (listc toyHC) Nc Nc Nc toy_keccak toy_root Toy.sha Toy.rest (fun x => x + 1) Toy.decode_tx toy_root Toy.root1 Toy.root1 toy_root Toy.root1 Toy.rootq (st_block_roots Toy2.st) (st_state_roots Toy2.st) toy_blocks toy_sound) as [_ P].
      apply Forall_forall. intros [key o] I. cbn [fst snd]. destruct (proj1 (P key o) I) as (b & h & bd & Ib & Hb & Hk & E). cbn [legacy_encode] in E. eexists. split; [exact E|]. rewrite E in I. apply (C key _ _ I).
      intros b' h' bd' Ib' Hb'. destruct (toy_in b' Ib') as (k & Lk & ->). apply (toy_value k h' bd'); [exact Lk|exact Hb'|exact Toy2.len_roots|exact Toy2.roots_hash|]. destruct Hk as [-> | ->]; [left|right]; eexists; reflexivity.
Qed.
Print Assumptions C104_headers_example.
(** The state of the slot after has another first root: no node accepts the header of the block 9, or there is a collision. *)
Example C104_roots_example : exists value,
  In (BlockHeaderByNumber 16, Ok value) (fst (Toy2.gossip_proven (Ok Toy2.later) toy_blocks)) /\
  (snd (Toy2.validate (fresh Toy.sha Toy2.ch) Toy2.source (fun _ => None) (BlockHeaderByNumber 16) value) <> Ok CanonicallyValid \/
   exists x y, In x (hashed_by_tree Toy.sha 13 (put (N.to_nat (b_slot (Toy.blk 9) mod 8192)) (Toy.the_root (Toy.blk 9)) (st_block_roots Toy2.later))) /\ In y (hashed_by_tree Toy.sha 13 (block_roots Toy2.ba)) /\ collision Toy.sha x y).
Proof.
  destruct (Toy.blk_is 9) as [h Hb]. assert (L0 : (0 < length Toy2.period_roots)%nat) by (pose proof Toy2.len_roots; unfold blen in *; lia).
  assert (L : blen (st_block_roots Toy2.later) = 8192) by (rewrite toy_later; unfold blen; rewrite put_length by exact L0; exact Toy2.len_roots).
  assert (F : Forall hash32 (st_block_roots Toy2.later)).
  { rewrite toy_later; unfold put; apply Forall_app; split; [apply firstn_forall, Toy2.roots_hash|constructor; [split; [reflexivity|unfold bytes_ok; apply Forall_forall; intros x I; apply repeat_spec in I as ->; reflexivity]|apply skipn_forall, Toy2.roots_hash]]. }
  destruct (C104_roots_refuted toyHC (listc toyHC) Nc Nc Nc toy_keccak toy_root Toy.sha Toy.rest (fun x => x + 1) Toy.decode_tx toy_root Toy.root1 Toy.root1 toy_root Toy.root1 Toy.rootq Toy.roots_len Toy.fk (fun x => le_bytes_length 32 _) (proj1 toy_proper)
    Toy2.ch (fresh Toy.sha Toy2.ch) Toy2.source Toy2.ba Toy2.later toy_blocks (Toy.blk 9) h Toy.body 0%nat (fun _ => None) Toy2.chain_fine (R_new _ _ _) Toy2.source_honest toy_sound) as (value & _ & I & D).
  - apply in_map, in_back. exists 0%nat. lia.
  - exact Hb.
  - apply Toy.blk_fine. unfold Toy.last. lia.
  - apply Toy2.period_of. lia.
  - exact L.
  - eapply Forall_impl; [|exact F]. intros x [H _]. exact H.
  - destruct (Toy2.slot_at 9 ltac:(lia)) as [-> _]. lia.
  - rewrite toy_later, put_nth by exact L0. cbn [Nat.eqb]. cbn [Toy2.ba block_roots]. rewrite toy_first. vm_compute. discriminate.
  - apply (toy_value 9 h Toy.body); [lia|exact Hb|exact L|exact F|left; eexists; reflexivity].
  - exists value. split; [exact I|]. destruct D as [[_ D]|D]; [left; exact D|right; exact D].
Qed.
Print Assumptions C104_roots_example.
(** Bodies and receipts are accepted where the header is found; where it is not, they are not. *)
Example C104_accepted_example : let h := Toy.hd 7 [1] (repeat 8 32) in let key := BlockReceipts (Toy.hash_of h) in let val := header_value toyHC (lower Toy.rest h) [] (Toy2.proof_of (Toy.blk 0) Toy2.period_roots) in
  forall v, exists value, legacy_encode toyHC (listc toyHC) Nc Nc Nc (VReceipts [1]) = Ok value /\
  Toy2.validate v None (fun k => match k with BlockHeaderByHash _ => Some val | _ => None end) key value = (v, Ok CanonicallyValid) /\
  snd (Toy2.validate v None (fun _ => None) key value) <> Ok CanonicallyValid.
Proof.
  intros h key val v. eexists. split; [reflexivity|]. destruct toy_proper as (T1 & T2 & T3). split; [|vm_compute; discriminate].
  apply (C104_accepted toyHC (listc toyHC) Nc Nc Nc toy_keccak toy_root Toy.sha Toy.rest (fun x => x + 1) Toy.decode_tx toy_root Toy.fk T1 T2 T3 T3 T3 v None _ (Toy.blk 0) h Toy.body [1]).
  - apply Toy.block_is.
  - unfold find_header. cbn [legacy_decode]. unfold val. destruct (toy_value 0 h Toy.body Toy2.period_roots (BlockHeaderByHash [])) as (O1 & O2 & O3); [lia|apply Toy.block_is|exact Toy2.len_roots|exact Toy2.roots_hash|left; eexists; reflexivity|].
    rewrite hwp_ok; [reflexivity|apply T1|rewrite app_nil_r; exact O1|exact O2|exact O3].
  - right. split; [reflexivity|]. split; [reflexivity|]. split; [|reflexivity]. split; [vm_compute; reflexivity|vm_compute; discriminate].
Qed.
Print Assumptions C104_accepted_example.
(** A block whose payload has another hash than its header stops the bridge, as does the epoch 0 where overflows are checked. *)
Example C104_stops_example :
  let p := b_payload (Toy.blk 12) in
  let bad := {| b_slot := 6225922; proposer_index := 3; parent_root := Toy.the_root (Toy.blk 11); b_state_root := repeat 9 32; before := repeat (repeat 2 32) 9;
    b_payload := {| parent_hash := parent_hash p; fee_recipient := fee_recipient p; state_root := state_root p; p_receipts_root := p_receipts_root p; logs_bloom := logs_bloom p; prev_randao := prev_randao p;
      p_block_number := 19; gas_limit := 1000; gas_used := 0; p_timestamp := 250; extra_data := [7]; base_fee_per_gas := 8; p_block_hash := repeat 66 32; p_transactions := []; p_withdrawals := []; blob_gas_used := 0; excess_blob_gas := 0 |};
    changes := repeat 3 32; commitments := repeat 6 32; requests := requests (Toy.blk 12) |} in
  let c := {| cl_by_root := fun r => if beqb r (Toy.the_root bad) then Ok bad else cl_by_root Toy.cl r; el_receipts := fun r n => if beqb r (Toy.the_root bad) then Ok [] else el_receipts Toy.cl r n |} in
  (exists s, Toy.after new_bridge [Head c (Toy.the_root bad)] = Some s /\ snd (Toy.step s (Update (Toy.the_root bad))) = None) /\
  (exists s, Toy.after new_bridge [Head Toy.cl (Toy.the_root (Toy.blk 12))] = Some s /\ snd (Toy.step s (Finalized 0 (Toy.the_root (Toy.blk 12)) [5])) = None).
Proof.
  intros p bad c. split.
  - destruct (Toy.after new_bridge [Head c (Toy.the_root bad)]) as [s|] eqn:E; [|exfalso; revert E; vm_compute; discriminate]. exists s. split; [reflexivity|].
    enough (Q : match Toy.after new_bridge [Head c (Toy.the_root bad)] with Some s => snd (Toy.step s (Update (Toy.the_root bad))) | None => Some Nothing end = None) by (rewrite E in Q; exact Q). vm_compute. reflexivity.
  - destruct (Toy.after new_bridge [Head Toy.cl (Toy.the_root (Toy.blk 12))]) as [s|] eqn:E; [|exfalso; revert E; vm_compute; discriminate]. exists s. split; [reflexivity|].
    enough (Q : match Toy.after new_bridge [Head Toy.cl (Toy.the_root (Toy.blk 12))] with Some s => snd (Toy.step s (Finalized 0 (Toy.the_root (Toy.blk 12)) [5])) | None => Some Nothing end = None) by (rewrite E in Q; exact Q). vm_compute. reflexivity.
Qed.
Print Assumptions C104_stops_example.
Print Assumptions C104_quiet.
