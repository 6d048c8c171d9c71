(** Properties C25, C26 and C27: paths, content keys and content ids. *)
From Verif Require Import Base Ssz_Model Ssz_Proofs Keys_Model Keys_Spec Keys_Proofs.

Lemma path_path_ok p : path p <-> path_ok p.
Proof.
  unfold path, path_ok, blen. split; intros [L F]; (split; [lia|]); eapply Forall_impl; try exact F; cbv beta; intros; lia.
Qed.

(** C25: every path is read back from its encoding, of one byte and one more for every two
    nibbles; *)
Theorem C25_round_trip : forall p, path p ->
  nibbles_decode (nibbles_encode p) = Ok p /\ bytes_ok (nibbles_encode p) /\ length (nibbles_encode p) = (1 + length p / 2)%nat.
Proof.
  intros p H. apply path_path_ok in H. split; [apply nibbles_round_trip, H|]. split; [apply nibbles_encode_ok, H|apply nibbles_encode_len].
Qed.
Print Assumptions C25_round_trip.
(** exactly the encodings of paths are accepted; so each path has one encoding. *)
Theorem C25_accepted : forall b p, bytes_ok b ->
  (nibbles_decode b = Ok p <-> path p /\ nibbles_encode p = b).
Proof.
  intros b p Hb. split.
  - intros H. destruct (nibbles_canonical b p Hb H) as [P E]. split; [apply path_path_ok, P|exact E].
  - intros [P <-]. apply C25_round_trip, P.
Qed.
Print Assumptions C25_accepted.
(** The layout: the number of nibbles modulo 2 is the first nibble; then comes the path, after
    a zero nibble when it is even. *)
Theorem C25_layout : forall p, path p ->
  unpack_nibbles (nibbles_encode p) = (if Nat.even (length p) then [0; 0] else [1]) ++ p.
Proof.
  intros p H. apply path_path_ok in H as [L F]. pose proof (parity p) as P. unfold nibbles_encode. destruct (blen p mod 2 =? 0).
  - assert (E : Nat.even (length p) = true) by (apply Nat.even_spec; exact P). rewrite E.
    cbn [unpack_nibbles flat_map app]. change (unpack_pair 0) with [0; 0]. cbn [app]. do 2 f_equal.
    change (flat_map unpack_pair (pack_pairs p)) with (unpack_nibbles (pack_pairs p)). apply unpack_pack_pairs; assumption.
  - destruct P as (n & r & -> & E). inversion F as [|? ? Hn Hr]; subst.
    assert (E2 : Nat.even (length (n :: r)) = false).
    { cbn [length]. rewrite Nat.even_succ. rewrite <- Nat.negb_even. rewrite (proj2 (Nat.even_spec _) E). reflexivity. }
    rewrite E2. cbn [unpack_nibbles flat_map]. rewrite or16 by exact Hn.
    assert (U : unpack_pair (16 + n) = [1; n]).
    { change (16 + n) with (16 * 1 + n). rewrite <- pack_arith by lia. apply unpack_pack; lia. }
    rewrite U. cbn [app]. do 2 f_equal. change (flat_map unpack_pair (pack_pairs r)) with (unpack_nibbles (pack_pairs r)).
    apply unpack_pack_pairs; assumption.
Qed.
Print Assumptions C25_layout.

(** ** C26 *)
Lemma enc1 x : encode_container [PFix x] = x.
Proof. unfold encode_container. cbn [heads tails heads_len]. rewrite !app_nil_r. reflexivity. Qed.
Lemma enc2 x y : encode_container [PFix x; PFix y] = x ++ y.
Proof. unfold encode_container. cbn [heads tails heads_len]. rewrite !app_nil_r. reflexivity. Qed.
Lemma blen_hash h : hash32 h -> blen h = 32.
Proof. intros [L _]. unfold blen. rewrite L. reflexivity. Qed.
Lemma c1_ok n x : blen x = n -> n < 2 ^ 32 -> container1 (Some n) (encode_container [PFix x]) = Ok x.
Proof. intros L B. apply (container1_ok (Some n) x L). change (part_of (Some n) x) with (PFix x). rewrite enc1, L. exact B. Qed.
Lemma c1_inv n b x : bytes_ok b -> container1 (Some n) b = Ok x -> blen x = n /\ x = b.
Proof. intros Hb H. apply container1_inv in H as [F E]; [|exact Hb]. cbn [part_of] in E. rewrite enc1 in E. split; assumption. Qed.
Lemma c2_ok n m x y : blen x = n -> blen y = m -> n + m < 2 ^ 32 -> container2 (Some n) (Some m) (encode_container [PFix x; PFix y]) = Ok (x, y).
Proof.
  intros L M B. apply (container2_ok (Some n) (Some m) x y L M). change (encode_container _) with (encode_container [PFix x; PFix y]).
  rewrite enc2, blen_app, L, M. exact B.
Qed.
Lemma c2_inv n m b x y : bytes_ok b -> container2 (Some n) (Some m) b = Ok (x, y) -> blen x = n /\ blen y = m /\ x ++ y = b.
Proof. intros Hb H. apply container2_inv in H as (F & G & E); [|exact Hb]. cbn [part_of] in E. rewrite enc2 in E. repeat split; assumption. Qed.
Lemma u64_len x : blen (u64 x) = 8.
Proof. unfold u64, blen. rewrite le_bytes_length. reflexivity. Qed.
Lemma u8_len x : blen (u8 x) = 1.
Proof. reflexivity. Qed.
Lemma hash32_of h b : bytes_ok b -> blen h = 32 -> h = b -> hash32 h.
Proof. intros Hb L ->. split; [unfold blen in L; lia|exact Hb]. Qed.
Lemma u64_ok x : x < 2 ^ 64 -> decode_uint 8 (u64 x) = Ok x.
Proof. intros H. apply uint_ok. exact H. Qed.
Lemma u64_inv b x : bytes_ok b -> decode_uint 8 b = Ok x -> x < 2 ^ 64 /\ b = u64 x.
Proof. intros Hb H. apply (uint_inv 8 b x Hb H). Qed.
Lemma container1_no_panic f b : container1 f b <> Panic.
Proof. unfold container1. pose proof (decode_container_no_panic [f] b). destruct (decode_container [f] b) as [[|? [|? ?]]| |]; cbn; congruence. Qed.
Lemma container2_no_panic f g b : container2 f g b <> Panic.
Proof. unfold container2. pose proof (decode_container_no_panic [f; g] b). destruct (decode_container [f; g] b) as [[|? [|? [|? ?]]]| |]; cbn; congruence. Qed.
Lemma container3_no_panic f g h b : container3 f g h b <> Panic.
Proof. unfold container3. pose proof (decode_container_no_panic [f; g; h] b). destruct (decode_container [f; g; h] b) as [[|? [|? [|? [|? ?]]]]| |]; cbn; congruence. Qed.
Lemma decode_uint_no_panic n b : decode_uint n b <> Panic.
Proof. unfold decode_uint. destruct (Nat.eqb _ _); discriminate. Qed.
Lemma nibbles_no_panic b : nibbles_decode b <> Panic.
Proof.
  unfold nibbles_decode, try_from_unpacked. destruct b as [|x b]; [discriminate|].
  repeat match goal with |- (if ?c then _ else _) <> _ => destruct c | |- _ => discriminate end.
Qed.

Lemma unambiguous_of {key} (valid : key -> Prop) to_bytes from_bytes :
  (forall k, valid k -> bytes_ok (to_bytes k) /\ from_bytes (to_bytes k) = Ok k) ->
  (forall b k, bytes_ok b -> from_bytes b = Ok k -> valid k /\ to_bytes k = b) ->
  (forall b, from_bytes b <> Panic) ->
  unambiguous valid to_bytes from_bytes.
Proof.
  intros A B C. split; auto. intros k1 k2 H1 H2 E. destruct (A k1 H1) as [_ E1]. destruct (A k2 H2) as [_ E2]. rewrite E in E1. congruence.
Qed.

Ltac sel := repeat match goal with |- context [?a =? ?b] => first [change (a =? b) with true | change (a =? b) with false]; cbv iota end.
Ltac ok_bytes := apply bytes_ok_cons; split; [reflexivity|]; rewrite ?enc1, ?enc2, ?bytes_ok_app; repeat match goal with |- _ /\ _ => split end;
  first [apply le_bytes_ok | match goal with H : hash32 ?h |- bytes_ok ?h => exact (proj2 H) end].
Lemma omap_ok {A B} (f : A -> B) x y : omap f x = Ok y -> exists a, x = Ok a /\ f a = y.
Proof. destruct x; cbn; intros [= <-]. eauto. Qed.
Lemma obind_ok {A B} (f : A -> outcome B) x y : obind x f = Ok y -> exists a, x = Ok a /\ f a = Ok y.
Proof. destruct x; cbn; intros H; try discriminate. eauto. Qed.
Ltac dec H := repeat match type of H with
  | omap _ _ = Ok _ => apply omap_ok in H as (? & ? & H)
  | obind _ _ = Ok _ => apply obind_ok in H as (? & ? & H)
  end.
Ltac np := repeat first
  [ discriminate
  | apply container1_no_panic | apply container2_no_panic | apply container3_no_panic | apply decode_uint_no_panic | apply nibbles_no_panic
  | match goal with |- (if ?c then _ else _) <> _ => destruct c
    | |- omap _ ?x <> _ => let E := fresh in destruct x eqn:E; cbn [omap]; [discriminate|discriminate|exfalso; revert E]
    | |- obind ?x _ <> _ => let E := fresh in destruct x eqn:E; cbn [obind]; [|discriminate|exfalso; revert E] end ].

(** C26: the keys of the legacy history network, *)
Theorem C26_legacy_history : unambiguous legacy_valid legacy_to_bytes legacy_from_bytes.
Proof.
  apply unambiguous_of.
  - intros k V. destruct k as [h|n|h|h|h c|h]; cbn [legacy_valid legacy_to_bytes legacy_from_bytes] in *; sel.
    + split; [ok_bytes|]. rewrite c1_ok by (auto using blen_hash; reflexivity). reflexivity.
    + split; [ok_bytes|]. rewrite c1_ok by (apply u64_len || reflexivity). cbn [obind]. rewrite u64_ok by exact V. reflexivity.
    + split; [ok_bytes|]. rewrite c1_ok by (auto using blen_hash; reflexivity). reflexivity.
    + split; [ok_bytes|]. rewrite c1_ok by (auto using blen_hash; reflexivity). reflexivity.
    + destruct V as [Hh Hc]. split; [ok_bytes|]. rewrite c2_ok by (auto using blen_hash, u8_len; reflexivity). cbn [obind fst snd].
      unfold u8. rewrite uint_ok by exact Hc. reflexivity.
    + split; [ok_bytes|]. rewrite c1_ok by (auto using blen_hash; reflexivity). reflexivity.
  - intros [|s b] k Hb H; [discriminate|]. apply bytes_ok_cons in Hb as [Hs Hb]. cbn [legacy_from_bytes] in H.
    destruct (N.eqb_spec s 0) as [->|_].
    { dec H. apply c1_inv in H0 as [L ->]; [|exact Hb]. subst k. cbn [legacy_valid legacy_to_bytes beacon_valid beacon_to_bytes]. rewrite enc1. split; [eapply hash32_of; eauto|reflexivity]. }
    destruct (N.eqb_spec s 1) as [->|_].
    { dec H. apply c1_inv in H0 as [L ->]; [|exact Hb]. subst k. cbn [legacy_valid legacy_to_bytes beacon_valid beacon_to_bytes]. rewrite enc1. split; [eapply hash32_of; eauto|reflexivity]. }
    destruct (N.eqb_spec s 2) as [->|_].
    { dec H. apply c1_inv in H0 as [L ->]; [|exact Hb]. subst k. cbn [legacy_valid legacy_to_bytes beacon_valid beacon_to_bytes]. rewrite enc1. split; [eapply hash32_of; eauto|reflexivity]. }
    destruct (N.eqb_spec s 3) as [->|_].
    { dec H. apply c1_inv in H0 as [L ->]; [|exact Hb]. apply u64_inv in H1 as [B ->]; [|exact Hb]. subst k. cbn [legacy_valid legacy_to_bytes].
      rewrite enc1. split; [exact B|reflexivity]. }
    destruct (N.eqb_spec s 4) as [->|_].
    { dec H. destruct x as [x y]. apply c2_inv in H0 as (L & M & E); [|exact Hb]. cbn [fst snd] in *. subst b. apply bytes_ok_app in Hb as [Hx Hy].
      apply uint_inv in H1 as [B ->]; [|exact Hy]. injection H as <-. cbn [legacy_valid legacy_to_bytes]. rewrite enc2.
      split; [|reflexivity]. split; [eapply hash32_of; [exact Hx|exact L|reflexivity]|exact B]. }
    destruct (N.eqb_spec s 5) as [->|_]; [|discriminate].
    dec H. apply c1_inv in H0 as [L ->]; [|exact Hb]. subst k. cbn [legacy_valid legacy_to_bytes beacon_valid beacon_to_bytes]. rewrite enc1. split; [eapply hash32_of; eauto|reflexivity].
  - intros [|s b]; [discriminate|]. unfold legacy_from_bytes. np.
Qed.
Print Assumptions C26_legacy_history.

(** of the beacon network, *)
Theorem C26_beacon : unambiguous beacon_valid beacon_to_bytes beacon_from_bytes.
Proof.
  apply unambiguous_of.
  - intros k V. destruct k as [h|s c|s|s|e]; cbn [beacon_valid beacon_to_bytes beacon_from_bytes] in *; sel.
    + split; [ok_bytes|]. rewrite c1_ok by (auto using blen_hash; reflexivity). reflexivity.
    + destruct V as [Hh Hc]. split; [ok_bytes|]. rewrite c2_ok by (auto using u64_len; reflexivity). cbn [obind fst snd].
      rewrite !u64_ok by assumption. reflexivity.
    + split; [ok_bytes|]. rewrite c1_ok by (apply u64_len || reflexivity). cbn [obind]. rewrite u64_ok by exact V. reflexivity.
    + split; [ok_bytes|]. rewrite c1_ok by (apply u64_len || reflexivity). cbn [obind]. rewrite u64_ok by exact V. reflexivity.
    + split; [ok_bytes|]. rewrite c1_ok by (apply u64_len || reflexivity). cbn [obind]. rewrite u64_ok by exact V. reflexivity.
  - intros [|s b] k Hb H; [discriminate|]. apply bytes_ok_cons in Hb as [Hs Hb]. cbn [beacon_from_bytes] in H.
    destruct (N.eqb_spec s 16) as [->|_].
    { dec H. apply c1_inv in H0 as [L ->]; [|exact Hb]. subst k. cbn [legacy_valid legacy_to_bytes beacon_valid beacon_to_bytes]. rewrite enc1. split; [eapply hash32_of; eauto|reflexivity]. }
    destruct (N.eqb_spec s 17) as [->|_].
    { dec H. destruct x as [x y]. apply c2_inv in H0 as (L & M & E); [|exact Hb]. cbn [fst snd] in *. subst b. apply bytes_ok_app in Hb as [Hx Hy].
      apply u64_inv in H1 as [B ->]; [|exact Hx]. apply u64_inv in H2 as [C ->]; [|exact Hy]. injection H as <-. cbn [beacon_valid beacon_to_bytes]. rewrite enc2.
      repeat split; assumption. }
    destruct (N.eqb_spec s 18) as [->|_].
    { dec H. apply c1_inv in H0 as [L ->]; [|exact Hb]. apply u64_inv in H1 as [B ->]; [|exact Hb]. subst k. cbn [beacon_valid beacon_to_bytes].
      rewrite enc1. split; [exact B|reflexivity]. }
    destruct (N.eqb_spec s 19) as [->|_].
    { dec H. apply c1_inv in H0 as [L ->]; [|exact Hb]. apply u64_inv in H1 as [B ->]; [|exact Hb]. subst k. cbn [beacon_valid beacon_to_bytes].
      rewrite enc1. split; [exact B|reflexivity]. }
    destruct (N.eqb_spec s 20) as [->|_]; [|discriminate].
    dec H. apply c1_inv in H0 as [L ->]; [|exact Hb]. apply u64_inv in H1 as [B ->]; [|exact Hb]. subst k. cbn [beacon_valid beacon_to_bytes].
    rewrite enc1. split; [exact B|reflexivity].
  - intros [|s b]; [discriminate|]. unfold beacon_from_bytes. np.
Qed.
Print Assumptions C26_beacon.

Lemma enc_var_fix p h : encode_container [PVar p; PFix h] = le_bytes 4 (4 + blen h) ++ h ++ p.
Proof.
  unfold encode_container. cbn [heads tails heads_len part_head_len]. rewrite !app_nil_r, N.add_0_r, <- app_assoc. reflexivity.
Qed.
Lemma enc_fix_var_fix a p h : encode_container [PFix a; PVar p; PFix h] = a ++ le_bytes 4 (blen a + (4 + blen h)) ++ h ++ p.
Proof.
  unfold encode_container. cbn [heads tails heads_len part_head_len]. rewrite !app_nil_r, N.add_0_r, <- !app_assoc. reflexivity.
Qed.
Lemma path_blen p : path_ok p -> blen (nibbles_encode p) < 64.
Proof.
  intros [L _]. unfold blen in *. rewrite nibbles_encode_len. assert (length p / 2 <= 32)%nat by (apply (Nat.div_le_mono (length p) 64 2); lia). lia.
Qed.
(** of the state network, *)
Theorem C26_state : unambiguous state_valid state_to_bytes state_from_bytes.
Proof.
  apply unambiguous_of.
  - intros k V. destruct k as [p h|a p h|a c]; cbn [state_valid state_to_bytes state_from_bytes] in *; sel.
    + destruct V as [Hp Hh]. apply path_path_ok in Hp. pose proof (nibbles_encode_ok p Hp) as Ho. pose proof (path_blen p Hp) as Lp.
      pose proof (blen_hash h Hh) as Lh. split.
      * apply bytes_ok_cons. split; [lia|]. rewrite enc_var_fix, !bytes_ok_app. repeat split; [apply le_bytes_ok|apply Hh|exact Ho].
      * change [PVar (nibbles_encode p); PFix h] with [part_of None (nibbles_encode p); part_of (Some 32) h].
        rewrite (container2_ok None (Some 32) (nibbles_encode p) h I Lh).
        -- cbn [obind fst snd]. rewrite nibbles_round_trip by exact Hp. reflexivity.
        -- cbn [part_of]. rewrite enc_var_fix, !blen_app, Lh. unfold blen at 1. rewrite le_bytes_length. lia.
    + destruct V as (Ha & Hp & Hh). apply path_path_ok in Hp. pose proof (nibbles_encode_ok p Hp) as Ho. pose proof (path_blen p Hp) as Lp.
      pose proof (blen_hash h Hh) as Lh. pose proof (blen_hash a Ha) as La. split.
      * apply bytes_ok_cons. split; [lia|]. rewrite enc_fix_var_fix, !bytes_ok_app. repeat split; [apply Ha|apply le_bytes_ok|apply Hh|exact Ho].
      * change [PFix a; PVar (nibbles_encode p); PFix h] with [part_of (Some 32) a; part_of None (nibbles_encode p); part_of (Some 32) h].
        rewrite (container3_ok (Some 32) None (Some 32) a (nibbles_encode p) h La I Lh).
        -- cbn [obind fst snd]. rewrite nibbles_round_trip by exact Hp. reflexivity.
        -- cbn [part_of]. rewrite enc_fix_var_fix, !blen_app, Lh, La. unfold blen at 1. rewrite le_bytes_length. lia.
    + destruct V as [Ha Hc]. split; [ok_bytes|]. rewrite c2_ok by (auto using blen_hash; reflexivity). reflexivity.
  - intros [|s b] k Hb H; [discriminate|]. apply bytes_ok_cons in Hb as [Hs Hb]. cbn [state_from_bytes] in H.
    destruct (N.eqb_spec s 32) as [->|_].
    { dec H. destruct x as [x y]. apply container2_inv in H0 as (_ & M & E); [|exact Hb]. cbn [fst snd part_of fits] in *. subst b.
      pose proof Hb as Hb'. rewrite enc_var_fix, !bytes_ok_app in Hb'. destruct Hb' as (_ & Hy & Hx).
      apply nibbles_canonical in H1 as [P E]; [|exact Hx]. injection H as <-. cbn [state_valid state_to_bytes]. rewrite E.
      split; [|reflexivity]. split; [apply path_path_ok, P|eapply hash32_of; [exact Hy|exact M|reflexivity]]. }
    destruct (N.eqb_spec s 33) as [->|_].
    { dec H. destruct x as [[x y] z]. apply container3_inv in H0 as (L & _ & M & E); [|exact Hb]. cbn [fst snd part_of fits] in *. subst b.
      pose proof Hb as Hb'. rewrite enc_fix_var_fix, !bytes_ok_app in Hb'. destruct Hb' as (Hx & _ & Hz & Hy).
      apply nibbles_canonical in H1 as [P E]; [|exact Hy]. injection H as <-. cbn [state_valid state_to_bytes]. rewrite E.
      split; [|reflexivity]. split; [eapply hash32_of; [exact Hx|exact L|reflexivity]|]. split; [apply path_path_ok, P|eapply hash32_of; [exact Hz|exact M|reflexivity]]. }
    destruct (N.eqb_spec s 34) as [->|_]; [|discriminate].
    dec H. destruct x as [x y]. apply c2_inv in H0 as (L & M & E); [|exact Hb]. cbn [fst snd] in *. subst b. apply bytes_ok_app in Hb as [Hx Hy].
    injection H as <-. cbn [state_valid state_to_bytes]. rewrite enc2. split; [|reflexivity]. split; [eapply hash32_of; [exact Hx|exact L|reflexivity]|eapply hash32_of; [exact Hy|exact M|reflexivity]].
  - intros [|s b]; [discriminate|]. unfold state_from_bytes. np.
Qed.
Print Assumptions C26_state.

(** and of the history network. *)
Theorem C26_history : unambiguous history_valid history_to_bytes history_from_bytes.
Proof.
  apply unambiguous_of.
  - intros k V. destruct k as [n|n]; cbn [history_valid history_to_bytes history_from_bytes] in *; sel;
      (split; [ok_bytes|]; rewrite c1_ok by (apply u64_len || reflexivity); cbn [obind]; rewrite u64_ok by exact V; reflexivity).
  - intros [|s b] k Hb H; [discriminate|]. apply bytes_ok_cons in Hb as [Hs Hb]. cbn [history_from_bytes] in H.
    destruct (N.eqb_spec s 0) as [->|_].
    { dec H. apply c1_inv in H0 as [L ->]; [|exact Hb]. apply u64_inv in H1 as [B ->]; [|exact Hb]. subst k. cbn [history_valid history_to_bytes].
      rewrite enc1. split; [exact B|reflexivity]. }
    destruct (N.eqb_spec s 1) as [->|_]; [|discriminate].
    dec H. apply c1_inv in H0 as [L ->]; [|exact Hb]. apply u64_inv in H1 as [B ->]; [|exact Hb]. subst k. cbn [history_valid history_to_bytes].
    rewrite enc1. split; [exact B|reflexivity].
  - intros [|s b]; [discriminate|]. unfold history_from_bytes. np.
Qed.
Print Assumptions C26_history.

(** The bytes of every key, spelled out. *)
Theorem C26_layout :
  (forall h, legacy_to_bytes (BlockHeaderByHash h) = 0 :: h) /\
  (forall h, legacy_to_bytes (BlockBody h) = 1 :: h) /\
  (forall h, legacy_to_bytes (BlockReceipts h) = 2 :: h) /\
  (forall n, legacy_to_bytes (BlockHeaderByNumber n) = 3 :: le_bytes 8 n) /\
  (forall h c, c < 256 -> legacy_to_bytes (EphemeralHeadersFindContent h c) = 4 :: h ++ [c]) /\
  (forall h, legacy_to_bytes (EphemeralHeaderOffer h) = 5 :: h) /\
  (forall h, beacon_to_bytes (LightClientBootstrap h) = 16 :: h) /\
  (forall s c, beacon_to_bytes (LightClientUpdatesByRange s c) = 17 :: le_bytes 8 s ++ le_bytes 8 c) /\
  (forall s, beacon_to_bytes (LightClientFinalityUpdate s) = 18 :: le_bytes 8 s) /\
  (forall s, beacon_to_bytes (LightClientOptimisticUpdate s) = 19 :: le_bytes 8 s) /\
  (forall e, beacon_to_bytes (HistoricalSummariesWithProof e) = 20 :: le_bytes 8 e) /\
  (forall p h, hash32 h -> state_to_bytes (AccountTrieNode p h) = 32 :: [36; 0; 0; 0] ++ h ++ nibbles_encode p) /\
  (forall a p h, hash32 a -> hash32 h ->
     state_to_bytes (ContractStorageTrieNode a p h) = 33 :: a ++ [68; 0; 0; 0] ++ h ++ nibbles_encode p) /\
  (forall a c, state_to_bytes (ContractBytecode a c) = 34 :: a ++ c) /\
  (forall n, history_to_bytes (HBlockBody n) = 0 :: le_bytes 8 n) /\
  (forall n, history_to_bytes (HBlockReceipts n) = 1 :: le_bytes 8 n).
Proof.
  repeat match goal with |- _ /\ _ => split end; intros; cbn [legacy_to_bytes beacon_to_bytes state_to_bytes history_to_bytes];
    rewrite ?enc1, ?enc2, ?enc_var_fix, ?enc_fix_var_fix, ?blen_hash by assumption; try reflexivity.
  unfold u8, le_bytes. rewrite N.mod_small by assumption. reflexivity.
Qed.
Print Assumptions C26_layout.

(** Content ids that are hashes of the bytes: keys with the same id are the same, or their
    bytes collide. *)
Theorem C26_content_id : forall (sha : bytes -> bytes) key (valid : key -> Prop) to_bytes from_bytes,
  unambiguous valid to_bytes from_bytes ->
  forall k1 k2, valid k1 -> valid k2 -> sha (to_bytes k1) = sha (to_bytes k2) ->
  k1 = k2 \/ (to_bytes k1 <> to_bytes k2 /\ sha (to_bytes k1) = sha (to_bytes k2)).
Proof.
  intros sha key valid to_bytes from_bytes U k1 k2 H1 H2 E. destruct (bytes_eq_dec (to_bytes k1) (to_bytes k2)) as [Q|Q].
  - left. apply (distinct_bytes _ _ _ U); assumption.
  - right. split; assumption.
Qed.
Print Assumptions C26_content_id.

(** ** C27 *)
Lemma id_bound n t : n < 2 ^ 64 -> t < 256 -> t + 2 ^ 192 * range_content_prefix n < 256 ^ N.of_nat 32.
Proof.
  intros Hn Ht. rewrite prefix_arith by exact Hn. pose proof (reverse_bound 48 (n / 2 ^ 16)) as B.
  change (2 ^ N.of_nat 48) with (2 ^ 48) in B. assert (C : n mod 2 ^ 16 < 2 ^ 16) by (apply N.mod_lt; discriminate).
  set (c := n mod 2 ^ 16) in *. set (r := reverse_bits 48 (n / 2 ^ 16)) in *. clearbody c r. clear Hn.
  change (256 ^ N.of_nat 32) with (2 ^ 192 * 2 ^ 64). change (2 ^ 64) with 18446744073709551616. change (2 ^ 48) with 281474976710656 in *.
  change (2 ^ 16) with 65536 in *. set (q := 2 ^ 192). assert (256 < q) by reflexivity. clearbody q.
  assert (c * 281474976710656 + r + 1 <= 18446744073709551616) by lia. nia.
Qed.
(** The number the id is: the low 16 bits of the block number on top, below them the other 48
    bits in reverse order, and the content type in the last byte. *)
Theorem C27_id : forall n t, n < 2 ^ 64 -> t < 256 ->
  be_num (range_content_id n t) = n mod 2 ^ 16 * 2 ^ 240 + reverse_bits 48 (n / 2 ^ 16) * 2 ^ 192 + t /\
  length (range_content_id n t) = 32%nat /\
  (forall i, (i < 48)%nat -> N.testbit (reverse_bits 48 (n / 2 ^ 16)) (N.of_nat i) = N.testbit n (N.of_nat (63 - i))).
Proof.
  intros n t Hn Ht. split; [|split].
  - unfold range_content_id. rewrite be_num_be_bytes_id by (apply id_bound; assumption). rewrite prefix_arith by exact Hn.
    change (2 ^ 240) with (2 ^ 48 * 2 ^ 192). rewrite N.mul_add_distr_l, N.mul_assoc, (N.mul_comm (2 ^ 192)), (N.mul_comm (2 ^ 192)). lia.
  - apply be_bytes_length.
  - intros i Hi. rewrite reverse_testbit by exact Hi. rewrite N.div_pow2_bits. f_equal. lia.
Qed.
Print Assumptions C27_id.
(** C27: different block numbers or content types have different ids. *)
Theorem C27_distinct : forall n1 t1 n2 t2, n1 < 2 ^ 64 -> n2 < 2 ^ 64 -> t1 < 256 -> t2 < 256 ->
  range_content_id n1 t1 = range_content_id n2 t2 -> n1 = n2 /\ t1 = t2.
Proof.
  intros n1 t1 n2 t2 H1 H2 T1 T2 E. apply (f_equal be_num) in E.
  destruct (C27_id n1 t1 H1 T1) as [E1 _]. destruct (C27_id n2 t2 H2 T2) as [E2 _]. rewrite E1, E2 in E. clear E1 E2.
  pose proof (reverse_bound 48 (n1 / 2 ^ 16)) as B1. pose proof (reverse_bound 48 (n2 / 2 ^ 16)) as B2.
  assert (Q : n1 mod 2 ^ 16 = n2 mod 2 ^ 16 /\ reverse_bits 48 (n1 / 2 ^ 16) = reverse_bits 48 (n2 / 2 ^ 16) /\ t1 = t2).
  { change (2 ^ N.of_nat 48) with (2 ^ 48) in *. set (r1 := reverse_bits 48 (n1 / 2 ^ 16)) in *. set (r2 := reverse_bits 48 (n2 / 2 ^ 16)) in *.
    set (c1 := n1 mod 2 ^ 16) in *. set (c2 := n2 mod 2 ^ 16) in *. clearbody r1 r2 c1 c2. clear H1 H2.
    change (2 ^ 240) with (2 ^ 48 * 2 ^ 192) in E. change (2 ^ 48) with 281474976710656 in *.
    set (q := 2 ^ 192) in *. assert (Hq : 256 < q) by reflexivity. clearbody q.
    assert (X : q * (c1 * 281474976710656 + r1) + t1 = q * (c2 * 281474976710656 + r2) + t2) by nia.
    apply N.div_mod_unique in X; [|lia|lia]. destruct X as [X ->]. repeat split; lia. }
  destruct Q as (Q1 & Q2 & ->). split; [|reflexivity].
  assert (D : forall n, n < 2 ^ 64 -> n / 2 ^ 16 < 2 ^ N.of_nat 48).
  { intros n H. apply N.div_lt_upper_bound; [discriminate|]. exact H. }
  apply (reverse_inj 48) in Q2; [|apply D, H1|apply D, H2].
  rewrite (N.div_mod' n1 (2 ^ 16)), (N.div_mod' n2 (2 ^ 16)), Q1, Q2. reflexivity.
Qed.
Print Assumptions C27_distinct.
(** C27: the ids of the history network: different keys have different ids; the last byte says
    whether it is a body or receipts. *)
Theorem C27_history : forall k1 k2, history_valid k1 -> history_valid k2 -> history_content_id k1 = history_content_id k2 -> k1 = k2.
Proof.
  intros [n1|n1] [n2|n2] H1 H2 E; cbn [history_content_id history_valid] in *; apply C27_distinct in E; try assumption; try reflexivity;
    destruct E as [E1 E2]; try discriminate E2; now subst.
Qed.
Print Assumptions C27_history.
Theorem C27_history_type : forall n, n < 2 ^ 64 -> be_num (history_content_id (HBlockBody n)) mod 256 = 0 /\ be_num (history_content_id (HBlockReceipts n)) mod 256 = 1.
Proof.
  intros n H. cbn [history_content_id]. destruct (C27_id n 0 H eq_refl) as [E0 _], (C27_id n 1 H eq_refl) as [E1 _]. rewrite E0, E1.
  assert (X : forall a b t, t < 256 -> (a * 2 ^ 240 + b * 2 ^ 192 + t) mod 256 = t).
  { clear. intros a b t Ht. change (2 ^ 240) with (2 ^ 232 * 256). change (2 ^ 192) with (2 ^ 184 * 256). rewrite !N.mul_assoc, <- N.mul_add_distr_r, N.add_comm, N.mod_add by discriminate. now apply N.mod_small. }
  split; apply X; reflexivity.
Qed.
Print Assumptions C27_history_type.
(** Which keys of the legacy history network every node stores, whatever its radius. *)
Theorem C26_radius : forall k, legacy_affected_by_radius k = false <->
  (exists h c, k = EphemeralHeadersFindContent h c) \/ (exists h, k = EphemeralHeaderOffer h).
Proof.
  intros k. split.
  - destruct k; cbn; intros H; try discriminate; eauto.
  - intros [(h & c & ->)|(h & ->)]; reflexivity.
Qed.
Print Assumptions C26_radius.
(** Ids in byte order: within an aligned run of 2^16 blocks they increase with the block
    number, by 2^240 from one block to the next. *)
Theorem C27_order : forall n1 n2 t1 t2, n1 < 2 ^ 64 -> n2 < 2 ^ 64 -> t1 < 256 -> t2 < 256 ->
  n1 / 2 ^ 16 = n2 / 2 ^ 16 -> n1 < n2 -> be_num (range_content_id n1 t1) < be_num (range_content_id n2 t2).
Proof.
  intros n1 n2 t1 t2 H1 H2 T1 T2 E L. destruct (C27_id n1 t1 H1 T1) as [E1 _]. destruct (C27_id n2 t2 H2 T2) as [E2 _]. rewrite E1, E2, E.
  pose proof (reverse_bound 48 (n2 / 2 ^ 16)) as B. change (2 ^ N.of_nat 48) with (2 ^ 48) in B.
  assert (C : n1 mod 2 ^ 16 < n2 mod 2 ^ 16).
  { rewrite (N.div_mod' n1 (2 ^ 16)), (N.div_mod' n2 (2 ^ 16)), E in L. clear -L. set (d := 2 ^ 16 * (n2 / 2 ^ 16)) in *. clearbody d. lia. }
  set (r := reverse_bits 48 (n2 / 2 ^ 16)) in *. set (c1 := n1 mod 2 ^ 16) in *. set (c2 := n2 mod 2 ^ 16) in *. clearbody r c1 c2. clear - T1 T2 C B.
  change (2 ^ 240) with (2 ^ 48 * 2 ^ 192). set (q := 2 ^ 192) in *. assert (Hq : 256 < q) by reflexivity. clearbody q. change (2 ^ 48) with 281474976710656 in *. nia.
Qed.
Print Assumptions C27_order.
Theorem C27_next : forall n t, n < 2 ^ 64 -> t < 256 -> n mod 2 ^ 16 < 2 ^ 16 - 1 ->
  be_num (range_content_id (n + 1) t) = be_num (range_content_id n t) + 2 ^ 240.
Proof.
  intros n t Hn Ht Hm.
  assert (Q : (n + 1) mod 2 ^ 16 = n mod 2 ^ 16 + 1 /\ (n + 1) / 2 ^ 16 = n / 2 ^ 16).
  { clear - Hm. change (2 ^ 16) with 65536 in *. lia. }
  assert (Hn1 : n + 1 < 2 ^ 64).
  { clear - Hn Hm. change (2 ^ 16) with 65536 in *. change (2 ^ 64) with 18446744073709551616 in *. lia. }
  destruct (C27_id n t Hn Ht) as [E1 _]. destruct (C27_id (n + 1) t Hn1 Ht) as [E2 _]. destruct Q as [Q1 Q2].
  rewrite E1, E2, Q1, Q2. clear. rewrite N.mul_add_distr_r. lia.
Qed.
Print Assumptions C27_next.

(** Concrete cases: the values in the repository's tests. *)
Definition h20 : bytes := repeat 170 32.
Example keys_examples :
  nibbles_encode [1; 2; 3; 4; 5; 6; 7; 8; 9; 10; 11; 12; 13] = [0x11; 0x23; 0x45; 0x67; 0x89; 0xab; 0xcd] /\
  nibbles_decode [0x20] = Err /\ nibbles_decode [0x01] = Err /\ nibbles_decode (0x1a :: repeat 0xaa 32) = Err /\
  range_content_id 12345678 1 = [0x61; 0x4e; 0x3d] ++ repeat 0 28 ++ [1] /\
  path [1; 2; 3] /\ state_valid (ContractStorageTrieNode h20 [1; 2; 3] h20) /\
  state_from_bytes (state_to_bytes (ContractStorageTrieNode h20 [1; 2; 3] h20)) = Ok (ContractStorageTrieNode h20 [1; 2; 3] h20) /\
  legacy_from_bytes (4 :: h20 ++ [7]) = Ok (EphemeralHeadersFindContent h20 7) /\
  legacy_from_bytes (3 :: h20) = Err /\
  beacon_from_bytes [18; 5; 0; 0; 0; 0; 0; 0; 0] = Ok (LightClientFinalityUpdate 5).
Proof.
  repeat match goal with |- _ /\ _ => split end; try (vm_compute; reflexivity); repeat constructor; unfold byte_ok; try reflexivity; try (cbn; lia).
Qed.
