(** Lemmas about the database of trin-execution. *)
From Verif Require Import Base Trie_Model Trie_Codec StateContent_Model ExecDb_Model ExecDb_Spec.

(** ** RLP *)
Lemma trim_head l : match trim l with 0 :: _ => False | _ => True end.
Proof. induction l as [|x l IH]; [exact Logic.I|]. cbn [trim]. destruct x; [exact IH|exact Logic.I]. Qed.
Lemma trim_short n k x : x < 256 ^ N.of_nat k -> x < 256 ^ N.of_nat n -> (length (trim (be_bytes n x)) <= k)%nat.
Proof.
  intros H Hn. destruct (Nat.le_gt_cases (length (trim (be_bytes n x))) k) as [L|L]; [exact L|exfalso].
  pose proof (trim_head (be_bytes n x)) as T. pose proof (trim_num (be_bytes n x)) as V.
  rewrite be_num_be_bytes_id in V by exact Hn.
  destruct (trim (be_bytes n x)) as [|b r] eqn:E; [cbn in L; lia|]. rewrite be_num_cons in V. cbn [length] in L.
  assert (B : b <> 0) by (intros ->; exact T).
  assert (P : 256 ^ N.of_nat k <= 256 ^ N.of_nat (length r)) by (apply N.pow_le_mono_r; lia).
  assert (Q : 256 ^ N.of_nat (length r) <= b * 256 ^ N.of_nat (length r)).
  { rewrite <- (N.mul_1_l (256 ^ N.of_nat (length r))) at 1. apply N.mul_le_mono_r. lia. }
  lia.
Qed.
Lemma as_uint_ok k x : (k <= 32)%nat -> x < 256 ^ N.of_nat k -> as_uint k (false, trim (be_bytes 32 x), rlp_uint x) = Some x.
Proof.
  intros K H. assert (H32 : x < 256 ^ N.of_nat 32).
  { eapply N.lt_le_trans; [exact H|]. apply N.pow_le_mono_r; lia. }
  unfold as_uint. pose proof (trim_short 32 k x H H32) as L. apply Nat.leb_le in L. rewrite L.
  pose proof (trim_head (be_bytes 32 x)) as T. unfold rlp_uint. rewrite beqb_refl.
  assert (V : be_num (trim (be_bytes 32 x)) = x) by (rewrite trim_num; apply be_num_be_bytes_id, H32).
  destruct (trim (be_bytes 32 x)) as [|b r] eqn:E.
  - cbn [negb andb]. f_equal. exact V.
  - destruct b as [|p]; [contradiction|]. cbn [negb andb]. f_equal. exact V.
Qed.
Lemma uint_payload x : blen (trim (be_bytes 32 x)) <= 32.
Proof. pose proof (trim_len (be_bytes 32 x)) as L. rewrite be_bytes_length in L. unfold blen. lia. Qed.
Lemma pow64 : 100 < 2 ^ 64. Proof. reflexivity. Qed.
Lemma uint_item x : item false (trim (be_bytes 32 x)) (rlp_uint x).
Proof.
  split; [apply rlp_bytes_len|]. intros rest. apply rlp_bytes_ok. pose proof (uint_payload x). pose proof pow64. lia.
Qed.
Lemma b256_item r : length r = 32%nat -> item false r (rlp_bytes r).
Proof. intros L. split; [apply rlp_bytes_len|]. intros rest. apply rlp_bytes_ok. unfold blen. rewrite L. reflexivity. Qed.
Lemma rlp_bytes_short b : blen b < 56 -> blen (rlp_bytes b) <= 1 + blen b.
Proof.
  intros H. unfold rlp_bytes.
  assert (G : blen (rlp_header false (blen b) ++ b) <= 1 + blen b).
  { rewrite blen_app. unfold rlp_header. destruct (blen b <? 56) eqn:E; [cbn; unfold blen; cbn; lia|lia]. }
  destruct b as [|x [|y b]]; try exact G. destruct (x <? 128); [|exact G]. unfold blen. cbn. lia.
Qed.
Definition account_ok (a : account) : Prop :=
  nonce a < 2 ^ 64 /\ balance a < 2 ^ 256 /\ length (storage_root a) = 32%nat /\ length (code_hash a) = 32%nat.
Lemma account_round_trip a : account_ok a -> decode_account (encode_account a) = Ok a.
Proof.
  intros (Hn & Hb & Hr & Hc). destruct a as [n v r c]; cbn [nonce balance storage_root code_hash] in *.
  unfold decode_account, encode_account; cbn [nonce balance storage_root code_hash].
  set (p := rlp_uint n ++ rlp_uint v ++ rlp_bytes r ++ rlp_bytes c).
  assert (P : blen p < 2 ^ 64).
  { unfold p. rewrite !blen_app.
    pose proof (rlp_bytes_short (trim (be_bytes 32 n))) as A1. pose proof (rlp_bytes_short (trim (be_bytes 32 v))) as A2.
    pose proof (rlp_bytes_short r) as A3. pose proof (rlp_bytes_short c) as A4.
    pose proof (uint_payload n). pose proof (uint_payload v).
    assert (R : blen r = 32) by (unfold blen; rewrite Hr; reflexivity).
    assert (C : blen c = 32) by (unfold blen; rewrite Hc; reflexivity).
    fold (rlp_uint n) in A1. fold (rlp_uint v) in A2.
    eapply N.le_lt_trans with (m := 140); [|reflexivity]. lia. }
  pose proof (rlp_list_ok p [] P) as S. rewrite app_nil_r in S. rewrite S. unfold p at 2.
  rewrite (items_cons _ false (trim (be_bytes 32 n)) (rlp_uint n) _
    [(false, trim (be_bytes 32 v), rlp_uint v); (false, r, rlp_bytes r); (false, c, rlp_bytes c)]).
  2: apply uint_item. 2: fold p; lia.
  2: { intros f Hf. apply items_cons; [apply uint_item|exact Hf|]. intros g Hg.
       apply items_cons; [apply b256_item, Hr|exact Hg|]. intros e He. apply items_one; [apply b256_item, Hc|exact He]. }
  rewrite (as_uint_ok 8 n) by (try lia; exact Hn). rewrite (as_uint_ok 32 v) by (try lia; exact Hb).
  unfold as_b256. rewrite Hr, Hc. reflexivity.
Qed.
Lemma uint_round_trip x : x < 2 ^ 256 -> decode_uint (rlp_uint x) = Ok x.
Proof.
  intros H. unfold decode_uint. destruct (uint_item x) as [_ S]. specialize (S []). rewrite app_nil_r in S. rewrite S.
  cbn [length]. rewrite Nat.sub_0_r, firstn_all, as_uint_ok; [reflexivity|lia|exact H].
Qed.

(** An encoded account has at least 66 bytes. *)
Lemma take_len k n r x p q : rlp_take k n r = Some (x, p, q) -> (length p + length q = length r)%nat.
Proof.
  unfold rlp_take. destruct (blen r <? n) eqn:E; [discriminate|]. intros H. injection H as <- <- <-.
  rewrite <- app_length, firstn_skipn. reflexivity.
Qed.
Lemma split_len b k p q : rlp_split b = Some (k, p, q) -> (length p + length q <= length b)%nat.
Proof.
  destruct b as [|x r]; [discriminate|]. cbn [rlp_split].
  assert (T : forall k n s, rlp_take k n r = Some s -> (length (snd (fst s)) + length (snd s) <= length (x :: r))%nat).
  { intros k' n [[a b] c] H. apply take_len in H. cbn [fst snd length]. lia. }
  assert (G : forall k n s, rlp_long k n r = Some s -> (length (snd (fst s)) + length (snd s) <= length (x :: r))%nat).
  { intros k' n [[a b] c] H. unfold rlp_long in H. destruct (blen r <? n); [discriminate|]. apply take_len in H.
    rewrite skipn_length in H. cbn [fst snd length]. lia. }
  destruct (x <? 128); [intros H; injection H as <- <- <-; cbn; lia|].
  destruct (x <? 184); [intros H; apply T in H; exact H|]. destruct (x <? 192); [intros H; apply G in H; exact H|].
  destruct (x <? 248); intros H; [apply T in H|apply G in H]; exact H.
Qed.
Lemma items_len fuel : forall b l, rlp_items fuel b = Some l ->
  (list_sum (map (fun it => length (snd (fst it))) l) <= length b)%nat.
Proof.
  induction fuel as [|f IH]; intros b l H.
  - cbn in H. destruct b; [injection H as <-; cbn; lia|discriminate].
  - cbn [rlp_items] in H. destruct b as [|x r]; [injection H as <-; cbn; lia|].
    destruct (rlp_split (x :: r)) as [[[k p] rest]|] eqn:E; [|discriminate].
    destruct (rlp_items f rest) as [tl|] eqn:R; [|discriminate]. injection H as <-. cbn [map list_sum fold_right fst snd].
    apply split_len in E. apply IH in R. unfold list_sum in R. lia.
Qed.
Lemma account_long b a : decode_account b = Ok a -> (64 <= length b)%nat.
Proof.
  unfold decode_account. destruct (rlp_split b) as [[[[|] p] q]|] eqn:E; try discriminate.
  destruct (rlp_items (length p) p) as [l|] eqn:I; [|discriminate].
  destruct l as [|x1 [|x2 [|x3 [|x4 [|]]]]]; try discriminate.
  destruct (as_uint 8 x1); [|discriminate]. destruct (as_uint 32 x2); [|discriminate].
  destruct (as_b256 x3) eqn:E3; [|discriminate]. destruct (as_b256 x4) eqn:E4; [|discriminate]. intros _.
  apply items_len in I. unfold list_sum in I. cbn [map fold_right] in I. apply split_len in E.
  assert (B : forall x y, as_b256 x = Some y -> length (snd (fst x)) = 32%nat).
  { intros [[[|] u] v] y; cbn [as_b256]; [discriminate|]. destruct (Nat.eqb_spec (length u) 32); [|discriminate]. intros _. exact e. }
  apply B in E3. apply B in E4. unfold bytes in *. lia.
Qed.

(** ** Keys and values *)
Lemma put_same d k v : put d k v k = Some v.
Proof. unfold put. rewrite beqb_refl. reflexivity. Qed.
Lemma put_other d k v x : x <> k -> put d k v x = d x.
Proof. intros H. unfold put. apply beqb_false in H. rewrite H. reflexivity. Qed.
Lemma delete_same d k : delete d k k = None.
Proof. unfold delete. rewrite beqb_refl. reflexivity. Qed.
Lemma delete_other d k x : x <> k -> delete d k x = d x.
Proof. intros H. unfold delete. apply beqb_false in H. rewrite H. reflexivity. Qed.
Lemma save_same a r m sv : save a r m sv a r = Some m.
Proof. unfold save. rewrite !beqb_refl. reflexivity. Qed.
Lemma save_other a r m sv b q : b <> a -> save a r m sv b q = sv b q.
Proof. intros H. unfold save. apply beqb_false in H. rewrite H. reflexivity. Qed.
Lemma forget_other a r sv b q : b <> a -> forget a r sv b q = sv b q.
Proof. intros H. unfold forget. apply beqb_false in H. rewrite H. reflexivity. Qed.
Lemma at_key_same {A} k (v : A) f : at_key k v f k = v.
Proof. unfold at_key. destruct (bytes_eq_dec k k); [reflexivity|congruence]. Qed.
Lemma at_key_other {A} k (v : A) f x : x <> k -> at_key k v f x = f x.
Proof. intros H. unfold at_key. destruct (bytes_eq_dec x k); [congruence|reflexivity]. Qed.
Lemma at_num_same {A} k (v : A) f : at_num k v f k = v.
Proof. unfold at_num. destruct (N.eq_dec k k); [reflexivity|congruence]. Qed.
Lemma at_num_other {A} k (v : A) f x : x <> k -> at_num k v f x = f x.
Proof. intros H. unfold at_num. destruct (N.eq_dec x k); [congruence|reflexivity]. Qed.

(** ** The invariant *)
Section Proofs.
Context (keccak : bytes -> bytes) (root_of : kv -> bytes).
Context (is_address is_code : bytes -> Prop) (is_number is_slot is_value : N -> Prop).
Hypothesis AP : apart keccak root_of is_address is_code is_number is_slot is_value.
Notation empty_root := (keccak [128]).
Notation slot_trie := (slot_trie keccak is_slot is_value).
Notation trie_of_slots := (trie_of_slots keccak is_slot is_value).
Notation slots_root := (slots_root keccak root_of is_slot is_value).

(** The storage of an account: its root and how it can be read. *)
Definition holds (s : state) (a : bytes) (f : N -> N) (r : bytes) : Prop :=
  (r = empty_root /\ forall n, is_slot n -> f n = 0) \/
  (r <> empty_root /\ exists m, saved s (keccak a) r = Some m /\ r = root_of m /\ trie_of_slots f m).
Definition slots_fit (f : N -> N) : Prop := forall n, is_slot n -> f n < 2 ^ 256.
Record shows (s : state) (w : world) : Prop := {
  sh_account : forall a, is_address a ->
    match w_account w a with
    | None => flat s (keccak a) = None /\ trie s (keccak a) = None /\ forall n, w_slot w a n = 0
    | Some i => info_ok i /\ exists r, holds s a (w_slot w a) r /\
        flat s (keccak a) = Some (encode_account (mk_account (i_nonce i) (i_balance i) r (i_code_hash i))) /\
        trie s (keccak a) = Some (encode_account (mk_account (i_nonce i) (i_balance i) r (i_code_hash i)))
    end;
  sh_fit : forall a, is_address a -> slots_fit (w_slot w a);
  sh_code : forall c, is_code c -> flat s (keccak c) = w_code w (keccak c);
  sh_hash : forall n, is_number n -> flat s (keccak (b256 n)) = w_hash w n;
  sh_hash_len : forall n h, is_number n -> w_hash w n = Some h -> length h = 32%nat }.

Lemma holds_len s a f r : holds s a f r -> length r = 32%nat.
Proof. intros [[-> _]|(_ & m & _ & -> & _)]; [apply (ap_len _ _ _ _ _ _ _ AP)|apply (ap_root_len _ _ _ _ _ _ _ AP)]. Qed.
Lemma built_ok s a f r i : info_ok i -> holds s a f r -> account_ok (mk_account (i_nonce i) (i_balance i) r (i_code_hash i)).
Proof. intros (A & B & C) H. apply holds_len in H. split; [exact B|]. split; [exact A|]. split; assumption. Qed.
Lemma fetch_some s w a i : shows s w -> is_address a -> w_account w a = Some i ->
  exists r, holds s a (w_slot w a) r /\ info_ok i /\
    fetch_account (keccak a) s = (s, Ok (Some (mk_account (i_nonce i) (i_balance i) r (i_code_hash i)))) /\
    trie s (keccak a) = Some (encode_account (mk_account (i_nonce i) (i_balance i) r (i_code_hash i))).
Proof.
  intros SH A W. pose proof (sh_account _ _ SH a A) as H. rewrite W in H. destruct H as (I & r & Hr & F & T).
  exists r. split; [exact Hr|]. split; [exact I|]. split; [|exact T]. unfold fetch_account. rewrite F, account_round_trip; [reflexivity|].
  eapply built_ok; eassumption.
Qed.
Lemma fetch_none s w a : shows s w -> is_address a -> w_account w a = None -> fetch_account (keccak a) s = (s, Ok None).
Proof. intros SH A W. pose proof (sh_account _ _ SH a A) as H. rewrite W in H. unfold fetch_account. destruct H as [-> _]. reflexivity. Qed.

(** What changing one account does. *)
Lemma one_account s s' w a f x : shows s w -> is_address a ->
  (forall b, b <> keccak a -> flat s' b = flat s b /\ trie s' b = trie s b /\ forall r, saved s' b r = saved s b r) ->
  match x with
  | None => flat s' (keccak a) = None /\ trie s' (keccak a) = None /\ forall n, f n = 0
  | Some i => info_ok i /\ exists r, holds s' a f r /\
      flat s' (keccak a) = Some (encode_account (mk_account (i_nonce i) (i_balance i) r (i_code_hash i))) /\
      trie s' (keccak a) = Some (encode_account (mk_account (i_nonce i) (i_balance i) r (i_code_hash i)))
  end -> slots_fit f ->
  shows s' (mk_world (at_key a x (w_account w)) (at_key a f (w_slot w)) (w_code w) (w_hash w)).
Proof.
  intros SH A Oth X Ff. constructor; cbn [w_account w_slot w_code w_hash].
  - intros b B. destruct (bytes_eq_dec b a) as [-> |NE].
    + rewrite !at_key_same. exact X.
    + rewrite !at_key_other by exact NE.
      assert (K : keccak b <> keccak a) by (intros E; apply NE, (ap_address _ _ _ _ _ _ _ AP _ _ B A E)).
      destruct (Oth _ K) as (O1 & O2 & O3). pose proof (sh_account _ _ SH b B) as H. rewrite O1, O2.
      destruct (w_account w b) as [i|]; [|exact H]. destruct H as (I & r & Hr & F & T). split; [exact I|]. exists r.
      split; [|split; assumption]. destruct Hr as [Hr|(N0 & m & Sv & R)]; [left; exact Hr|right]. split; [exact N0|].
      exists m. rewrite O3. split; assumption.
  - intros b B. destruct (bytes_eq_dec b a) as [-> |NE]; [rewrite at_key_same; exact Ff|rewrite at_key_other by exact NE; apply (sh_fit _ _ SH), B].
  - intros c C. assert (K : keccak c <> keccak a) by (intros E; apply (ap_address_code _ _ _ _ _ _ _ AP _ _ A C); symmetry; exact E).
    destruct (Oth _ K) as (-> & _). apply (sh_code _ _ SH), C.
  - intros n Nn. assert (K : keccak (b256 n) <> keccak a) by (intros E; apply (ap_address_number _ _ _ _ _ _ _ AP _ _ A Nn); symmetry; exact E).
    destruct (Oth _ K) as (-> & _). apply (sh_hash _ _ SH), Nn.
  - apply (sh_hash_len _ _ SH).
Qed.
(** Only the values of a world matter. *)
Lemma shows_same s w w' : shows s w -> (forall a, is_address a -> w_account w' a = w_account w a) ->
  (forall a n, is_address a -> w_slot w' a n = w_slot w a n) -> (forall c, w_code w' c = w_code w c) ->
  (forall n, w_hash w' n = w_hash w n) -> shows s w'.
Proof.
  intros SH EA ES EC EH. constructor.
  - intros a A. rewrite EA by exact A. pose proof (sh_account _ _ SH a A) as H. destruct (w_account w a) as [i|].
    + destruct H as (I & r & Hr & F). split; [exact I|]. exists r. split; [|exact F].
      destruct Hr as [[R Z]|(N0 & m & Sv & R & T1 & T2)]; [left|right].
      * split; [exact R|]. intros n Hn. rewrite ES by exact A. apply Z, Hn.
      * split; [exact N0|]. exists m. split; [exact Sv|]. split; [exact R|]. split; [exact T1|].
        intros n Hn. rewrite ES by exact A. apply T2, Hn.
    + destruct H as (F & T & Z). split; [exact F|]. split; [exact T|]. intros n. rewrite ES by exact A. apply Z.
  - intros a A n Hn. rewrite ES by exact A. apply (sh_fit _ _ SH a A n Hn).
  - intros c C. rewrite EC. apply (sh_code _ _ SH), C.
  - intros n Hn. rewrite EH. apply (sh_hash _ _ SH), Hn.
  - intros n h Hn. rewrite EH. apply (sh_hash_len _ _ SH), Hn.
Qed.

(** ** Commits of accounts *)
Lemma commit_account_ok s w a i : shows s w -> is_address a -> info_ok i ->
  exists s', commit_account keccak (keccak a) i s = (s', Ok tt) /\ shows s' (see_account w (a, Some i)).
Proof.
  intros SH A I. unfold commit_account, bind.
  assert (G : exists ex, fetch_account (keccak a) s = (s, Ok ex) /\
    holds s a (w_slot w a) (match ex with Some e => storage_root e | None => empty_root end)).
  { destruct (w_account w a) as [i0|] eqn:W.
    - destruct (fetch_some s w a i0 SH A W) as (r & Hr & _ & F & _). eexists. split; [exact F|]. exact Hr.
    - exists None. split; [apply (fetch_none s w a SH A W)|]. pose proof (sh_account _ _ SH a A) as H. rewrite W in H.
      left. split; [reflexivity|]. intros n _. apply H. }
  destruct G as (ex & -> & Hr). unfold modify, set_trie, set_flat. cbn [flat trie saved].
  unfold ExecDb_Model.empty_root. set (r := match ex with Some e => storage_root e | None => keccak [128] end) in *.
  eexists. split; [reflexivity|]. unfold see_account; cbn [fst snd].
  eapply shows_same; [apply (one_account s _ w a (w_slot w a) (Some i) SH A)| | | |]; cbn [w_account w_slot w_code w_hash]; try reflexivity.
  - intros b NE. cbn [flat trie saved]. rewrite !put_other by exact NE. auto.
  - split; [exact I|]. exists r. cbn [flat trie saved]. rewrite !put_same. split; [|split; reflexivity].
    destruct Hr as [Hr|Hr]; [left; exact Hr|right; exact Hr].
  - apply (sh_fit _ _ SH), A.
  - intros b n B. unfold at_key. destruct (bytes_eq_dec b a) as [-> |]; reflexivity.
Qed.
Lemma wipe_ok s w a (del : bool) : shows s w -> is_address a ->
  exists s', wipe_account_storage keccak (keccak a) del s = (s', Ok tt) /\
    shows s' (mk_world (if del then at_key a None (w_account w) else w_account w) (at_key a (fun _ => 0) (w_slot w)) (w_code w) (w_hash w)).
Proof.
  intros SH A. unfold wipe_account_storage, bind at 1.
  destruct (w_account w a) as [i|] eqn:W.
  2: { rewrite (fetch_none s w a SH A W). exists s. split; [reflexivity|]. pose proof (sh_account _ _ SH a A) as H. rewrite W in H.
       eapply shows_same; [exact SH| | | |]; cbn [w_account w_slot w_code w_hash]; try reflexivity.
       - intros b B. destruct del; [|reflexivity]. unfold at_key. destruct (bytes_eq_dec b a) as [-> |]; [symmetry; exact W|reflexivity].
       - intros b n B. unfold at_key. destruct (bytes_eq_dec b a) as [-> |]; [symmetry; apply H|reflexivity]. }
  destruct (fetch_some s w a i SH A W) as (r & Hr & I & F & T). rewrite F. cbn [storage_root nonce balance code_hash].
  assert (G : exists s1, (if beqb r (ExecDb_Model.empty_root keccak) then ret tt
            else bind (open_storage (keccak a) r) (fun _ => modify (set_saved (forget (keccak a) r)))) s = (s1, Ok tt) /\
    flat s1 = flat s /\ trie s1 = trie s /\ forall b q, b <> keccak a -> saved s1 b q = saved s b q).
  { unfold ExecDb_Model.empty_root. destruct (beqb r empty_root) eqn:E.
    - exists s. repeat split.
    - apply beqb_false in E. destruct Hr as [[R _]|(_ & m & Sv & _)]; [contradiction|].
      unfold bind, open_storage, modify. rewrite Sv. cbn [of_option]. eexists. split; [reflexivity|].
      cbn [flat trie saved set_saved]. split; [reflexivity|]. split; [reflexivity|]. intros b q NE. apply forget_other, NE. }
  destruct G as (s1 & E1 & F1 & T1 & S1). unfold bind at 1. rewrite E1.
  unfold bind, modify, set_flat, set_trie. cbn [flat trie saved].
  destruct del.
  - eexists. split; [reflexivity|]. apply (one_account s _ w a (fun _ => 0) None SH A).
    + intros b NE. cbn [flat trie saved]. rewrite !delete_other by exact NE. rewrite F1, T1. repeat split. intros q. apply S1, NE.
    + cbn [flat trie saved]. rewrite !delete_same. auto.
    + intros n _. reflexivity.
  - eexists. split; [reflexivity|].
    eapply shows_same; [apply (one_account s _ w a (fun _ => 0) (Some i) SH A)| | | |]; cbn [w_account w_slot w_code w_hash]; try reflexivity.
    + intros b NE. cbn [flat trie saved]. rewrite !put_other by exact NE. rewrite F1, T1. repeat split. intros q. apply S1, NE.
    + split; [exact I|]. exists empty_root. cbn [flat trie saved]. rewrite !put_same. split; [|split; reflexivity].
      left. split; reflexivity.
    + intros n _. reflexivity.
    + intros b B. unfold at_key. destruct (bytes_eq_dec b a) as [-> |]; [exact W|reflexivity].
Qed.
Lemma commit_accounts_ok l : forall s w, shows s w ->
  Forall (fun x => is_address (fst x) /\ match snd x with Some i => info_ok i | None => True end) l ->
  exists s', commit_accounts keccak l s = (s', Ok tt) /\ shows s' (fold_left see_account l w).
Proof.
  induction l as [|[a x] l IH]; intros s w SH F; [exists s; split; [reflexivity|exact SH]|].
  inversion F as [|? ? [A X] F']; subst. cbn [fst snd] in *. unfold commit_accounts in *. cbn [each fst snd fold_left].
  assert (G : exists s1, match x with Some i => commit_account keccak (keccak a) i | None => wipe_account_storage keccak (keccak a) true end s = (s1, Ok tt)
     /\ shows s1 (see_account w (a, x))).
  { destruct x as [i|]; [apply commit_account_ok; assumption|]. destruct (wipe_ok s w a true SH A) as (s1 & E & S1). exists s1. split; assumption. }
  destruct G as (s1 & E & S1). unfold bind. rewrite E. apply IH; assumption.
Qed.

(** ** Commits of codes *)
Lemma commit_codes_ok l : forall s w, shows s w -> Forall (fun x => is_code (snd x) /\ fst x = keccak (snd x)) l ->
  exists s', each (fun c => modify (set_flat (fun d => put d (fst c) (snd c)))) l s = (s', Ok tt) /\ shows s' (fold_left see_code l w).
Proof.
  induction l as [|[h c] l IH]; intros s w SH F; [exists s; split; [reflexivity|exact SH]|].
  inversion F as [|? ? [C X] F']; subst. cbn [fst snd] in *. subst h. cbn [each fst snd fold_left]. unfold bind at 1, modify at 1.
  apply IH; [|exact F']. unfold set_flat. constructor; cbn [flat trie saved w_account w_slot w_code w_hash see_code fst snd].
  - intros a A. rewrite put_other by (apply (ap_address_code _ _ _ _ _ _ _ AP); assumption).
    pose proof (sh_account _ _ SH a A) as H. destruct (w_account w a) as [i|]; [|exact H]. exact H.
  - apply (sh_fit _ _ SH).
  - intros d D. destruct (bytes_eq_dec d c) as [-> |NE].
    + rewrite put_same, at_key_same. reflexivity.
    + assert (K : keccak d <> keccak c) by (intros E; apply NE, (ap_code _ _ _ _ _ _ _ AP _ _ D C E)).
      rewrite put_other, at_key_other by exact K. apply (sh_code _ _ SH), D.
  - intros n Hn. rewrite put_other by (intros E; apply (ap_code_number _ _ _ _ _ _ _ AP _ _ C Hn); symmetry; exact E).
    apply (sh_hash _ _ SH), Hn.
  - apply (sh_hash_len _ _ SH).
Qed.

(** ** Commits of storage *)
Lemma change_slot_ok m f n v : trie_of_slots f m -> is_slot n -> is_value v ->
  trie_of_slots (at_num n v f) (change_slot keccak m (n, v)).
Proof.
  intros [T1 T2] Hn Hv. unfold change_slot; cbn [fst snd]. fold (b256 n). split.
  - intros k x. destruct (v =? 0) eqn:E.
    + unfold delete. destruct (beqb k (keccak (b256 n))); [discriminate|apply T1].
    + unfold put. destruct (beqb k (keccak (b256 n))) eqn:K; [|apply T1]. intros H. injection H as <-. apply beqb_spec in K.
      exists n, v. apply N.eqb_neq in E. auto.
  - intros q Hq. fold (b256 q). destruct (N.eq_dec q n) as [-> |NE].
    + rewrite at_num_same. destruct (v =? 0) eqn:E; [apply delete_same|apply put_same].
    + rewrite at_num_other by exact NE.
      assert (K : keccak (b256 q) <> keccak (b256 n)) by (intros E; apply NE, (ap_slot _ _ _ _ _ _ _ AP _ _ Hq Hn E)).
      destruct (v =? 0); [rewrite delete_other by exact K|rewrite put_other by exact K]; apply T2, Hq.
Qed.
Lemma change_slots_ok l : forall m f, trie_of_slots f m -> Forall (fun x => is_slot (fst x) /\ is_value (snd x) /\ snd x < 2 ^ 256) l ->
  trie_of_slots (see_slots f l) (fold_left (change_slot keccak) l m).
Proof.
  induction l as [|[n v] l IH]; intros m f T F; [exact T|]. inversion F as [|? ? (Hn & Hv & _) F']; subst. cbn [fst snd] in *.
  cbn [fold_left see_slots]. unfold see_slots. cbn [fold_left fst snd]. apply IH; [apply change_slot_ok; assumption|exact F'].
Qed.
Lemma slots_fit_ok l : forall f, slots_fit f -> Forall (fun x => is_slot (fst x) /\ is_value (snd x) /\ snd x < 2 ^ 256) l -> slots_fit (see_slots f l).
Proof.
  induction l as [|[n v] l IH]; intros f H F; [exact H|]. inversion F as [|? ? (_ & _ & Hv) F']; subst. cbn [fst snd] in *.
  unfold see_slots; cbn [fold_left fst snd]. apply IH; [|exact F']. intros q Hq. unfold at_num. destruct (N.eq_dec q n); [exact Hv|apply H, Hq].
Qed.
Lemma save_storage_ok s w a i l : shows s w -> is_address a -> w_account w a = Some i ->
  Forall (fun x => is_slot (fst x) /\ is_value (snd x) /\ snd x < 2 ^ 256) l ->
  exists m r0, trie_of_slots (see_slots (w_slot w a) l) m /\
    flat s (keccak a) = Some (encode_account (mk_account (i_nonce i) (i_balance i) r0 (i_code_hash i))) /\
    holds s a (w_slot w a) r0 /\
    save_storage keccak root_of (keccak a) l s =
      (set_saved (fun sv => save (keccak a) (root_of m) m (forget (keccak a) r0 sv)) s,
       Ok (mk_account (i_nonce i) (i_balance i) (root_of m) (i_code_hash i))).
Proof.
  intros SH A W F. destruct (fetch_some s w a i SH A W) as (r & Hr & I & Fe & T). unfold save_storage, bind at 1. rewrite Fe.
  assert (Fl : flat s (keccak a) = Some (encode_account (mk_account (i_nonce i) (i_balance i) r (i_code_hash i)))).
  { pose proof (sh_account _ _ SH a A) as H. rewrite W in H. destruct H as (_ & r' & _ & F' & T'). rewrite F'. rewrite T in T'. congruence. }
  cbn [storage_root nonce balance code_hash].
  assert (G : exists m0, (if beqb r (ExecDb_Model.empty_root keccak) then ret no_kv else open_storage (keccak a) r) s = (s, Ok m0) /\
    trie_of_slots (w_slot w a) m0).
  { unfold ExecDb_Model.empty_root. destruct Hr as [[-> Z]|(N0 & m & Sv & R & TS)].
    - rewrite beqb_refl. exists no_kv. split; [reflexivity|]. split; [intros k v H; discriminate|]. intros n Hn. rewrite (Z n Hn). reflexivity.
    - apply beqb_false in N0. rewrite N0. exists m. split; [|exact TS]. unfold open_storage. rewrite Sv. reflexivity. }
  destruct G as (m0 & E & TS). unfold bind at 1. rewrite E. exists (fold_left (change_slot keccak) l m0), r.
  split; [apply change_slots_ok; assumption|]. split; [exact Fl|]. split; [exact Hr|]. reflexivity.
Qed.
Lemma commit_storage_changes_ok s w a i l : shows s w -> is_address a -> w_account w a = Some i ->
  Forall (fun x => is_slot (fst x) /\ is_value (snd x) /\ snd x < 2 ^ 256) l ->
  exists s', commit_storage_changes keccak root_of (keccak a) l s = (s', Ok tt) /\
    shows s' (mk_world (w_account w) (at_key a (see_slots (w_slot w a) l) (w_slot w)) (w_code w) (w_hash w)).
Proof.
  intros SH A W F. destruct (save_storage_ok s w a i l SH A W F) as (m & r0 & TS & _ & _ & E).
  unfold commit_storage_changes, bind at 1. rewrite E. unfold bind, modify, set_trie, set_flat, set_saved. cbn [flat trie saved].
  eexists. split; [reflexivity|].
  assert (I : info_ok i) by (pose proof (sh_account _ _ SH a A) as H; rewrite W in H; apply H).
  eapply shows_same; [apply (one_account s _ w a (see_slots (w_slot w a) l) (Some i) SH A)| | | |]; cbn [w_account w_slot w_code w_hash]; try reflexivity.
  - intros b NE. cbn [flat trie saved]. rewrite !put_other by exact NE. repeat split. intros q.
    rewrite save_other, forget_other by exact NE. reflexivity.
  - split; [exact I|]. exists (root_of m). cbn [flat trie saved]. rewrite !put_same. split; [|split; reflexivity].
    destruct (bytes_eq_dec (root_of m) empty_root) as [R|R].
    + left. split; [exact R|]. intros n Hn. destruct TS as [T1 T2]. pose proof (ap_root _ _ _ _ _ _ _ AP m T1 R (keccak (b256 n))) as Z.
      unfold b256 in Z. rewrite (T2 n Hn) in Z. destruct (see_slots (w_slot w a) l n =? 0) eqn:E0; [apply N.eqb_eq, E0|discriminate].
    + right. split; [exact R|]. exists m. cbn [saved]. rewrite save_same. split; [reflexivity|]. split; [reflexivity|exact TS].
  - apply slots_fit_ok; [apply (sh_fit _ _ SH), A|exact F].
  - intros b B. unfold at_key. destruct (bytes_eq_dec b a) as [-> |]; [exact W|reflexivity].
Qed.
Lemma commit_storage_ok l : forall s w, shows s w ->
  Forall (fun c => is_address (c_address c) /\ Forall (fun x => is_slot (fst x) /\ is_value (snd x) /\ snd x < 2 ^ 256) (c_storage c)) l ->
  Forall (fun c => c_storage c = [] \/ w_account w (c_address c) <> None) l ->
  exists s', commit_storage keccak root_of l s = (s', Ok tt) /\ shows s' (fold_left see_storage l w).
Proof.
  induction l as [|c l IH]; intros s w SH F X; [exists s; split; [reflexivity|exact SH]|].
  inversion F as [|? ? [A Fc] F']; subst. inversion X as [|? ? Xc X']; subst.
  unfold commit_storage in *. cbn [each fold_left].
  set (w1 := mk_world (w_account w) (if c_wipe c then at_key (c_address c) (fun _ => 0) (w_slot w) else w_slot w) (w_code w) (w_hash w)).
  assert (G1 : exists s1, (if c_wipe c then wipe_account_storage keccak (keccak (c_address c)) false else ret tt) s = (s1, Ok tt) /\ shows s1 w1).
  { unfold w1. destruct (c_wipe c).
    - destruct (wipe_ok s w (c_address c) false SH A) as (s1 & E1 & S1). exists s1. split; assumption.
    - exists s. split; [reflexivity|]. destruct w; exact SH. }
  destruct G1 as (s1 & E1 & S1).
  assert (G2 : exists s2, (match c_storage c with [] => ret tt | changes => commit_storage_changes keccak root_of (keccak (c_address c)) changes end) s1 = (s2, Ok tt)
     /\ shows s2 (see_storage w c)).
  { assert (Sl : w_slot w1 (c_address c) = (if c_wipe c then fun _ => 0 else w_slot w (c_address c))).
    { unfold w1; cbn [w_slot]. destruct (c_wipe c); [apply at_key_same|reflexivity]. }
    destruct (c_storage c) as [|x r] eqn:Es.
    - exists s1. split; [reflexivity|]. eapply shows_same; [exact S1| | | |]; unfold see_storage, w1; cbn [w_account w_slot w_code w_hash]; try reflexivity.
      intros a n _. rewrite Es. unfold see_slots; cbn [fold_left]. destruct (c_wipe c); unfold at_key; destruct (bytes_eq_dec a (c_address c)) as [-> |]; reflexivity.
    - destruct Xc as [Xc|Xc]; [congruence|]. destruct (w_account w (c_address c)) as [i|] eqn:W; [|congruence].
      destruct (commit_storage_changes_ok s1 w1 (c_address c) i (x :: r) S1 A W Fc) as (s2 & E2 & S2). exists s2. split; [exact E2|].
      eapply shows_same; [exact S2| | | |]; unfold see_storage; cbn [w_account w_slot w_code w_hash]; try reflexivity.
      intros a n _. rewrite Sl, Es. unfold w1; cbn [w_slot]. unfold at_key. destruct (bytes_eq_dec a (c_address c)) as [-> |]; [reflexivity|].
      destruct (c_wipe c); [|reflexivity]. destruct (bytes_eq_dec a (c_address c)); [congruence|reflexivity]. }
  destruct G2 as (s2 & E2 & S2). unfold bind at 1 2. rewrite E1, E2. apply IH; [exact S2|exact F'|].
  eapply Forall_impl; [|exact X']. intros d H. exact H.
Qed.
Lemma see_codes_accounts l : forall w, w_account (fold_left see_code l w) = w_account w.
Proof. induction l as [|x l IH]; intros w; [reflexivity|]. cbn [fold_left]. rewrite IH. reflexivity. Qed.
Lemma commit_bundle_ok s w b : shows s w -> fits keccak is_address is_code is_slot is_value w b ->
  exists s', commit_bundle keccak root_of b s = (s', Ok tt) /\ shows s' (see_bundle w b).
Proof.
  intros SH [FA FC FS FE]. unfold commit_bundle, see_bundle.
  destruct (commit_accounts_ok _ s w SH FA) as (s1 & E1 & S1). destruct (commit_codes_ok _ s1 _ S1 FC) as (s2 & E2 & S2).
  destruct (commit_storage_ok (b_storage b) s2 _ S2 FS) as (s3 & E3 & S3).
  { rewrite see_codes_accounts. exact FE. }
  exists s3. split; [|exact S3]. unfold bind. rewrite E1, E2. exact E3.
Qed.
End Proofs.
