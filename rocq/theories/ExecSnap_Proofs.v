(** Lemmas about snapshots. *)
From Verif Require Import Base Trie_Model StateContent_Model EraFiles_Model ExecDb_Model ExecDb_Spec ExecDb_Proofs ExecDb_Runs ExecRun_Model ExecRun_Spec ExecSnap_Model ExecSnap_Spec.

(** ** Lists *)
Lemma chunks_of_ok {A} n (Hn : (1 <= n)%nat) f : forall l : list A, (length l <= f)%nat ->
  concat (chunks_of f n l) = l /\ (forall k, (n * k < length l)%nat <-> (k < length (chunks_of f n l))%nat).
Proof.
  induction f as [|f IH]; intros [|x l] L; cbn [length] in L; try lia; cbn [chunks_of].
  - split; [reflexivity|]. intros k. cbn [length]. lia.
  - split; [reflexivity|]. intros k. cbn [length]. lia.
  - assert (S1 : (length (skipn n (x :: l)) <= f)%nat) by (rewrite skipn_length; cbn [length]; lia).
    destruct (IH (skipn n (x :: l)) S1) as [C K]. cbn [concat length]. split; [rewrite C; apply firstn_skipn|].
    intros [|k]; [rewrite Nat.mul_0_r; lia|]. specialize (K k). rewrite skipn_length in K. cbn [length] in K. nia.
Qed.
Lemma chunks_concat {A} n (l : list A) : 1 <= n -> concat (chunks n l) = l.
Proof. intros H. unfold chunks. apply chunks_of_ok; lia. Qed.
Lemma chunks_count {A} n (l : list A) : 1 <= n -> blen (chunks n l) = div_ceil (blen l) n.
Proof.
  intros H. unfold chunks. assert (H1 : (1 <= N.to_nat n)%nat) by lia.
  pose proof (proj2 (chunks_of_ok (N.to_nat n) H1 (length l) l (le_n _))) as K. set (q := chunks_of _ _ _) in *.
  unfold div_ceil, blen. apply (N.div_unique _ _ _ (N.of_nat (length l) + n - 1 - n * N.of_nat (length q))).
  - pose proof (K (length q)) as K1. destruct (length q) as [|j] eqn:E.
    + pose proof (K 0%nat). lia.
    + pose proof (K j) as K2. nia.
  - pose proof (K (length q)) as K1. destruct (length q) as [|j] eqn:E; [lia|]. pose proof (K j) as K2. nia.
Qed.
Lemma traverse_ok {A B} (f : A -> outcome B) (P : A -> B -> Prop) l :
  (forall x, In x l -> exists y, f x = Ok y /\ P x y) -> exists ys, traverse f l = Ok ys /\ Forall2 P l ys.
Proof.
  induction l as [|x l IH]; intros H; [exists []; split; [reflexivity|constructor]|].
  destruct (H x (or_introl eq_refl)) as (y & E & Y). destruct IH as (ys & Es & Ys); [intros z Hz; apply H; right; exact Hz|].
  exists (y :: ys). cbn [traverse]. rewrite E. cbn [obind]. rewrite Es. split; [reflexivity|constructor; assumption].
Qed.

Lemma insert_other l : forall m k, ~ In k (map fst l) -> insert_items m l k = m k.
Proof.
  induction l as [|[k0 x0] l IH]; intros m k NI; [reflexivity|]. cbn [insert_items fold_left fst snd map In] in *.
  unfold insert_items in IH. rewrite IH by tauto. apply put_other. intros ->. apply NI. left. reflexivity.
Qed.
Lemma insert_in l : forall m k x, NoDup (map fst l) -> In (k, x) l -> insert_items m l k = Some (rlp_uint x).
Proof.
  induction l as [|[k0 x0] l IH]; intros m k x ND I; [destruct I|]. cbn [map fst] in ND. inversion ND as [|? ? NI ND']; subst.
  destruct I as [E|I].
  - injection E as -> ->. change (insert_items m ((k, x) :: l)) with (insert_items (put m k (rlp_uint x)) l).
    rewrite insert_other by exact NI. apply put_same.
  - change (insert_items m ((k0, x0) :: l)) with (insert_items (put m k0 (rlp_uint x0)) l). apply IH; assumption.
Qed.
Lemma insert_app m a b : insert_items m (a ++ b) = insert_items (insert_items m a) b.
Proof. unfold insert_items. apply fold_left_app. Qed.

(** ** Import of the items of one account *)
Section Import.
Context (keccak : bytes -> bytes) (root_of : kv -> bytes).
Definition only_saved (k : bytes) (s s' : state) : Prop :=
  flat s' = flat s /\ trie s' = trie s /\ versions s' = versions s /\ disk_pos s' = disk_pos s /\ mem_pos s' = mem_pos s /\
  forall b r, b <> k -> saved s' b r = saved s b r.
Lemma import_storage e cs : forall m rest s, cs <> [] ->
  exists s1, import_items keccak root_of (Some (e, blen cs, m)) (map Storage cs ++ rest) s =
      bind (import_account keccak root_of e (insert_items m (concat cs))) (fun _ => import_items keccak root_of None rest) s1 /\
    only_saved (ae_hash e) s s1 /\ saved s1 (ae_hash e) (root_of (insert_items m (concat cs))) = Some (insert_items m (concat cs)).
Proof.
  induction cs as [|c cs IH]; intros m rest s NE; [congruence|]. cbn [map app import_items concat].
  unfold import_chunk. cbv zeta. unfold bind at 1. unfold bind at 1. unfold modify at 1. unfold ret at 1.
  set (s0 := set_saved _ s). rewrite insert_app.
  assert (O0 : only_saved (ae_hash e) s s0).
  { repeat split. intros b r NEb. unfold s0, set_saved. cbn [saved]. rewrite save_other, forget_other by exact NEb. reflexivity. }
  destruct cs as [|c2 cs].
  - rewrite blen_cons, blen_nil. cbn [N.add N.eqb Pos.eqb]. change (1 + 0 =? 1) with true. cbv iota. cbn [concat]. exists s0.
    split; [reflexivity|]. split; [exact O0|]. unfold s0, set_saved. cbn [saved]. apply save_same.
  - set (n := blen (c :: c2 :: cs)). replace (n =? 1) with false by (unfold n; rewrite !blen_cons; symmetry; apply N.eqb_neq; lia).
    replace (n - 1) with (blen (c2 :: cs)) by (unfold n; rewrite !blen_cons; lia). cbv iota.
    destruct (IH (insert_items m c) rest s0 ltac:(discriminate)) as (s1 & E & (F & T & V & D & P & Sv) & S1). exists s1. split; [exact E|]. split; [|exact S1].
    destruct O0 as (F0 & T0 & V0 & D0 & P0 & Sv0). repeat split; try congruence. intros b r NEb. rewrite Sv, Sv0 by exact NEb. reflexivity.
Qed.
Lemma import_group e cs rest s : ae_count e = blen cs ->
  exists s1, import_items keccak root_of None (Account e :: map Storage cs ++ rest) s =
      bind (import_account keccak root_of e (insert_items no_kv (concat cs))) (fun _ => import_items keccak root_of None rest) s1 /\
    only_saved (ae_hash e) s s1 /\
    (cs <> [] -> saved s1 (ae_hash e) (root_of (insert_items no_kv (concat cs))) = Some (insert_items no_kv (concat cs))).
Proof.
  intros C. cbn [import_items]. destruct cs as [|c cs].
  - rewrite C, blen_nil, N.eqb_refl. exists s. split; [reflexivity|]. split; [repeat split|congruence].
  - replace (ae_count e =? 0) with false by (symmetry; apply N.eqb_neq; rewrite C, blen_cons; lia).
    rewrite C. destruct (import_storage e (c :: cs) no_kv rest s ltac:(discriminate)) as (s1 & E & O & S1). exists s1. split; [exact E|]. split; [exact O|]. intros _. exact S1.
Qed.
End Import.

(** ** The keys of the state trie *)
Section Keys.
Context (keccak : bytes -> bytes) (root_of : kv -> bytes) (alloc : list (bytes * N)).
Context (is_address is_code : bytes -> Prop) (is_number is_slot is_value : N -> Prop).
Definition keys_ok (s : state) : Prop := forall k v, trie s k = Some v -> exists a, is_address a /\ k = keccak a.
Definition keeps {A} (m : M A) : Prop := forall s, keys_ok s -> keys_ok (fst (m s)).
Lemma keeps_bind {A B} (m : M A) (f : A -> M B) : keeps m -> (forall a, keeps (f a)) -> keeps (bind m f).
Proof.
  intros Hm Hf s K. unfold bind. specialize (Hm s K). destruct (m s) as [s' [a| |]]; cbn [fst] in *; try exact Hm. apply Hf, Hm.
Qed.
Lemma keeps_each {A} (f : A -> M unit) l : Forall (fun x => keeps (f x)) l -> keeps (each f l).
Proof. induction 1 as [|x l H _ IH]; [intros s K; exact K|]. cbn [each]. apply keeps_bind; [exact H|intros _; exact IH]. Qed.
Lemma keeps_same {A} (m : M A) : (forall s, trie (fst (m s)) = trie s) -> keeps m.
Proof. intros H s K k v. rewrite H. apply K. Qed.
Lemma keeps_put a v : is_address a -> keeps (modify (set_trie (fun t => put t (keccak a) v))).
Proof.
  intros A s K k x. cbn [modify fst set_trie trie]. unfold put. destruct (beqb k (keccak a)) eqn:E; [|apply K].
  intros _. apply beqb_spec in E. exists a. auto.
Qed.
Lemma keeps_delete a : keeps (modify (set_trie (fun t => delete t (keccak a)))).
Proof. intros s K k x. cbn [modify fst set_trie trie]. unfold delete. destruct (beqb k (keccak a)); [discriminate|apply K]. Qed.
Lemma keeps_wipe a d : is_address a -> keeps (wipe_account_storage keccak (keccak a) d).
Proof.
  intros A. unfold wipe_account_storage. apply keeps_bind; [apply keeps_same; reflexivity|]. intros [x|]; [|apply keeps_same; reflexivity].
  apply keeps_bind.
  - destruct (beqb (storage_root x) (empty_root keccak)); [apply keeps_same; reflexivity|].
    apply keeps_bind; [apply keeps_same; reflexivity|]. intros _. apply keeps_same; reflexivity.
  - intros _. destruct d; (apply keeps_bind; [apply keeps_same; reflexivity|intros _]); [apply keeps_delete|apply keeps_put, A].
Qed.
Lemma keeps_bundle w b : fits keccak is_address is_code is_slot is_value w b -> keeps (commit_bundle keccak root_of b).
Proof.
  intros [FA FC FS _]. unfold commit_bundle. apply keeps_bind; [|intros _; apply keeps_bind; [|intros _]].
  - unfold commit_accounts. apply keeps_each. eapply Forall_impl; [|exact FA]. intros [a [i|]] [A _]; cbn [fst snd] in *; [|apply keeps_wipe, A].
    unfold commit_account. apply keeps_bind; [apply keeps_same; reflexivity|]. intros ex.
    apply keeps_bind; [apply keeps_put, A|intros _; apply keeps_same; reflexivity].
  - apply keeps_each. clear. induction (b_contracts b); constructor; [apply keeps_same; reflexivity|assumption].
  - unfold commit_storage. apply keeps_each. eapply Forall_impl; [|exact FS]. intros c [A _]. apply keeps_bind.
    + destruct (c_wipe c); [apply keeps_wipe, A|apply keeps_same; reflexivity].
    + intros _. destruct (c_storage c) as [|x r]; [apply keeps_same; reflexivity|].
      unfold commit_storage_changes. apply keeps_bind.
      * unfold save_storage. apply keeps_bind; [apply keeps_same; reflexivity|]. intros ex. apply keeps_bind.
        { match goal with |- context [if ?c then _ else _] => destruct c end; apply keeps_same; reflexivity. }
        intros m. apply keeps_bind; [apply keeps_same; reflexivity|intros _; apply keeps_same; reflexivity].
      * intros ac. apply keeps_bind; [apply keeps_put, A|intros _; apply keeps_same; reflexivity].
Qed.
Lemma keeps_event w e : event_ok alloc keccak is_address is_code is_number is_slot is_value w e -> keeps (do_event alloc keccak root_of e).
Proof.
  destruct e as [h|h b]; cbn [event_ok do_event].
  - intros (_ & _ & _ & Hg). change (keeps (execute_block keccak alloc h)). unfold execute_block. destruct (N.eqb_spec (h_number h) 0) as [Z|NZ].
    + unfold process_genesis. apply keeps_each. eapply Forall_impl; [|exact (Hg Z)]. intros x (A & _). cbv zeta.
      apply keeps_bind; [apply keeps_put, A|intros _; apply keeps_same; reflexivity].
    + apply keeps_same. intros s. unfold manage_block_hash_serve_window, bind, modify, ret. destruct (_ <=? _); reflexivity.
  - intros [F _]. change (keeps (commit keccak root_of h b)). unfold commit. apply keeps_bind; [eapply keeps_bundle, F|]. intros _. apply keeps_bind; [apply keeps_same; reflexivity|].
    intros r. destruct (beqb _ _); [|apply keeps_same; reflexivity]. apply keeps_same. intros s. unfold update_position. destruct (_ <? _); reflexivity.
Qed.
Lemma keeps_play l : forall s w, keys_ok s -> events_ok alloc keccak is_address is_code is_number is_slot is_value w l ->
  keys_ok (fst (play alloc keccak root_of l s)).
Proof.
  induction l as [|e l IH]; intros s w K OK; [exact K|]. destruct OK as [O1 O2]. cbn [play].
  pose proof (keeps_event w e O1 s K) as K1. destruct (do_event alloc keccak root_of e s) as [s1 o]. cbn [fst] in K1.
  specialize (IH s1 _ K1 O2). destruct (play alloc keccak root_of l s1). exact IH.
Qed.
End Keys.

(** ** Export *)
Section Export.
Context (keccak : bytes -> bytes) (root_of : kv -> bytes).
Context (is_address is_code : bytes -> Prop) (is_number is_slot is_value : N -> Prop).
Context (AP : apart keccak root_of is_address is_code is_number is_slot is_value).
Context (RF : root_fun keccak root_of).
Notation shows := (shows keccak root_of is_address is_code is_number is_slot is_value).
Notation holds := (holds keccak root_of is_slot is_value).
Notation trie_of_slots := (trie_of_slots keccak is_slot is_value).
Notation slot_trie := (slot_trie keccak is_slot is_value).

(** The items of a leaf of the state trie. *)
Definition group (w : world) (x : bytes * bytes) (l : list snap_item) : Prop :=
  exists a i c sl, is_address a /\ fst x = keccak a /\ w_account w a = Some i /\ info_ok i /\
    is_code c /\ i_code_hash i = keccak c /\ w_code w (keccak c) = Some c /\
    let m := insert_items no_kv sl in
    let acct := mk_account (i_nonce i) (i_balance i) (root_of m) (i_code_hash i) in
    snd x = encode_account acct /\ trie_of_slots (w_slot w a) m /\
    l = Account (mk_entry (keccak a) acct c (blen (chunks MAX_STORAGE_ITEMS sl))) :: map Storage (chunks MAX_STORAGE_ITEMS sl).

Lemma slots_ok f m l : (forall n, is_slot n -> f n < 2 ^ 256) -> trie_of_slots f m -> lists m l ->
  exists sl, traverse export_slot l = Ok sl /\ map fst sl = map fst l /\ (forall k, insert_items no_kv sl k = m k).
Proof.
  intros FT [ST TS] [ND L].
  destruct (traverse_ok export_slot (fun x y => fst y = fst x /\ snd x = rlp_uint (snd y)) l) as (sl & E & F).
  { intros [k v] I. apply L in I. destruct (ST k v I) as (n & x & Hn & Hx & X0 & -> & ->). specialize (TS n Hn). rewrite I in TS.
    unfold export_slot. cbn [fst snd]. rewrite (ap_len _ _ _ _ _ _ _ AP). cbn [Nat.eqb negb].
    destruct (N.eqb_spec (f n) 0) as [Z|NZ]; [discriminate|]. injection TS as TS. rewrite TS.
    rewrite uint_round_trip by (apply FT, Hn). eexists. split; [reflexivity|]. cbn [fst snd]. split; reflexivity. }
  exists sl. split; [exact E|].
  assert (MF : map fst sl = map fst l).
  { clear -F. induction F as [|x y l r [H _] _ IH]; [reflexivity|]. cbn [map]. rewrite H, IH. reflexivity. }
  split; [exact MF|]. intros k. destruct (m k) as [v|] eqn:M.
  - apply L in M. assert (I : exists y, In y sl /\ fst y = k /\ v = rlp_uint (snd y)).
    { clear -F M. induction F as [|x y l r [H1 H2] _ IH]; [destruct M|]. destruct M as [-> |M].
      - exists y. cbn [fst snd] in *. split; [left; reflexivity|auto].
      - destruct (IH M) as (z & Z & Q). exists z. split; [right; exact Z|exact Q]. }
    destruct I as ([k' y] & I & <- & ->). cbn [fst snd]. apply insert_in; [rewrite MF; exact ND|exact I].
  - rewrite insert_other; [reflexivity|]. rewrite MF. intros I. apply in_map_iff in I. destruct I as ([k' v] & <- & I).
    apply L in I. cbn [fst] in M. congruence.
Qed.
Lemma no_slots f : (forall n, is_slot n -> f n = 0) -> trie_of_slots f no_kv.
Proof. intros Z. split; [intros k v; discriminate|]. intros n Hn. rewrite (Z n Hn). reflexivity. Qed.
Lemma code_of c s w : is_code c -> shows s w -> none_known keccak w -> w_code w (keccak c) = Some c ->
  (if beqb (keccak c) (keccak_empty keccak) then Ok [] else match flat s (keccak c) with Some x => Ok x | None => Panic end) = Ok c.
Proof.
  intros C SH K W. destruct (beqb (keccak c) (keccak_empty keccak)) eqn:E.
  - apply beqb_spec in E. apply (ap_code _ _ _ _ _ _ _ AP _ _ C (ap_none _ _ _ _ _ _ _ AP)) in E. subst c. reflexivity.
  - rewrite (sh_code _ _ _ _ _ _ _ _ _ SH c C), W. reflexivity.
Qed.

Lemma account_group iter s w x : shows s w -> none_known keccak w -> coded keccak is_address is_code w -> iterates keccak iter s ->
  keys_ok keccak is_address s -> trie s (fst x) = Some (snd x) -> exists l, export_account keccak iter s x = Ok l /\ group w x l.
Proof.
  intros SH K CO [_ IT] KO T. destruct (KO _ _ T) as (a & A & EK). pose proof (sh_account _ _ _ _ _ _ _ _ _ SH a A) as H.
  destruct x as [k v]. cbn [fst snd] in *. subst k. destruct (w_account w a) as [i|] eqn:W; [|destruct H as (_ & H & _); congruence].
  destruct H as (IO & r & Hr & F & T'). rewrite T in T'. injection T' as ->.
  destruct (CO a i A W) as (c & C & HC & WC).
  pose proof (built_ok _ _ _ _ _ _ _ AP s a _ r i IO Hr) as AO.
  unfold export_account. cbn [fst snd]. rewrite (ap_len _ _ _ _ _ _ _ AP). cbn [Nat.eqb negb].
  rewrite account_round_trip by exact AO. cbn [obind code_hash storage_root].
  rewrite HC, (code_of c s w C SH K WC). cbn [obind].
  assert (R : exists sl, (if beqb r (empty_root keccak) then Ok []
       else obind (of_option (saved s (keccak a) r)) (fun m => traverse export_slot (iter m))) = Ok sl /\
     root_of (insert_items no_kv sl) = r /\ trie_of_slots (w_slot w a) (insert_items no_kv sl) /\ blen sl < 10000000 * (2 ^ 32 - 1)).
  { destruct RF as [EXT EMP]. destruct Hr as [[-> Z]|(NE & m & Sv & -> & TS)].
    - exists []. unfold ExecDb_Model.empty_root. rewrite beqb_refl. split; [reflexivity|]. split; [exact EMP|]. split; [apply no_slots, Z|reflexivity].
    - unfold ExecDb_Model.empty_root.
      destruct (IT _ _ _ _ T (account_round_trip _ AO) NE Sv) as [Li LB]. apply beqb_false in NE. rewrite NE, Sv. cbn [of_option obind]. destruct (slots_ok _ m _ (sh_fit _ _ _ _ _ _ _ _ _ SH a A) TS Li) as (sl & E & MF & X).
      exists sl. split; [exact E|]. split; [apply EXT, X|]. split.
      + destruct TS as [ST TS]. split; [intros k v; rewrite X; apply ST|intros n Hn; rewrite X; apply TS, Hn].
      + replace (blen sl) with (blen (iter m)); [exact LB|]. unfold blen. f_equal. rewrite <- (map_length fst), <- MF. apply map_length. }
  destruct R as (sl & E & R & TS & LB). rewrite E. cbn [obind]. cbv zeta. eexists. split; [reflexivity|].
  exists a, i, c, sl. cbn [fst snd]. rewrite R, HC. repeat (split; [assumption || reflexivity|]).
  replace (div_ceil (blen sl) MAX_STORAGE_ITEMS mod 2 ^ 32) with (blen (chunks MAX_STORAGE_ITEMS sl)); [reflexivity|].
  rewrite chunks_count by (unfold MAX_STORAGE_ITEMS; lia). symmetry. apply N.mod_small. unfold div_ceil, MAX_STORAGE_ITEMS.
  apply N.div_lt_upper_bound; lia.
Qed.
Lemma exports iter s w : shows s w -> none_known keccak w -> coded keccak is_address is_code w -> iterates keccak iter s -> keys_ok keccak is_address s ->
  exists gs, export keccak iter s = Ok (concat gs) /\ Forall2 (group w) (iter (trie s)) gs.
Proof.
  intros SH K CO IT KO. destruct (traverse_ok (export_account keccak iter s) (group w) (iter (trie s))) as (gs & E & F).
  - intros [k v] I. apply (account_group iter s w (k, v)); try assumption. apply (proj1 IT), I.
  - exists gs. split; [|exact F]. unfold export. rewrite E. reflexivity.
Qed.

(** ** Import *)
(** The leaves [D] have been imported. *)
Record imported (w : world) (D : list (bytes * bytes)) (s : state) : Prop := {
  im_trie : forall k v, trie s k = Some v <-> In (k, v) D;
  im_flat : forall a, is_address a -> flat s (keccak a) = trie s (keccak a);
  im_done : forall k v, In (k, v) D -> exists a i r c, is_address a /\ k = keccak a /\ w_account w a = Some i /\ info_ok i /\ is_code c /\
     i_code_hash i = keccak c /\ flat s (keccak c) = Some c /\ w_code w (keccak c) = Some c /\ holds s a (w_slot w a) r /\
     v = encode_account (mk_account (i_nonce i) (i_balance i) r (i_code_hash i));
  im_number : forall n, is_number n -> flat s (keccak (b256 n)) = None;
  im_code : forall c x, is_code c -> flat s (keccak c) = Some x -> x = c;
  im_none : flat s (keccak []) = Some [] }.

Lemma imports_group w x l rest D s : group w x l -> imported w D s -> ~ In (fst x) (map fst D) ->
  exists s', imported w (x :: D) s' /\ mem_pos s' = mem_pos s /\
    import_items keccak root_of None (l ++ rest) s = import_items keccak root_of None rest s'.
Proof.
  intros (a & i & c & sl & A & EK & W & IO & C & HC & WC & EV & TS & ->) [IT IF ID IN IC I0] NI.
  destruct x as [k v]. cbn [fst snd] in EK, EV, NI. subst k v. set (cs := chunks MAX_STORAGE_ITEMS sl). set (m := insert_items no_kv sl) in NI, TS |- *.
  set (acct := mk_account _ _ _ _) in NI |- *.
  assert (CC : concat cs = sl) by (apply chunks_concat; unfold MAX_STORAGE_ITEMS; lia).
  destruct (import_group keccak root_of (mk_entry (keccak a) acct c (blen cs)) cs rest s eq_refl) as (s1 & E & (F1 & T1 & V1 & D1 & P1 & S1) & SV).
  rewrite CC in E, SV. fold m in E, SV. cbn [ae_hash] in SV, S1.
  match type of E with ?x = _ => change (exists s', imported w ((keccak a, encode_account acct) :: D) s' /\ mem_pos s' = mem_pos s /\
    x = import_items keccak root_of None rest s') end.
  rewrite E. unfold import_account. cbn [ae_state ae_code ae_hash storage_root code_hash].
  rewrite beqb_refl. cbn [negb]. replace (code_hash acct) with (keccak c) by (symmetry; exact HC). rewrite beqb_refl. cbn [negb].
  set (d1 := match c with [] => flat s | _ => put (flat s) (keccak c) c end).
  set (s2 := mk_state (put d1 (keccak a) (encode_account acct)) (saved s1) (versions s1) (disk_pos s1) (put (trie s) (keccak a) (encode_account acct)) (mem_pos s1)).
  exists s2. split; [|split; [exact P1|]].
  2: { unfold bind at 1 2. unfold s2, d1. rewrite <- F1, <- T1. destruct c as [|c0 c']; reflexivity. }
  assert (DC : forall q x, d1 q = Some x -> q = keccak c /\ x = c \/ flat s q = Some x).
  { intros q x. unfold d1. destruct c as [|c0 c']; [auto|]. unfold put. destruct (beqb q (keccak (c0 :: c'))) eqn:Q; [|auto].
    apply beqb_spec in Q. intros [= <-]. auto. }
  assert (DN : forall q, q <> keccak c -> d1 q = flat s q) by (intros q NE; unfold d1; destruct c; [reflexivity|apply put_other, NE]).
  assert (DS : d1 (keccak c) = Some c) by (unfold d1; destruct c; [exact I0|apply put_same]).
  assert (AC : forall q, is_code q -> keccak q <> keccak a) by (intros q Q X; apply (ap_address_code _ _ _ _ _ _ _ AP a q A Q); auto).
  constructor; cbn [s2 trie flat].
  - intros k v. unfold put. destruct (beqb k (keccak a)) eqn:Q.
    + apply beqb_spec in Q. subst k. split; [intros [= <-]; left; reflexivity|]. intros [X|X]; [injection X as <-; reflexivity|].
      destruct NI. apply in_map_iff. exists (keccak a, v). auto.
    + apply beqb_false in Q. rewrite IT. split; [right; assumption|]. intros [X|X]; [injection X as <- _; congruence|exact X].
  - intros b B. unfold put. destruct (beqb (keccak b) (keccak a)); [reflexivity|]. rewrite DN; [apply IF, B|].
    intros X. apply (ap_address_code _ _ _ _ _ _ _ AP b c B C X).
  - intros k v [X|X].
    + injection X as <- <-. exists a, i, (root_of m), c. repeat (split; [assumption || reflexivity|]).
      split; [rewrite put_other by (apply AC, C); exact DS|]. split; [exact WC|]. split; [|reflexivity].
      destruct cs as [|c0 cs'].
      * left. cbn [concat] in CC. unfold m in TS |- *. rewrite <- CC in TS |- *. split; [apply RF|]. intros n Hn. destruct TS as [_ TS]. specialize (TS n Hn).
        destruct (N.eqb_spec (w_slot w a n) 0) as [Z|NZ]; [exact Z|discriminate].
      * destruct (bytes_eq_dec (root_of m) (keccak [128])) as [Z|NZ].
        { left. split; [exact Z|]. intros n Hn. destruct TS as [ST TS]. specialize (TS n Hn). rewrite (ap_root _ _ _ _ _ _ _ AP m ST Z) in TS.
          destruct (N.eqb_spec (w_slot w a n) 0) as [Y|NY]; [exact Y|discriminate]. }
        right. split; [exact NZ|]. exists m. split; [|split; [reflexivity|exact TS]]. cbn [s2 saved]. apply SV. discriminate.
    + destruct (ID k v X) as (b & j & r & q & B & -> & WB & JO & Q & HQ & FQ & WQ & HB & ->). exists b, j, r, q.
      repeat (split; [assumption || reflexivity|]).
      split. { rewrite put_other by (apply AC, Q). destruct (bytes_eq_dec (keccak q) (keccak c)) as [Y|NY].
               - apply (ap_code _ _ _ _ _ _ _ AP _ _ Q C) in Y. subst q. exact DS.
               - rewrite DN by exact NY. exact FQ. }
      split; [exact WQ|]. split; [|reflexivity].
      assert (NE : keccak b <> keccak a) by (intros Y; apply NI, in_map_iff; eexists; split; [|exact X]; exact Y).
      destruct HB as [HB|(N0 & m' & SB & HB)]; [left; exact HB|right]. split; [exact N0|]. exists m'. split; [|exact HB].
      cbn [s2 saved]. rewrite S1 by exact NE. exact SB.
  - intros n Hn. rewrite put_other by (intros X; apply (ap_address_number _ _ _ _ _ _ _ AP a n A Hn); symmetry; exact X).
    rewrite DN; [apply IN, Hn|]. intros X. apply (ap_code_number _ _ _ _ _ _ _ AP c n C Hn). symmetry. exact X.
  - intros q x Q. rewrite put_other by (apply AC, Q). intros X. destruct (DC _ _ X) as [[Y ->]|Y]; [|exact (IC _ _ Q Y)].
    symmetry. exact (ap_code _ _ _ _ _ _ _ AP _ _ Q C Y).
  - rewrite put_other by (apply AC, (ap_none _ _ _ _ _ _ _ AP)). destruct (bytes_eq_dec (keccak []) (keccak c)) as [Y|NY].
    + apply (ap_code _ _ _ _ _ _ _ AP _ _ (ap_none _ _ _ _ _ _ _ AP) C) in Y. subst c. exact DS.
    + rewrite DN by exact NY. exact I0.
Qed.
Lemma imports_all w L gs : Forall2 (group w) L gs -> forall D s, imported w D s -> NoDup (map fst (L ++ D)) ->
  exists s' D', imported w D' s' /\ mem_pos s' = mem_pos s /\ (forall x, In x D' <-> In x (L ++ D)) /\
    import_items keccak root_of None (concat gs) s = (s', Ok tt).
Proof.
  induction 1 as [|x g L gs G _ IH]; intros D s IM ND; [exists s, D; split; [exact IM|split; [reflexivity|split; [intros x; reflexivity|reflexivity]]]|].
  cbn [concat app map] in ND |- *. apply NoDup_cons_iff in ND. destruct ND as [NI ND'].
  destruct (imports_group w x g (concat gs) D s G IM) as (s1 & IM1 & P1 & E1).
  { intros I. apply NI. rewrite map_app. apply in_or_app. right. exact I. }
  destruct (IH (x :: D) s1 IM1) as (s' & D' & IM' & P' & EQ & E').
  { rewrite map_app in ND' |- *. rewrite map_app in NI. cbn [map]. apply (Permutation_NoDup (l := fst x :: map fst L ++ map fst D)); [apply Permutation_middle|]. constructor; assumption. }
  exists s', D'. split; [exact IM'|]. split; [congruence|]. split; [|rewrite E1; exact E'].
  intros y. rewrite EQ. rewrite !in_app_iff. cbn [In]. rewrite in_app_iff. tauto.
Qed.
End Export.
