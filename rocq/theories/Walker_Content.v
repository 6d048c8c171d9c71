(** Lemmas about the content that comes out of a walk. *)
From Verif Require Import Base Keys_Model Keys_Spec Keys_Proofs Trie_Model Trie_Spec Trie_Proofs StateContent_Model StateContent_Spec
  StateContent_Props Walker_Model Walker_Spec Walker_Proofs Walker_Walk.

Lemma map_firstn_id (l : list bytes) m : Forall (fun x => (length x <= m)%nat) l -> map (firstn m) l = l.
Proof. induction 1; cbn [map]; [reflexivity|]. rewrite firstn_all2 by assumption. congruence. Qed.

(** From one node of a trie to another whose path goes on. *)
Lemma at_under t q1 s1 : at_path t q1 s1 -> trie t -> forall z s2, at_path t (q1 ++ z) s2 -> at_path s1 z s2.
Proof.
  induction 1 as [n|p c q s A IH|l v i c q s E A IH]; intros T z s2 A2; [assumption| |]; inversion T; subst.
  - remember ((p ++ q) ++ z) as y eqn:Y. inversion A2; subst.
    + rewrite <- app_assoc in *. destruct p; [congruence|discriminate].
    + rewrite <- app_assoc in *. match goal with E : p ++ _ = p ++ _ |- _ => apply app_inv_head in E; subst end. auto.
  - remember ((N.of_nat i :: q) ++ z) as y eqn:Y. inversion A2 as [| |l' v' i' c' q' s' E' B]; subst; [discriminate|].
    cbn [app] in *. match goal with E : _ :: _ = _ :: _ |- _ => injection E as E0 E3 end. subst. assert (i' = i) by lia. subst. assert (c' = c) by congruence. subst.
    apply IH; [|assumption]. rewrite Forall_forall in *. eauto using nth_error_In.
Qed.
Lemma leaf_path t q1 k1 v1 q2 k2 v2 : trie t -> at_path t q1 (NLeaf k1 v1) -> at_path t q2 (NLeaf k2 v2) ->
  (exists z, q1 ++ z = q2) -> q1 = q2.
Proof.
  intros T A1 A2 [z <-]. pose proof (at_under _ _ _ A1 T z _ A2) as B. inversion B; subst. now rewrite app_nil_r.
Qed.
Lemma app_split {A} (a : list A) : forall b c d, a ++ b = c ++ d -> (exists z, a ++ z = c) \/ (exists z, c ++ z = a).
Proof.
  induction a as [|x a IH]; intros b c d E; [left; now exists c|]. destruct c as [|y c]; [right; now exists (x :: a)|].
  injection E as -> E. destruct (IH _ _ _ E) as [[z <-]|[z <-]]; [left|right]; exists z; reflexivity.
Qed.

Lemma nodup_app {A} (l1 : list A) : forall l2, NoDup l1 -> NoDup l2 -> (forall x, In x l1 -> ~ In x l2) -> NoDup (l1 ++ l2).
Proof.
  induction l1 as [|x l1 IH]; intros l2 N1 N2 D; [assumption|]. inversion N1; subst. cbn. constructor.
  - intros I. apply in_app_iff in I. destruct I as [I|I]; [contradiction|]. apply (D x); cbn; auto.
  - apply IH; auto. intros y Y. apply D. cbn. auto.
Qed.

Section Content.
Context (keccak : bytes -> bytes) (decode_node : bytes -> outcome node) (decode_account : bytes -> outcome account).
Context (K : forall x, hash32 (keccak x)) (Hread : reads_back keccak decode_node).
Context (get_state_root : bytes -> outcome bytes) (block_hash : bytes).
Notation enc := (encode_raw keccak).
Notation shown := (shown keccak decode_node).
Notation good_trie := (good_trie keccak).

Lemma shown_ok t i : good_trie t -> shown t i -> proof_ok (tp_proof i) /\ to_proof i = tp_proof i /\ tp_proof i <> [] /\ path (tp_path i).
Proof.
  intros (T & F & G) (s & nodes & [A O] & E & Fo & L & Fa).
  assert (Forall (fun x => exists q u, at_path t q u /\ x = enc u) (tp_proof i)) as Fa' by (rewrite E; constructor; [exists [], t; split; [constructor|reflexivity]|assumption]).
  destruct (G _ _ A) as [Lp _]. assert (length (tp_proof i) <= 65)%nat as Ln by (rewrite E; cbn [length]; lia).
  assert (Forall node_ok (tp_proof i)) as No.
  { eapply Forall_impl; [|exact Fa']. intros x (q & u & Q & ->). split; [eapply F; eauto|eapply G; eauto]. }
  split; [split; [unfold blen; lia|assumption]|]. split.
  - unfold to_proof. rewrite map_firstn_id; [apply firstn_all2; assumption|]. eapply Forall_impl; [|exact No]. intros x [X _]. unfold blen in X. lia.
  - split; [rewrite E; discriminate|]. split; [assumption|]. eapply at_nibbles; eauto.
Qed.
Lemma shown_last t i : shown t i -> exists s, own_entry keccak t (tp_path i) s /\ last (tp_proof i) [] = enc s.
Proof. intros S. destruct (shown_proves _ _ _ _ S) as (s & O & L & _). eauto. Qed.
Lemma shown_key t i : good_trie t -> shown t i -> account_content_key keccak i = Ok (AccountTrieNode (tp_path i) (keccak (last (tp_proof i) []))).
Proof.
  intros G S. destruct (shown_ok t i G S) as (_ & _ & NE & P). unfold account_content_key, last_of. destruct (tp_proof i) eqn:E; [congruence|].
  rewrite unpacked_ok; [reflexivity|]. destruct P as [P1 P2]. split; [unfold blen; lia|]. eapply Forall_impl; [|exact P2]. cbn. intros. lia.
Qed.
Lemma shown_storage_key t i a : good_trie t -> shown t i -> storage_content_key keccak i a = Ok (ContractStorageTrieNode a (tp_path i) (keccak (last (tp_proof i) []))).
Proof.
  intros G S. destruct (shown_ok t i G S) as (_ & _ & NE & P). unfold storage_content_key, last_of. destruct (tp_proof i) eqn:E; [congruence|].
  rewrite unpacked_ok; [reflexivity|]. destruct P as [P1 P2]. split; [unfold blen; lia|]. eapply Forall_impl; [|exact P2]. cbn. intros. lia.
Qed.
Lemma shown_valid t i : shown t i -> validate_node_trie_proof keccak decode_node (Some (root_hash keccak t)) (keccak (last (tp_proof i) [])) (tp_path i) (tp_proof i) = Ok tt.
Proof. intros S. destruct (shown_proves _ _ _ _ S) as (s & O & -> & V). exact V. Qed.

Notation accepted := (accepted keccak decode_node decode_account get_state_root).

Lemma decodes k v : state_value_ok k v -> state_decode k (state_encode v) = Ok v.
Proof. intros H. apply (read_back _ _ _ (C71_round_trip k) v H). Qed.

Context (t : node) (Gt : good_trie t) (Root : get_state_root block_hash = Ok (root_hash keccak t)) (Bh : hash32 block_hash).

Lemma account_accepted i : shown t i -> accepted (AccountTrieNode (tp_path i) (keccak (last (tp_proof i) [])), account_content_value block_hash i).
Proof.
  intros S. destruct (shown_ok t i Gt S) as (Po & Tp & NE & P). unfold account_content_value. rewrite Tp. split; cbn [fst snd].
  - split; [exact P|apply K].
  - unfold validate_with. rewrite decodes by (split; assumption). cbn [validate_account_trie_node state_root]. rewrite Root. cbn [omap obind].
    rewrite (shown_valid t i S). reflexivity.
Qed.

Context (Acc : accounts decode_account t).
Lemma leaf_account i k v a : shown t i -> at_path t (tp_path i) (NLeaf (k ++ [16]) v) -> decode_account v = Ok a ->
  exists address, full_nibble_path_to_address_hash (tp_path i ++ k) = Ok address /\ hash32 address /\ unpack_nibbles address = tp_path i ++ k /\
    account_at decode_account t address a /\
    validate_account_state keccak decode_node decode_account (Some (root_hash keccak t)) address (tp_proof i) = Ok a.
Proof.
  intros S A D. destruct (Acc _ _ _ A) as (NE & L & _ & _). destruct Gt as (T & F & G).
  assert (Forall nibble (tp_path i ++ k)) as Nb.
  { apply Forall_app. split; [eapply at_nibbles; eauto|]. pose proof (trie_at _ _ _ A T) as Tl. inversion Tl as [|k' v' Fk E| |]; subst.
    apply app_inj_tail in E. destruct E as [-> _]. assumption. }
  assert (Forall (fun n => n <= 15) (tp_path i ++ k)) as Nb15 by (apply nibbles_le15; assumption).
  exists (pack_pairs (tp_path i ++ k)).
  assert (unpack_nibbles (pack_pairs (tp_path i ++ k)) = tp_path i ++ k) as U by (apply unpack_pack_pairs; [exists 32%nat; lia|assumption]).
  split; [|split; [|split; [|split]]].
  - unfold full_nibble_path_to_address_hash. replace (blen (tp_path i ++ k) =? 64) with true by (symmetry; apply N.eqb_eq; unfold blen; lia). cbn [negb].
    rewrite padded_ok by (try assumption; lia). rewrite L, Nat.sub_diag. cbn [repeat]. rewrite app_nil_r. reflexivity.
  - split; [rewrite pack_pairs_len, L; reflexivity|apply pack_pairs_ok; assumption].
  - exact U.
  - exists (tp_path i), k, v. auto.
  - destruct S as (s & nodes & [As O] & E & Fo & _ & _). assert (s = NLeaf (k ++ [16]) v) as -> by (eapply at_det; eauto).
    unfold validate_account_state, validate_trie_proof. rewrite E, U.
    replace (check_node_hash keccak (enc t) (root_hash keccak t)) with (Ok tt) by (symmetry; apply check_ok; reflexivity). cbn [obind]. rewrite Fo. cbn [obind fst snd].
    rewrite Hread; [|eapply trie_at; eauto|eapply F; eauto]. cbn [obind seen traverse]. rewrite split_last_snoc. change (16 =? 16) with true. cbn [negb].
    destruct k as [|x k]; [congruence|]. cbn [is_nil]. rewrite beqb_refl. cbn [negb]. exact D.
Qed.

Lemma code_accepted i address a code : shown t i -> hash32 address ->
  validate_account_state keccak decode_node decode_account (Some (root_hash keccak t)) address (tp_proof i) = Ok a ->
  code_for keccak code (code_hash a) -> accepted (contract_content_key address (code_hash a), contract_content_value block_hash i code).
Proof.
  intros S Ha V [Kc [Lc Bc]]. destruct (shown_ok t i Gt S) as (Po & Tp & NE & P). unfold contract_content_value, contract_content_key. rewrite Tp.
  rewrite firstn_all2 by (unfold blen in Lc; lia). split; cbn [fst snd].
  - split; [assumption|]. rewrite <- Kc. apply K.
  - unfold validate_with. rewrite decodes by (split; [split; assumption|split; assumption]). cbn [validate_contract_bytecode state_root]. rewrite Kc, beqb_refl. cbn [negb].
    rewrite Root. cbn [omap obind]. rewrite V. cbn [obind]. rewrite beqb_refl. reflexivity.
Qed.

Lemma storage_accepted i j address a st : shown t i -> hash32 address ->
  validate_account_state keccak decode_node decode_account (Some (root_hash keccak t)) address (tp_proof i) = Ok a ->
  storage_root a = root_hash keccak st -> good_trie st -> shown st j ->
  accepted (ContractStorageTrieNode address (tp_path j) (keccak (last (tp_proof j) [])), storage_content_value block_hash i j).
Proof.
  intros S Ha V R Gs Sj. destruct (shown_ok t i Gt S) as (Po & Tp & NE & P). destruct (shown_ok st j Gs Sj) as (Po' & Tp' & NE' & P').
  unfold storage_content_value. rewrite Tp, Tp'. split; cbn [fst snd].
  - split; [assumption|]. split; [assumption|apply K].
  - unfold validate_with. rewrite decodes by (split; [assumption|split; assumption]). cbn [validate_contract_storage_trie_node state_root]. rewrite Root. cbn [omap obind].
    rewrite V. cbn [obind]. rewrite R, (shown_valid st j Sj). reflexivity.
Qed.

(** ** The loops *)
Context (code_by : bytes -> outcome (option bytes)) (storage_db : bytes -> bytes -> option bytes)
        (storage_walker : bytes -> bytes -> outcome (option walker)).
Context (Hcode : forall address a, hash32 address -> account_at decode_account t address a -> code_hash a <> keccak [] ->
  exists code, code_by (code_hash a) = Ok code /\ match code with Some c => code_for keccak c (code_hash a) | None => True end).
Context (Hstore : forall address a, hash32 address -> account_at decode_account t address a ->
  storage_walker address (storage_root a) = Ok None \/
  exists st w items, storage_walker address (storage_root a) = Ok (Some w) /\ storage_root a = root_hash keccak st /\ good_trie st /\
    walks decode_node (storage_db address) w items /\ Forall (shown st) items /\ NoDup (map tp_path items)).
Notation item_contents := (item_contents keccak decode_node decode_account block_hash code_by storage_db storage_walker).
Notation all_contents := (all_contents keccak decode_node decode_account block_hash code_by storage_db storage_walker).

(** What belongs to an item. *)
Definition of_item (i : trie_proof) (k : state_key) : Prop :=
  match k with
  | AccountTrieNode p _ => p = tp_path i
  | ContractBytecode address _ | ContractStorageTrieNode address _ _ =>
      exists kk v, at_path t (tp_path i) (NLeaf (kk ++ [16]) v) /\ unpack_nibbles address = tp_path i ++ kk
  end.
Definition has_all (i : trie_proof) (c : list content) : Prop :=
  (forall s, at_path t (tp_path i) s -> In (AccountTrieNode (tp_path i) (keccak (enc s))) (map fst c)) /\
  forall k v a address, at_path t (tp_path i) (NLeaf (k ++ [16]) v) -> hash32 address -> unpack_nibbles address = tp_path i ++ k -> decode_account v = Ok a ->
    (forall code, code_hash a <> keccak [] -> code_by (code_hash a) = Ok (Some code) -> In (ContractBytecode address (code_hash a)) (map fst c)) /\
    (forall w items j, storage_walker address (storage_root a) = Ok (Some w) -> walks decode_node (storage_db address) w items -> In j items ->
       In (ContractStorageTrieNode address (tp_path j) (keccak (last (tp_proof j) []))) (map fst c)).

Lemma storage_ok i address st : good_trie st -> forall items, Forall (shown st) items ->
  storage_contents keccak block_hash address i items =
  Ok (map (fun j => (ContractStorageTrieNode address (tp_path j) (keccak (last (tp_proof j) [])), storage_content_value block_hash i j)) items).
Proof.
  intros Gs. induction 1 as [|j items S F IH]; [reflexivity|]. cbn [storage_contents map]. rewrite (shown_storage_key st j address Gs S). cbn [obind]. rewrite IH. reflexivity.
Qed.

Lemma unpack_inj a b : bytes_ok a -> bytes_ok b -> unpack_nibbles a = unpack_nibbles b -> a = b.
Proof. intros A B E. destruct (pack_unpack_pairs a A) as [E1 _], (pack_unpack_pairs b B) as [E2 _]. congruence. Qed.

Lemma item_ok i : shown t i -> exists c, item_contents i c /\ Forall accepted c /\ has_all i c /\ Forall (of_item i) (map fst c) /\ NoDup (map fst c).
Proof.
  intros S. destruct (shown_last t i S) as (s & O & L). pose proof Gt as (T & F & G). destruct O as [A O].
  assert (decode_node (last (tp_proof i) []) = Ok (seen keccak s)) as D by (rewrite L; apply Hread; [eapply trie_at; eauto|eapply F; eauto]).
  pose proof (shown_key t i Gt S) as Key. pose proof (account_accepted i S) as Aa.
  assert ((exists k v, s = NLeaf (k ++ [16]) v) \/ forall k v, seen keccak s <> NLeaf k v) as [(k & v & ->)|NL].
  { pose proof (trie_at _ _ _ A T) as Ts. inversion Ts; subst; try (right; discriminate). left. eauto. }
  - destruct (Acc _ _ _ A) as (NE & Lk & _ & a & Da). destruct (leaf_account i k v a S A Da) as (address & Fa & Ha & Ua & Aat & Va).
    assert (exists code, (if beqb (code_hash a) (keccak []) then Ok None else code_by (code_hash a)) = Ok code /\
      match code with Some c => code_for keccak c (code_hash a) | None => True end) as (code & Ec & Cc).
    { destruct (beqb (code_hash a) (keccak [])) eqn:E; [exists None; auto|]. apply (Hcode address a Ha Aat). now apply beqb_false in E. }
    assert (exists ow items storage, storage_walker address (storage_root a) = Ok ow /\
      match ow with None => items = [] | Some w => walks decode_node (storage_db address) w items end /\
      storage_contents keccak block_hash address i items = Ok storage /\ Forall accepted storage /\
      map fst storage = map (fun j => ContractStorageTrieNode address (tp_path j) (keccak (last (tp_proof j) []))) items /\
      NoDup (map tp_path items)) as (ow & items & storage & Ew & W & Es & As & Ms & Nd).
    { destruct (Hstore address a Ha Aat) as [E|(st & w & items & E & R & Gs & W & Sh & Nd)].
      - exists None, [], []. repeat split; auto. constructor.
      - eexists (Some w), items, _. split; [assumption|]. split; [assumption|]. split; [apply (storage_ok i address st Gs items Sh)|]. split; [|split; [rewrite map_map; reflexivity|assumption]].
        apply Forall_map. eapply Forall_impl; [|exact Sh]. intros j Sj. eapply storage_accepted; eauto. }
    eexists. split; [|split; [|split; [|split]]].
    + eapply item_leaf; try eassumption. rewrite removelast_last. exact Fa.
    + constructor; [exact Aa|]. apply Forall_app. split; [|assumption]. destruct code as [c|]; [|constructor]. constructor; [|constructor].
      eapply code_accepted; eauto.
    + split.
      * intros s' As'. assert (s' = NLeaf (k ++ [16]) v) as -> by (eapply at_det; eauto). left. cbn [fst]. now rewrite L.
      * intros k' v' a' address' A' Ha' U' D'. assert (NLeaf (k' ++ [16]) v' = NLeaf (k ++ [16]) v) as E by (eapply at_det; eauto).
        injection E as E <-. apply app_inj_tail in E. destruct E as [-> _]. assert (a' = a) as -> by congruence.
        assert (address' = address) as -> by (apply unpack_inj; [apply Ha'|apply Ha|congruence]). split.
        -- intros cd NEc Ec'. right. rewrite map_app. apply in_or_app. left. destruct (beqb (code_hash a) (keccak [])) eqn:Eb; [apply beqb_spec in Eb; congruence|].
           rewrite Ec' in Ec. injection Ec as <-. now left.
        -- intros w its j Ew' W' J. right. rewrite map_app. apply in_or_app. right. rewrite Ms. rewrite Ew' in Ew. injection Ew as <-.
           assert (its = items) as -> by (eapply walks_det; eauto). apply in_map_iff. eauto.
    + cbn [map fst]. constructor; [reflexivity|]. rewrite map_app. apply Forall_app. split.
      * destruct code as [c|]; [|constructor]. constructor; [|constructor]. exists k, v. auto.
      * rewrite Ms. apply Forall_map, Forall_forall. intros j _. exists k, v. auto.
    + cbn [map fst]. rewrite map_app, Ms.
      assert (NoDup (map (fun j => ContractStorageTrieNode address (tp_path j) (keccak (last (tp_proof j) []))) items)) as Ns.
      { apply (NoDup_map_inv (fun k => match k with ContractStorageTrieNode _ p _ => p | _ => [] end)). rewrite map_map. exact Nd. }
      constructor.
      * intros I. apply in_app_iff in I. destruct I as [I|I]; [destruct code; [destruct I as [I|[]]; discriminate|easy]|]. apply in_map_iff in I. destruct I as (j & J & _). discriminate.
      * destruct code as [c|]; cbn [map app fst]; [|assumption]. constructor; [|assumption]. intros I. apply in_map_iff in I. destruct I as (j & J & _). discriminate.
  - exists [(AccountTrieNode (tp_path i) (keccak (last (tp_proof i) [])), account_content_value block_hash i)]. split; [|split; [|split; [|split]]].
    + eapply item_other; eauto.
    + constructor; [exact Aa|constructor].
    + split.
      * intros s' As'. assert (s' = s) as -> by (eapply at_det; eauto). left. cbn [fst]. now rewrite L.
      * intros k v a address A' _ _ _. exfalso. assert (s = NLeaf (k ++ [16]) v) as -> by (eapply at_det; eauto). eapply NL. reflexivity.
    + cbn. constructor; [reflexivity|constructor].
    + cbn. constructor; [easy|constructor].
Qed.

Lemma item_det i c : item_contents i c -> forall c', item_contents i c' -> c = c'.
Proof.
  intros H c' H'. destruct H as [key n E1 E2 NL|key k v a address code ow items storage E1 E2 E3 E4 E5 E6 E7 E8];
    destruct H' as [key' n' E1' E2' NL'|key' k' v' a' address' code' ow' items' storage' E1' E2' E3' E4' E5' E6' E7' E8'];
    rewrite E1 in E1'; injection E1' as <-; rewrite E2 in E2'.
  - reflexivity.
  - injection E2' as ->. exfalso. eapply NL. reflexivity.
  - injection E2' as <-. exfalso. eapply NL'. reflexivity.
  - injection E2' as <- <-. rewrite E3 in E3'. injection E3' as <-. rewrite E4 in E4'. injection E4' as <-. rewrite E5 in E5'. injection E5' as <-.
    rewrite E6 in E6'. injection E6' as <-. assert (items' = items) as -> by (destruct ow; [eapply walks_det; eauto|congruence]). congruence.
Qed.
Lemma all_det items cs : all_contents items cs -> forall cs', all_contents items cs' -> cs = cs'.
Proof.
  induction 1 as [|p r c cs I A IH]; intros cs' A'; inversion A'; subst; [reflexivity|]. f_equal; [eapply item_det; eauto|auto].
Qed.

Lemma all_ok items : Forall (shown t) items -> NoDup (map tp_path items) ->
  exists cs, all_contents items cs /\ Forall accepted cs /\ NoDup (map fst cs) /\
    (forall k, In k (map fst cs) -> exists i, In i items /\ of_item i k) /\
    forall i, In i items -> exists c, has_all i c /\ incl c cs.
Proof.
  induction 1 as [|i items S F IH]; intros Nd.
  - exists []. split; [constructor|]. split; [constructor|]. split; [constructor|]. split; [easy|easy].
  - inversion Nd as [|? ? Ni Nr]; subst. destruct (IH Nr) as (cs & A & Ac & N & Of & Ha). destruct (item_ok i S) as (c & Ic & Ac' & Hc & Oc & Nc).
    exists (c ++ cs). split; [constructor; assumption|]. split; [apply Forall_app; auto|]. split; [|split].
    + rewrite map_app. apply nodup_app; [assumption|assumption|]. intros k I1 I2. apply Of in I2. destruct I2 as (j & J & Oj).
      rewrite Forall_forall in Oc. specialize (Oc k I1). apply Ni. apply in_map_iff. exists j. split; [|assumption].
      pose proof Gt as (T & _ & _). destruct k as [p h|a p h|a h]; cbn [of_item] in Oc, Oj; [congruence| |];
        destruct Oc as (k1 & v1 & A1 & U1), Oj as (k2 & v2 & A2 & U2); rewrite U1 in U2;
        (destruct (app_split _ _ _ _ U2) as [Z|Z]; [symmetry|]; eapply leaf_path; eassumption).
    + intros k I. rewrite map_app in I. apply in_app_iff in I. destruct I as [I|I].
      * exists i. rewrite Forall_forall in Oc. split; [now left|auto].
      * destruct (Of k I) as (j & J & O). exists j. split; [now right|assumption].
    + intros j [<-|J].
      * exists c. split; [assumption|apply incl_appl, incl_refl].
      * destruct (Ha j J) as (c' & H1 & H2). exists c'. split; [assumption|apply incl_appr; assumption].
Qed.

Lemma leaf_own q k v : at_path t q (NLeaf (k ++ [16]) v) -> own_entry keccak t q (NLeaf (k ++ [16]) v).
Proof.
  intros A. split; [assumption|]. right. destruct (Acc _ _ _ A) as (_ & _ & L & _). cbn [encode_raw].
  match goal with |- _ <= blen (rlp_list ?x) => pose proof (rlp_list_len x) as Z end.
  assert (blen v <= blen (rlp_bytes v)) as V.
  { unfold rlp_bytes. destruct v as [|x [|y v]]; [unfold blen; cbn; lia| |unfold blen; rewrite app_length; lia]. destruct (x <? 128); [reflexivity|]. unfold blen. rewrite app_length. lia. }
  unfold blen in *. rewrite app_length in Z. lia.
Qed.

Lemma everything (V : bytes -> Prop) items : Forall (shown t) items -> NoDup (map tp_path items) ->
  (forall p s, own_entry keccak t p s -> V p -> In p (map tp_path items)) ->
  exists cs, (forall l, all_contents items l <-> l = cs) /\ Forall accepted cs /\ NoDup (map fst cs) /\
    (forall p s, own_entry keccak t p s -> V p -> In (AccountTrieNode p (keccak (enc s))) (map fst cs)) /\
    (forall q address a code, hash32 address -> account_on decode_account t q address a -> V q -> code_hash a <> keccak [] ->
       code_by (code_hash a) = Ok (Some code) -> In (ContractBytecode address (code_hash a)) (map fst cs)) /\
    (forall q address a w its j, hash32 address -> account_on decode_account t q address a -> V q ->
       storage_walker address (storage_root a) = Ok (Some w) -> walks decode_node (storage_db address) w its -> In j its ->
       In (ContractStorageTrieNode address (tp_path j) (keccak (last (tp_proof j) []))) (map fst cs)).
Proof.
  intros Sh Nd Hv. destruct (all_ok items Sh Nd) as (cs & A & Ac & N & _ & Ha). exists cs.
  assert (forall p s, own_entry keccak t p s -> V p -> exists i c, tp_path i = p /\ has_all i c /\ forall k, In k (map fst c) -> In k (map fst cs)) as At.
  { intros p s O Vp. pose proof (Hv p s O Vp) as I. apply in_map_iff in I. destruct I as (i & <- & I). destruct (Ha i I) as (c & H1 & H2).
    exists i, c. split; [reflexivity|]. split; [assumption|]. intros k Ik. apply in_map_iff in Ik. destruct Ik as (x & <- & X). apply in_map. auto. }
  split; [intros l; split; [intros A'; eapply all_det; eauto|now intros ->]|]. split; [assumption|]. split; [assumption|]. split; [|split].
  - intros p s O Vp. destruct (At p s O Vp) as (i & c & <- & [Hi _] & Up). apply Up, Hi, O.
  - intros q address a code Hd (k & v & A1 & U & Da) Vq NE Ec. destruct (At q _ (leaf_own q k v A1) Vq) as (i & c & <- & [_ Hi] & Up).
    apply Up. destruct (Hi k v a address A1 Hd U Da) as [H1 _]. eauto.
  - intros q address a w its j Hd (k & v & A1 & U & Da) Vq Ew W J. destruct (At q _ (leaf_own q k v A1) Vq) as (i & c & <- & [_ Hi] & Up).
    apply Up. destruct (Hi k v a address A1 Hd U Da) as [_ H1]. eauto.
Qed.
End Content.
