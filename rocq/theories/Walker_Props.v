(** Properties of slices, of walks over a trie, and of the content that bridges make of them. *)
From Verif Require Import Base Keys_Model Keys_Spec Keys_Proofs Trie_Model Trie_Spec Trie_Proofs Trie_Props StateContent_Model StateContent_Spec
  StateContent_Props Walker_Model Walker_Spec Walker_Proofs Walker_Walk Walker_Content.

(** ** C88: slices of the key space *)

Lemma slices n : 0 < n < 2 ^ 16 -> exists z, 2 ^ 256 <= n * z < 2 ^ 256 + n /\
  forall i, i < n -> exists f, filter_new i n = Ok f /\ f_end f < 2 ^ 256 /\ f_start f <= f_end f /\
    forall x, x < 2 ^ 256 -> (f_start f <= x <= f_end f <-> x / z = i).
Proof.
  intros B. exists (slice_size n). split.
  - destruct (N.eq_dec n 1) as [->|N1]; [now vm_compute|]. destruct (size_bounds n) as (S1 & S2 & S3 & S4); lia.
  - intros i I. destruct (new_ok i n I) as (f & E & B1 & B2 & H); [lia|]. exists f. split; [assumption|]. split; [assumption|]. split; [assumption|].
    intros x X. rewrite (H x X). split; [|auto]. intros [->|]; [|assumption]. assert (i = 0) as -> by lia. apply N.div_small. exact X.
Qed.

Lemma key_contains f k : is_key k -> f_start f <= f_end f -> f_end f < 2 ^ 256 ->
  filter_contains f k = Ok ((f_start f <=? path_num k) && (path_num k <=? f_end f)).
Proof.
  intros [L F] H1 H2. rewrite contains_num by (try assumption; lia). rewrite L. change (16 ^ N.of_nat (64 - 64)) with 1. rewrite !N.div_1_r. reflexivity.
Qed.
Lemma key_bound k : is_key k -> path_num k < 2 ^ 256.
Proof. intros [L F]. pose proof (path_bound k F) as B. rewrite L in B. exact B. Qed.

(** With [n] slices, slice [i] has exactly the keys from [i * z] to [(i + 1) * z - 1], where [z] is
    [2 ^ 256 / n] rounded up. *)
Theorem C88_slices : forall n, 0 < n < 2 ^ 16 -> exists z, 2 ^ 256 <= n * z < 2 ^ 256 + n /\
  forall i k, i < n -> is_key k -> exists f, filter_new i n = Ok f /\ filter_contains f k = Ok (path_num k / z =? i).
Proof.
  intros n B. destruct (slices n B) as (z & Z & H). exists z. split; [assumption|]. intros i k I Hk. destruct (H i I) as (f & E & B1 & B2 & Hx).
  exists f. split; [assumption|]. rewrite key_contains by assumption. f_equal. specialize (Hx _ (key_bound k Hk)).
  apply Bool.eq_iff_eq_true. rewrite andb_true_iff, !N.leb_le, N.eqb_eq. exact Hx.
Qed.
Print Assumptions C88_slices.
(** So every key is in exactly one slice. *)
Theorem C88_one : forall n k, 0 < n < 2 ^ 16 -> is_key k -> exists i, i < n /\
  forall j, j < n -> exists f, filter_new j n = Ok f /\ filter_contains f k = Ok (i =? j).
Proof.
  intros n k B Hk. destruct (C88_slices n B) as (z & Z & H). exists (path_num k / z). split.
  - pose proof (key_bound k Hk). apply N.div_lt_upper_bound; nia.
  - intros j J. apply (H j k J Hk).
Qed.
Print Assumptions C88_one.
(** A path of at most 64 nibbles never fails, and is inside if and only if a key behind it is. *)
Theorem C88_paths : forall n i f p, 0 < n < 2 ^ 16 -> i < n -> filter_new i n = Ok f -> Forall nibble p -> (length p <= 64)%nat ->
  exists b, filter_contains f p = Ok b /\ (b = true <-> exists k, is_key k /\ extends k p /\ filter_contains f k = Ok true).
Proof.
  intros n i f p B I E F L. destruct (slices n B) as (z & Z & H). destruct (H i I) as (f' & E' & B1 & B2 & Hx). rewrite E in E'. injection E' as <-.
  rewrite contains_num by (try assumption; lia). eexists. split; [reflexivity|].
  pose proof (contains_iff f p F L B2 B1) as C. rewrite contains_num in C by (try assumption; lia).
  split.
  - intros X. rewrite X in C. destruct (proj1 C eq_refl) as (k & Hk & Ex & R). exists k. split; [assumption|]. split; [assumption|].
    rewrite key_contains by assumption. f_equal. apply andb_true_iff. rewrite !N.leb_le. exact R.
  - intros (k & Hk & Ex & R). rewrite key_contains in R by assumption. injection R as R. apply andb_true_iff in R. rewrite !N.leb_le in R.
    assert (Ok ((f_start f / 16 ^ N.of_nat (64 - length p) <=? path_num p) && (path_num p <=? f_end f / 16 ^ N.of_nat (64 - length p))) = Ok true) as X by (apply C; eauto).
    now injection X.
Qed.
Print Assumptions C88_paths.
(** A slice that does not exist is refused by a panic, and no slices are the same as one. *)
Theorem C88_refused : (forall n i, 1 < n -> n <= i -> filter_new i n = Panic) /\
  (forall i, filter_new i 0 = filter_new 0 1 /\ filter_new i 1 = filter_new 0 1) /\
  (forall f p, (64 < length p)%nat -> filter_contains f p = Panic).
Proof.
  split; [|split].
  - intros n i N1 I. unfold filter_new. destruct (N.eqb_spec n 0); [lia|]. destruct (N.eqb_spec n 1); [lia|]. destruct (N.ltb_spec i n); [lia|reflexivity].
  - intros i. split; reflexivity.
  - intros f p. apply contains_long.
Qed.
Print Assumptions C88_refused.
(** A short path can be in two slices, and so can the leaf that stands there. *)
Example C88_example :
  (exists f0 f1 f2, filter_new 0 3 = Ok f0 /\ filter_new 1 3 = Ok f1 /\ filter_new 2 3 = Ok f2 /\
    filter_contains f0 [5] = Ok true /\ filter_contains f1 [5] = Ok true /\ filter_contains f2 [5] = Ok false /\
    filter_contains f0 (repeat 5 64) = Ok true /\ filter_contains f1 (repeat 5 63 ++ [6]) = Ok true) /\
  is_key (repeat 5 64).
Proof.
  split; [do 3 eexists; repeat split; vm_compute; reflexivity|]. split; [reflexivity|]. repeat (apply Forall_cons || apply Forall_nil); now unfold nibble.
Qed.

(** ** C89: walks *)

Section Walks.
Context (keccak : bytes -> bytes) (decode_node : bytes -> outcome node).
Notation enc := (encode_raw keccak).

Lemma whole_some db t : has_trie keccak db t -> has_some keccak db t.
Proof. intros H p s O. left. eauto. Qed.
Lemma whole_way db t p : has_trie keccak db t -> way_there keccak db t p.
Proof. intros H q s _ O. rewrite (H q s O). discriminate. Qed.
Lemma root_own t : own_entry keccak t [] t.
Proof. split; [constructor|auto]. Qed.

(** A walk over a trie ends without a panic.  It has one item for every node with an entry of its
    own, and for no other; in order; and each item proves its node. *)
Theorem C89_whole : (forall x, length (keccak x) = 32%nat) -> reads_back keccak decode_node ->
  forall db t, trie t -> fits keccak t -> has_trie keccak db t ->
  exists w items, walker_new db (root_hash keccak t) None = Ok w /\
    (forall l, walks decode_node db w l <-> l = items) /\
    StronglySorted before (map tp_path items) /\
    (forall p, In p (map tp_path items) <-> exists s, own_entry keccak t p s) /\
    Forall (proves keccak decode_node t) items.
Proof.
  intros K R db t T F H. pose proof (H [] t (root_own t)) as D.
  destruct (walk_all keccak decode_node K R db false None t T F (whole_some db t H) (or_intror H) Logic.I D) as (items & W & S & P & Sh).
  eexists _, items. unfold walker_new. unfold root_hash. rewrite D. split; [reflexivity|]. split; [assumption|]. split; [assumption|]. split.
  - intros p. rewrite P. pose proof (whole_way db t p H). cbn [takes_in]. tauto.
  - eapply Forall_impl; [|exact Sh]. apply shown_proves.
Qed.
(** With a slice it has only the nodes above and inside the slice. *)
Theorem C89_slice : (forall x, length (keccak x) = 32%nat) -> reads_back keccak decode_node ->
  forall db t i n, trie t -> fits keccak t -> (forall p s, at_path t p s -> (length p <= 64)%nat) -> has_trie keccak db t -> i < n -> n < 2 ^ 16 ->
  exists f w items, filter_new i n = Ok f /\ walker_new db (root_hash keccak t) (Some f) = Ok w /\
    (forall l, walks decode_node db w l <-> l = items) /\
    StronglySorted before (map tp_path items) /\
    (forall p, In p (map tp_path items) <->
       (exists s, own_entry keccak t p s) /\ exists k, is_key k /\ extends k p /\ filter_contains f k = Ok true) /\
    Forall (proves keccak decode_node t) items.
Proof.
  intros K R db t i n T F Dp H I B. pose proof (H [] t (root_own t)) as D. destruct (slices n) as (z & _ & Sl); [lia|].
  destruct (Sl i I) as (f & E & B1 & B2 & _).
  destruct (walk_all keccak decode_node K R db false (Some f) t T F (whole_some db t H) (or_intror H) (conj B2 (conj B1 Dp)) D) as (items & W & S & P & Sh).
  eexists f, _, items. unfold walker_new. unfold root_hash. rewrite D. split; [assumption|]. split; [reflexivity|]. split; [assumption|]. split; [assumption|]. split.
  - intros p. rewrite P. pose proof (whole_way db t p H). cbn [takes_in].
    assert (forall s, own_entry keccak t p s -> (filter_contains f p = Ok true <-> exists k, is_key k /\ extends k p /\ filter_contains f k = Ok true)) as G.
    { intros s [A _]. destruct (C88_paths n i f p ltac:(lia) I E (at_nibbles _ _ _ A T) (Dp _ _ A)) as (b & Eb & Hb). rewrite Eb, <- Hb. split; [intros X; now injection X|now intros ->]. }
    split; [intros ((s & O) & _ & C)|intros ((s & O) & C)]; (split; [eauto|]); [now apply (G s O)|]. split; [assumption|]. now apply (G s O).
  - eapply Forall_impl; [|exact Sh]. apply shown_proves.
Qed.
(** Over a database with only some of the nodes, it has those to which nothing on the way is missing. *)
Theorem C89_changed : (forall x, length (keccak x) = 32%nat) -> reads_back keccak decode_node ->
  forall db t, trie t -> fits keccak t -> has_some keccak db t ->
  exists w items, walker_new_partial db (root_hash keccak t) = Ok w /\
    (forall l, walks decode_node db w l <-> l = items) /\
    StronglySorted before (map tp_path items) /\
    (forall p, In p (map tp_path items) <-> (exists s, own_entry keccak t p s) /\ way_there keccak db t p) /\
    Forall (proves keccak decode_node t) items.
Proof.
  intros K R db t T F H. unfold walker_new_partial. destruct (H [] t (root_own t)) as [D|D].
  - destruct (walk_all keccak decode_node K R db true None t T F H (or_introl eq_refl) Logic.I D) as (items & W & S & P & Sh).
    eexists _, items. unfold root_hash. rewrite D. split; [reflexivity|]. split; [assumption|]. split; [assumption|]. split.
    + intros p. rewrite P. cbn [takes_in]. tauto.
    + eapply Forall_impl; [|exact Sh]. apply shown_proves.
  - eexists _, []. unfold root_hash. rewrite D. split; [reflexivity|]. split.
    + intros l. split; [intros W; inversion W as [|? ? ? ? E]; subst; [reflexivity|discriminate]|intros ->; constructor; reflexivity].
    + split; [constructor|]. split; [|constructor]. intros p. split; [easy|]. intros [_ Way]. exfalso. apply (Way [] t); [now exists p|apply root_own|assumption].
Qed.
(** A node that is missing from a database that should be whole is a panic, not an error. *)
Theorem C89_missing_refuted : (forall x, length (keccak x) = 32%nat) -> reads_back keccak decode_node ->
  forall db t p c, trie t -> fits keccak t -> t = NExt p c -> 32 <= blen (enc c) ->
  db (keccak (enc t)) = Some (enc t) -> db (keccak (enc c)) = None ->
  exists w, walker_new db (root_hash keccak t) None = Ok w /\ walker_next decode_node db w = Panic.
Proof.
  intros K R db t p c T F -> B D1 D2. unfold walker_new, root_hash. rewrite D1. eexists. split; [reflexivity|].
  unfold walker_next. cbn [stack tp_proof last tp_path wfilter is_partial_trie]. rewrite R; [|assumption|apply (F []); constructor].
  rewrite seen_ext, link_hashed by exact B. cbn [process_node wfilter obind negb]. rewrite D2. reflexivity.
Qed.

(** ** C90: what bridges send *)
Context (decode_account : bytes -> outcome account) (get_state_root : bytes -> outcome bytes) (block_hash : bytes).
Notation accepted := (accepted keccak decode_node decode_account get_state_root).

Lemma sorted_paths items : StronglySorted before (map tp_path items) -> NoDup (map tp_path items).
Proof. apply sorted_nodup, before_irrefl. Qed.

(** From a database with a whole state: the contents are determined, every one is accepted, none is
    sent twice, and every node, code and storage node is there. *)
Theorem C90_snapshot : (forall x, hash32 (keccak x)) -> reads_back keccak decode_node ->
  forall db account_db empty_root t, whole_state keccak decode_account db account_db empty_root t ->
  hash32 block_hash -> get_state_root block_hash = Ok (root_hash keccak t) ->
  exists cs, (forall l, snapshot_contents keccak decode_node decode_account block_hash db account_db empty_root (root_hash keccak t) l <-> l = cs) /\
    Forall accepted cs /\ NoDup (map fst cs) /\
    (forall p s, own_entry keccak t p s -> In (AccountTrieNode p (keccak (enc s))) (map fst cs)) /\
    (forall address a, hash32 address -> account_at decode_account t address a -> code_hash a <> keccak [] ->
       In (ContractBytecode address (code_hash a)) (map fst cs)) /\
    (forall address a st p s, hash32 address -> account_at decode_account t address a -> storage_root a <> empty_root ->
       storage_root a = root_hash keccak st -> good_trie keccak st -> has_trie keccak (account_db address) st ->
       own_entry keccak st p s -> In (ContractStorageTrieNode address p (keccak (enc s))) (map fst cs)).
Proof.
  intros K R db account_db empty_root t [Gt H Acc Hc Hs] Bh Root. pose proof (fun x => proj1 (K x)) as Kl. pose proof Gt as (T & F & G).
  pose proof (H [] t (root_own t)) as D.
  destruct (walk_all keccak decode_node Kl R db false None t T F (whole_some db t H) (or_intror H) Logic.I D) as (items & W & S & P & Sh).
  set (code_by := fun h => match db h with Some c => Ok (Some c) | None => Err end).
  set (storage_walker := fun address root => if beqb root empty_root then Ok None else omap Some (walker_new (account_db address) root None)).
  assert (forall address st, good_trie keccak st -> has_trie keccak (account_db address) st -> exists w items, walker_new (account_db address) (root_hash keccak st) None = Ok w /\
    walks decode_node (account_db address) w items /\ Forall (shown keccak decode_node st) items /\ NoDup (map tp_path items) /\
    forall p s, own_entry keccak st p s -> exists j, In j items /\ tp_path j = p) as Wst.
  { intros address st (Ts & Fs & Gs) Hst. pose proof (Hst [] st (root_own st)) as Ds.
    destruct (walk_all keccak decode_node Kl R (account_db address) false None st Ts Fs (whole_some _ st Hst) (or_intror Hst) Logic.I Ds) as (its & Ws & Ss & Ps & Shs).
    eexists _, its. unfold walker_new, root_hash. rewrite Ds. split; [reflexivity|]. split; [now apply Ws|]. split; [assumption|]. split; [now apply sorted_paths|].
    intros p s O. assert (In p (map tp_path its)) as I by (apply Ps; split; [eauto|split; [now apply whole_way|exact Logic.I]]). apply in_map_iff in I. destruct I as (j & <- & J). eauto. }
  destruct (everything keccak decode_node decode_account K R get_state_root block_hash t Gt Root Bh Acc code_by account_db storage_walker) with (V := fun _ : bytes => True) (items := items)
    as (cs & A & Ac & Nd & C1 & C2 & C3).
  - intros address a Ha Aa NE. destruct (Hc address a Ha Aa NE) as (code & E & Cf). exists (Some code). unfold code_by. rewrite E. auto.
  - intros address a Ha Aa. unfold storage_walker. destruct (beqb (storage_root a) empty_root) eqn:E; [auto|]. right. apply beqb_false in E.
    destruct (Hs address a Ha Aa E) as (st & Er & Gs & Hst). destruct (Wst address st Gs Hst) as (w & its & Ew & Ws & Shs & Nd & _).
    exists st, w, its. rewrite Er, Ew. repeat (split; [first [reflexivity|assumption]|]). assumption.
  - exact Sh.
  - now apply sorted_paths.
  - intros p s O _. apply P. split; [eauto|]. split; [now apply whole_way|exact Logic.I].
  - exists cs. split; [|split; [assumption|split; [assumption|split; [|split]]]].
    + intros l. unfold snapshot_contents, walker_new, root_hash. rewrite D. split.
      * intros (w & its & [= <-] & W' & A'). apply W in W'. subst its. apply A, A'.
      * intros ->. eexists _, items. split; [reflexivity|]. split; [now apply W|]. now apply A.
    + intros p s O. exact (C1 p s O Logic.I).
    + intros address a Hd Aa NE. destruct (Hc address a Hd Aa NE) as (code & Ec & _). destruct Aa as [q Aa]. apply (C2 q address a code Hd Aa Logic.I NE). unfold code_by. now rewrite Ec.
    + intros address a st p s Hd [q Aa] NE Er Gs Hst O. destruct (Wst address st Gs Hst) as (w & its & Ew & Ws & Shs & _ & All).
      destruct (All p s O) as (j & J & <-). rewrite Forall_forall in Shs. destruct (shown_last _ _ _ _ (Shs j J)) as (s' & [As _] & L').
      assert (s' = s) as -> by (eapply at_det; [exact As|apply Gs|apply O]). rewrite <- L'.
      apply (C3 q address a w its j Hd Aa Logic.I); [|assumption|assumption]. unfold storage_walker. destruct (beqb (storage_root a) empty_root) eqn:E; [apply beqb_spec in E; congruence|].
      rewrite Er, Ew. reflexivity.
Qed.

(** From what a block changed: the same, for the nodes to which nothing on the way is missing. *)
Theorem C90_changed : (forall x, hash32 (keccak x)) -> reads_back keccak decode_node ->
  forall diff newly storage_diff t, changed_state keccak decode_account diff newly storage_diff t ->
  hash32 block_hash -> get_state_root block_hash = Ok (root_hash keccak t) ->
  exists cs, (forall l, diff_contents keccak decode_node decode_account block_hash diff newly storage_diff (root_hash keccak t) l <-> l = cs) /\
    Forall accepted cs /\ NoDup (map fst cs) /\
    (forall p s, own_entry keccak t p s -> way_there keccak diff t p -> In (AccountTrieNode p (keccak (enc s))) (map fst cs)) /\
    (forall q address a, hash32 address -> account_on decode_account t q address a -> way_there keccak diff t q ->
       code_hash a <> keccak [] -> newly (code_hash a) <> None -> In (ContractBytecode address (code_hash a)) (map fst cs)) /\
    (forall q address a st p s, hash32 address -> account_on decode_account t q address a -> way_there keccak diff t q ->
       storage_root a = root_hash keccak st -> good_trie keccak st -> has_some keccak (storage_diff address) st ->
       own_entry keccak st p s -> way_there keccak (storage_diff address) st p ->
       In (ContractStorageTrieNode address p (keccak (enc s))) (map fst cs)).
Proof.
  intros K R diff newly storage_diff t [Gt H Acc Hc Hs] Bh Root. pose proof (fun x => proj1 (K x)) as Kl. pose proof Gt as (T & F & G).
  assert (forall db st, good_trie keccak st -> has_some keccak db st -> exists w items, walker_new_partial db (root_hash keccak st) = Ok w /\
    (forall l, walks decode_node db w l <-> l = items) /\ Forall (shown keccak decode_node st) items /\ NoDup (map tp_path items) /\
    forall p s, own_entry keccak st p s -> way_there keccak db st p -> In p (map tp_path items)) as Wst.
  { intros db st (Ts & Fs & Gs) Hst. unfold walker_new_partial. destruct (Hst [] st (root_own st)) as [D|D].
    - destruct (walk_all keccak decode_node Kl R db true None st Ts Fs Hst (or_introl eq_refl) Logic.I D) as (its & Ws & Ss & Ps & Shs).
      eexists _, its. unfold root_hash. rewrite D. split; [reflexivity|]. split; [assumption|]. split; [assumption|]. split; [now apply sorted_paths|].
      intros p s O Wy. apply Ps. split; [eauto|]. split; [assumption|exact Logic.I].
    - eexists _, []. unfold root_hash. rewrite D. split; [reflexivity|]. split; [|split; [constructor|split; [constructor|]]].
      + intros l. split; [intros W; inversion W as [|? ? ? ? E]; subst; [reflexivity|discriminate]|intros ->; constructor; reflexivity].
      + intros p s _ Wy. exfalso. apply (Wy [] st); [now exists p|apply root_own|assumption]. }
  destruct (Wst diff t Gt H) as (w0 & items & E0 & W & Sh & Nd0 & All).
  destruct (everything keccak decode_node decode_account K R get_state_root block_hash t Gt Root Bh Acc (fun h => Ok (newly h)) storage_diff
    (fun address root => omap Some (walker_new_partial (storage_diff address) root))) with (V := way_there keccak diff t) (items := items)
    as (cs & A & Ac & Nd & C1 & C2 & C3); try assumption.
  - intros address a Ha Aa NE. exists (newly (code_hash a)). split; [reflexivity|]. destruct (newly (code_hash a)) eqn:E; [eauto|exact Logic.I].
  - intros address a Ha Aa. right. destruct (Hs address a Ha Aa) as (st & Er & Gs & Hst). destruct (Wst _ st Gs Hst) as (w & its & Ew & Ws & Shs & Nd & _).
    exists st, w, its. rewrite Er, Ew. split; [reflexivity|]. split; [reflexivity|]. split; [assumption|]. split; [now apply Ws|]. split; assumption.
  - exists cs. split; [|split; [assumption|split; [assumption|split; [|split]]]].
    + intros l. unfold diff_contents. rewrite E0. split.
      * intros (w & its & [= <-] & W' & A'). apply W in W'. subst its. apply A, A'.
      * intros ->. eexists _, items. split; [reflexivity|]. split; [now apply W|]. now apply A.
    + exact C1.
    + intros q address a Hd Aa Wy NE Nn. destruct (newly (code_hash a)) as [code|] eqn:Ec; [|congruence]. apply (C2 q address a code Hd Aa Wy NE). now rewrite Ec.
    + intros q address a st p s Hd Aa Wy Er Gs Hst O Wp. destruct (Wst _ st Gs Hst) as (w & its & Ew & Ws & Shs & _ & Als).
      pose proof (Als p s O Wp) as J. apply in_map_iff in J. destruct J as (j & <- & J). rewrite Forall_forall in Shs. destruct (shown_last _ _ _ _ (Shs j J)) as (s' & [As _] & L').
      assert (s' = s) as -> by (eapply at_det; [exact As|apply Gs|apply O]). rewrite <- L'.
      apply (C3 q address a w its j Hd Aa Wy); [|now apply Ws|assumption]. rewrite Er, Ew. reflexivity.
Qed.
End Walks.
Print Assumptions C89_whole.
Print Assumptions C89_slice.
Print Assumptions C89_changed.
Print Assumptions C89_missing_refuted.
Print Assumptions C90_snapshot.
Print Assumptions C90_changed.

(** With [total] bridges every content is offered by exactly one of them. *)
Lemma pick_perm {A} (g : A -> N) l : forall n, (forall x, In x l -> g x < N.of_nat n) ->
  Permutation (concat (map (fun j => List.filter (fun x => g x =? N.of_nat j) l) (seq 0 n))) l.
Proof.
  intros n. induction n as [|n IH] in l |- *; intros B.
  - destruct l as [|x l]; [constructor|]. specialize (B x (or_introl eq_refl)). lia.
  - rewrite seq_S, map_app, concat_app. cbn [map concat plus]. rewrite app_nil_r.
    assert (Permutation (List.filter (fun x => g x <? N.of_nat n) l ++ List.filter (fun x => g x =? N.of_nat n) l) l) as Sp.
    { clear IH. induction l as [|x l IH]; [constructor|]. cbn [List.filter]. pose proof (B x (or_introl eq_refl)) as Bx. specialize (IH (fun y Y => B y (or_intror Y))).
      destruct (N.ltb_spec (g x) (N.of_nat n)), (N.eqb_spec (g x) (N.of_nat n)); try lia; cbn [app].
      - now constructor.
      - eapply perm_trans; [apply Permutation_sym, Permutation_middle|]. now constructor. }
    etransitivity; [|exact Sp]. apply Permutation_app_tail. etransitivity; [|apply IH].
    + apply Permutation_refl'. f_equal. apply map_ext_in. intros j J. apply in_seq in J. clear - J. induction l as [|x l IH]; [reflexivity|]. cbn [List.filter].
      destruct (N.ltb_spec (g x) (N.of_nat n)); cbn [List.filter]; rewrite IH; [reflexivity|]. destruct (N.eqb_spec (g x) (N.of_nat j)); [lia|reflexivity].
    + intros x X. apply filter_In in X. destruct X as [_ X]. apply N.ltb_lt in X. exact X.
Qed.
Theorem C90_shared : forall total (cs : list content), (0 < total)%nat ->
  Permutation (concat (map (fun id => offered (N.of_nat id) (N.of_nat total) cs) (seq 1 total))) cs /\
  forall id c, (0 < id <= total)%nat -> In c (offered (N.of_nat id) (N.of_nat total) cs) <->
    exists i, nth_error cs i = Some c /\ N.of_nat i mod N.of_nat total = N.of_nat id - 1.
Proof.
  intros total cs Tp.
  assert (forall id i, (0 < id <= total)%nat -> is_selected (N.of_nat id) (N.of_nat total) i = (i mod N.of_nat total =? N.of_nat id - 1)) as Sel.
  { intros id i B. unfold is_selected. destruct (N.eqb_spec (N.of_nat total) 1) as [E|_]; [|reflexivity]. rewrite E, N.mod_1_r. assert (N.of_nat id = 1) as -> by lia. reflexivity. }
  split.
  - assert (map snd (enumerate cs) = cs) as Sn.
    { unfold enumerate. generalize 0%nat. induction cs as [|c cs IH]; intros k; [reflexivity|]. cbn. f_equal. apply IH. }
    pose proof (pick_perm (fun x : nat * content => N.of_nat (fst x) mod N.of_nat total) (enumerate cs) total) as P.
    assert (forall x : nat * content, In x (enumerate cs) -> N.of_nat (fst x) mod N.of_nat total < N.of_nat total) as B by (intros x _; apply N.mod_lt; lia).
    specialize (P B). apply (Permutation_map snd) in P. rewrite Sn, concat_map, map_map in P. etransitivity; [|exact P]. apply Permutation_refl'. f_equal.
    rewrite <- seq_shift, map_map. apply map_ext_in. intros j J. apply in_seq in J. unfold offered. f_equal.
    apply filter_ext. intros x. rewrite Sel by lia. f_equal. lia.
  - intros id c B. unfold offered. rewrite in_map_iff. split.
    + intros ([i c'] & <- & I). apply filter_In in I. cbn [fst snd] in *. destruct I as [I E]. rewrite Sel in E by assumption. exists i. split; [now apply enumerate_in|]. now apply N.eqb_eq.
    + intros (i & I & E). exists (i, c). split; [reflexivity|]. apply filter_In. split; [now apply enumerate_in|]. cbn [fst]. rewrite Sel by assumption. now apply N.eqb_eq.
Qed.
Print Assumptions C90_shared.

(** A code of more than 32768 bytes is cut, and what is sent is refused by every node. *)
Theorem C90_long_code_refuted : forall keccak decode_node decode_account get_state_root check block_hash address i code,
  proof_ok (to_proof i) -> hash32 block_hash -> bytes_ok code ->
  keccak (firstn (N.to_nat 32768) code) <> keccak code ->
  validate_with keccak decode_node decode_account get_state_root check (contract_content_key address (keccak code))
    (state_encode (contract_content_value block_hash i code)) = Ok Invalid.
Proof.
  intros keccak decode_node decode_account get_state_root check block_hash address i code Po Bh Bc NE. unfold contract_content_key, contract_content_value, validate_with.
  rewrite decodes.
  - cbn [validate_contract_bytecode]. destruct (beqb (keccak (firstn (N.to_nat 32768) code)) (keccak code)) eqn:E; [apply beqb_spec in E; contradiction|reflexivity].
  - split; [|split; assumption]. split; [|now apply bytes_ok_firstn]. unfold blen. rewrite firstn_length. lia.
Qed.
Print Assumptions C90_long_code_refuted.

(** ** Examples *)

Definition toy_ext : node := NExt [1] (NBranch (toy_leaf (repeat 0 61) 7 :: repeat NEmpty 14 ++ [toy_leaf [3] 8]) None).
Definition toy_db (h : bytes) : option bytes :=
  List.find (fun x => beqb (toy_keccak x) h)
    (map (encode_raw toy_keccak) [toy_trie; toy_ext; match toy_ext with NExt _ c => c | n => n end; toy_leaf (repeat 0 61) 7; toy_leaf [3] 8; toy_leaf [2] 9]).
Lemma toy_whole : has_trie toy_keccak toy_db toy_trie.
Proof.
  intros p s [A O].
  assert (G : forall n, (fix all n : bool := (match toy_db (toy_keccak (encode_raw toy_keccak n)) with Some x => beqb x (encode_raw toy_keccak n) | None => blen (encode_raw toy_keccak n) <? 32 end) &&
       match n with NExt _ c => all c | NBranch l _ => forallb all l | _ => true end) n = true ->
       forall p s, at_path n p s -> match toy_db (toy_keccak (encode_raw toy_keccak s)) with Some x => beqb x (encode_raw toy_keccak s) | None => blen (encode_raw toy_keccak s) <? 32 end = true).
  { clear. intros n H p s A. revert H. induction A as [n|p c q s A IH|l v i c q s E A IH]; intros H.
    - destruct n; apply andb_true_iff in H; tauto.
    - apply andb_true_iff in H. destruct H as [_ H]. auto.
    - apply andb_true_iff in H. destruct H as [_ H]. rewrite forallb_forall in H. apply IH, H. eapply nth_error_In; eauto. }
  specialize (G toy_trie ltac:(vm_compute; reflexivity) p s A).
  destruct (toy_db (toy_keccak (encode_raw toy_keccak s))) as [x|] eqn:E; [apply beqb_spec in G; now subst|].
  destruct O as [->|O]; [|lia]. inversion A; subst. vm_compute in E. discriminate.
Qed.
Example C89_example : has_trie toy_keccak toy_db toy_trie /\
  exists w items, walker_new toy_db (root_hash toy_keccak toy_trie) None = Ok w /\ walks rlp_decode_node toy_db w items /\
    map tp_path items = [[]; [5]; [5; 1]; [5; 1; 0]; [5; 1; 15]; [7]].
Proof.
  split; [exact toy_whole|]. eexists _, _. split; [vm_compute; reflexivity|]. split.
  - repeat (eapply walks_more; [vm_compute; reflexivity|]). apply walks_end. vm_compute. reflexivity.
  - reflexivity.
Qed.

(** A state of one account, with code and storage. *)
Definition toy_hash (x : bytes) : bytes := map (fun b => b mod 256) (toy_keccak x).
Lemma toy_hash32 x : hash32 (toy_hash x).
Proof.
  split; [unfold toy_hash; rewrite map_length; apply toy_keccak_len|]. apply Forall_map, Forall_forall. intros b _. apply N.mod_lt. discriminate.
Qed.
Definition one_account : account := mk_account 1 2 (root_hash toy_hash (toy_leaf (repeat 4 64) 5)) (toy_hash [1; 2; 3]).
Definition one_state : node := toy_leaf (unpack_nibbles toy_address) 9.
Definition one_db (h : bytes) : option bytes :=
  List.find (fun x => beqb (toy_hash x) h) [encode_raw toy_hash one_state; [1; 2; 3]].
Definition one_storage (a h : bytes) : option bytes :=
  List.find (fun x => beqb (toy_hash x) h) [encode_raw toy_hash (toy_leaf (repeat 4 64) 5)].
Example C90_example :
  whole_state toy_hash (fun _ => Ok one_account) one_db one_storage (repeat 0 32) one_state /\
  exists cs, snapshot_contents toy_hash rlp_decode_node (fun _ => Ok one_account) (repeat 6 32) one_db one_storage (repeat 0 32) (root_hash toy_hash one_state) cs /\
    Forall (accepted toy_hash rlp_decode_node (fun _ => Ok one_account) (fun _ => Ok (root_hash toy_hash one_state))) cs /\
    In (ContractBytecode toy_address (toy_hash [1; 2; 3])) (map fst cs) /\
    In (ContractStorageTrieNode toy_address [] (storage_root one_account)) (map fst cs).
Proof.
  assert (forall k v, forallb (fun n => n <? 16) k = true -> trie (NLeaf (k ++ [16]) v)) as Lf.
  { intros k v H. constructor. rewrite forallb_forall in H. apply Forall_forall. intros x I. apply H in I. unfold nibble. lia. }
  assert (forall k v p s, at_path (NLeaf k v) p s -> p = [] /\ s = NLeaf k v) as At by (intros k v p s A; inversion A; auto).
  assert (good_trie toy_hash (toy_leaf (repeat 4 64) 5)) as G2.
  { split; [apply Lf; reflexivity|]. split; [intros p s A; apply At in A; destruct A as [-> ->]; vm_compute; discriminate|].
    intros p s A. apply At in A. destruct A as [-> ->]. split; [cbn; lia|]. apply bytes_okb_spec. vm_compute. reflexivity. }
  assert (whole_state toy_hash (fun _ => Ok one_account) one_db one_storage (repeat 0 32) one_state) as Ws.
  { assert (good_trie toy_hash one_state) as G1.
    { split; [apply Lf; reflexivity|]. split; [intros p s A; apply At in A; destruct A as [-> ->]; vm_compute; discriminate|].
      intros p s A. apply At in A. destruct A as [-> ->]. split; [cbn; lia|]. apply bytes_okb_spec. vm_compute. reflexivity. }
    assert (forall address a, account_at (fun _ => Ok one_account) one_state address a -> a = one_account) as One by (intros address a (q & k & v & _ & _ & [= <-]); reflexivity).
    constructor.
    + exact G1.
    + intros p s [A _]. apply At in A. destruct A as [-> ->]. vm_compute. reflexivity.
    + intros q k v A. apply At in A. destruct A as [-> E]. unfold one_state, toy_leaf in E. assert (k ++ [16] = unpack_nibbles toy_address ++ [16]) as E1 by congruence. assert (v = repeat 9 40) as -> by congruence. clear E. apply app_inj_tail in E1. destruct E1 as [-> _]. split; [discriminate|]. split; [reflexivity|]. split; [vm_compute; discriminate|]. eauto.
    + intros address a _ Aa NE. apply One in Aa. subst. exists [1; 2; 3]. split; [vm_compute; reflexivity|]. split; [reflexivity|]. split; [vm_compute; discriminate|]. apply bytes_okb_spec. reflexivity.
    + intros address a _ Aa NE. apply One in Aa. subst. exists (toy_leaf (repeat 4 64) 5). split; [reflexivity|]. split; [exact G2|].
      intros p s [A _]. apply At in A. destruct A as [-> ->]. vm_compute. reflexivity. }
  split; [exact Ws|].
  assert (hash32 (repeat 6 32)) as H6 by (split; [reflexivity|]; apply bytes_okb_spec; reflexivity).
  assert (hash32 toy_address) as Ha by (split; [reflexivity|]; apply bytes_okb_spec; reflexivity).
  assert (account_at (fun _ => Ok one_account) one_state toy_address one_account) as Aa.
  { exists [], (unpack_nibbles toy_address), (repeat 9 40). split; [constructor|]. split; reflexivity. }
  destruct (C90_snapshot toy_hash rlp_decode_node (fun _ => Ok one_account) (fun _ => Ok (root_hash toy_hash one_state)) (repeat 6 32) toy_hash32
    (proj1 (C28_decoder toy_hash (fun x => proj1 (toy_hash32 x)))) _ _ _ _ Ws H6 eq_refl) as (cs & C & Ac & _ & _ & Cd & St).
  exists cs. split; [now apply C|]. split; [exact Ac|]. split.
  - apply (Cd toy_address one_account Ha Aa). vm_compute. discriminate.
  - apply (St toy_address one_account (toy_leaf (repeat 4 64) 5) [] (toy_leaf (repeat 4 64) 5) Ha Aa); [vm_compute; discriminate|reflexivity|exact G2| |split; [constructor|auto]].
    intros p s [A _]. apply At in A. destruct A as [-> ->]. vm_compute. reflexivity.
Qed.
