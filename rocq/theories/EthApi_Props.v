(** The eth_ methods: the properties. *)
From Verif Require Import Base ExecDb_Model ExecDb_Proofs Keys_Model Keys_Spec Keys_Props Merkle_Spec Trie_Model Trie_Spec StateContent_Model StateContent_Spec StateContent_Proofs Header_Model Header_Spec Header_Props
  LegacyHistory_Model Ssz_Proofs LegacyHistory_Spec LegacyHistory_Proofs LegacyHistory_Props EvmState_Model EvmState_Spec EvmState_Props EthApi_Model EthApi_Spec.

Section Api.
Context {tx rct wdl : Type}.
Context (HC : codec full_header) (HL : codec (list full_header)) (TC : codec tx) (RC : codec rct) (WC : codec wdl).
Context (keccak : bytes -> bytes) (trie_root : list bytes -> bytes).
Context (sha : bytes -> bytes) (fk : forks).
Context (block_length : full_header -> @block_body tx wdl -> N) (state_root_of : full_header -> bytes).
Context (Hsha : forall x, len32 (sha x)) (K : forall x, hash32 (keccak x)).
Context (PHC : proper HC) (PHL : proper HL) (PTC : proper TC) (PRC : proper RC) (PWC : proper WC).
Notation held := (held HC HL TC RC WC keccak trie_root sha fk).
Notation header_in := (header_in HC keccak sha fk).
Notation answer := (answer HC HL TC RC WC keccak trie_root sha fk).
Notation reached := (reached HC HL TC RC WC keccak trie_root sha fk).
Notation answered := (answered HC HL TC RC WC keccak trie_root sha fk).
Notation meant := (meant HC keccak).
Notation shows := (shows HC TC keccak block_length).
Notation same_uncles := (same_uncles HL keccak).
Notation same_transactions := (same_transactions TC trie_root).
Notation same_withdrawals := (same_withdrawals WC trie_root).
Notation body_of := (LegacyHistory_Spec.body_of HL TC WC keccak trie_root).
Notation get_block_by_number := (get_block_by_number HC HL TC RC WC keccak fk block_length).
Notation get_block_by_hash := (get_block_by_hash HC HL TC RC WC keccak fk block_length).
Notation fetch_block := (fetch_block HC HL TC RC WC keccak fk block_length).
Notation evm_block_state := (evm_block_state HC HL TC RC WC fk).
Notation legacy_encode := (LegacyHistory_Model.legacy_encode HC HL TC RC WC).

Lemma K32 x : len32 (keccak x). Proof. apply K. Qed.
Lemma reached_good c n : chain_ok c -> reached c n -> reach sha fk c (n_validator n) /\ good_store HC HL TC RC WC keccak trie_root sha fk c (n_store n).
Proof.
  intros C (v & l & R & F & ->). unfold node_run.
  assert (G : forall m, reach sha fk c (n_validator m) -> good_store HC HL TC RC WC keccak trie_root sha fk c (n_store m) ->
    let m' := fold_left (node_step HC HL TC RC WC keccak trie_root sha fk) l m in reach sha fk c (n_validator m') /\ good_store HC HL TC RC WC keccak trie_root sha fk c (n_store m')).
  { induction F as [|o l O F IH]; intros m Rm Gm; [split; assumption|]. cbn [fold_left].
    destruct (step_good HC HL TC RC WC keccak trie_root sha fk Hsha K32 PHC PHL PTC PRC PWC c m o C Rm Gm O) as [R' G']. apply IH; assumption. }
  apply G; [exact R|constructor].
Qed.

(** Whatever a node answers to a lookup is about the chain: see [held]. *)
Theorem C97_answers : forall c n source net net_header k b, chain_ok c -> reached c n -> honest sha c source -> some_bytes net -> some_bytes net_header ->
  legacy_valid k -> answer n source net net_header k = Ok b -> held c k b /\ bytes_ok b.
Proof.
  intros c n source net net_header k b C Rn S Hn Hh V A. destruct (reached_good c n C Rn) as [R G]. unfold EthApi_Model.answer in A.
  destruct (stored (n_store n) k) as [b'|] eqn:St; [injection A as ->; exact (stored_held HC HL TC RC WC keccak trie_root sha fk c _ k b G V St)|].
  destruct net as [b'|]; [|discriminate]. pose proof (Hn b' eq_refl) as Hb.
  match type of A with context [snd ?e] => destruct e as [v' r] eqn:E end. cbn [snd] in A.
  destruct r as [[]| |]; try discriminate; injection A as ->; [exfalso; exact (C52_all_or_nothing HC HL TC RC WC keccak trie_root sha fk _ _ _ _ _ _ E)|].
  split; [|exact Hb]. destruct k as [hash|num|hash|hash|hash num|hash]; cbn [LegacyHistory_Props.held].
  - exact (C52_header_by_hash HC HL TC RC WC keccak trie_root sha fk Hsha K32 PHC c _ _ _ _ _ _ C R S Hb E).
  - exact (C52_header_by_number HC HL TC RC WC keccak trie_root sha fk Hsha K32 PHC c _ _ _ _ _ _ C R S Hb E).
  - apply (C52_body HC HL TC RC WC keccak trie_root sha fk PHL PTC PWC) in E as (_ & h & body & F & X); [|exact Hb].
    destruct (found_header HC HL TC RC WC keccak trie_root sha fk Hsha K32 PHC c n source net_header hash h C R G S Hh V F) as (p & Eh & H). exists h, p, body. tauto.
  - apply (C52_receipts HC HL TC RC WC keccak trie_root sha fk PRC) in E as (_ & h & l & F & X); [|exact Hb].
    destruct (found_header HC HL TC RC WC keccak trie_root sha fk Hsha K32 PHC c n source net_header hash h C R G S Hh V F) as (p & Eh & H). exists h, p, l. tauto.
  - discriminate.
  - discriminate.
Qed.

Section Lookup.
Context (c : chain) (lookup : N -> legacy_key -> outcome bytes) (C : chain_ok c) (L : answered c lookup).
Lemma lookup_held i k b : legacy_valid k -> lookup i k = Ok b -> held c k b /\ bytes_ok b /\ blen b < 2 ^ 32.
Proof.
  intros V E. destruct (L i k b E) as (Lb & n & source & net & nh & R & S & Hn & Hh & A). destruct (C97_answers c n source net nh k b C R S Hn Hh V A). auto.
Qed.
Lemma header_by_hash i hash h : hash32 hash -> fetch_header_by_hash HC HL TC RC WC fk lookup i hash = Ok h -> keccak (enc HC h) = hash /\ exists p, header_in c h p.
Proof.
  intros V F. unfold fetch_header_by_hash, fetch_history_content in F. apply obind_ok in F as (v & F & Hv). apply obind_ok in F as (b & Eb & D).
  destruct (lookup_held i (BlockHeaderByHash hash) b V Eb) as ((h' & p & junk & -> & Lh & Eh & Hi) & Hb & _). pose proof Hi as (Er & P & _). cbn [legacy_decode] in D.
  rewrite (hwp_ok fk HC h' junk p (proj1 PHC) Lh Er P) in D. injection D as <-. cbn in Hv. injection Hv as <-. eauto.
Qed.
Lemma header_by_number i t h : id_ok (ByNumber t) -> fetch_header_by_number HC HL TC RC WC fk lookup i t = Ok h -> t = Number (number h) /\ exists p, header_in c h p.
Proof.
  intros V F. unfold fetch_header_by_number in F. destruct t as [n| | | | |]; try discriminate. cbn [as_number id_ok] in *. apply obind_ok in F as (v & F & Hv). apply obind_ok in F as (b & Eb & D).
  destruct (lookup_held i (BlockHeaderByNumber n) b V Eb) as ((h' & p & junk & -> & Lh & Eh & Hi) & Hb & _). pose proof Hi as (Er & P & _). cbn [legacy_decode] in D.
  rewrite (hwp_ok fk HC h' junk p (proj1 PHC) Lh Er P) in D. injection D as <-. cbn in Hv. injection Hv as <-. rewrite Eh. eauto.
Qed.
Lemma block_of i h hydrated blk : fetch_block lookup i h hydrated = Ok blk ->
  hydrated = false /\ exists body h' p', shows blk h body /\ keccak (enc HC h') = keccak (enc HC h) /\ header_in c h' p' /\
    same_uncles body h' /\ same_transactions body h' /\ (withdrawals body = None \/ same_withdrawals body h').
Proof.
  unfold EthApi_Model.fetch_block. destruct hydrated; [discriminate|]. intros F. split; [reflexivity|]. apply obind_ok in F as (body & F & E). injection E as <-.
  unfold fetch_block_body, fetch_history_content in F. apply obind_ok in F as (v & F & Hv). apply obind_ok in F as (b & Eb & D).
  destruct (lookup_held i (BlockBody (hash_slow HC keccak h)) b (K _) Eb) as ((h' & p & body' & Eh & Hi & Bv & X) & Hb & Lb). cbn [legacy_decode] in D.
  rewrite (body_ok HL TC WC body' b (proj1 PHL) (proj1 PTC) (proj1 PWC) Hb Lb Bv) in D. injection D as <-. injection Hv as <-.
  exists body', h', p. split; [|tauto]. unfold EthApi_Spec.shows, hash_slow. cbn. auto 10.
Qed.

(** A block that the API returns has a header of the chain with the hash or number that was asked
    for, and shows the transactions and uncles that this header commits to, and its withdrawals or none; or
    two headers of the chain have one hash. *)
Theorem C97_block : forall id hydrated blk, id_ok id ->
  match id with ByHash hash => get_block_by_hash lookup hash hydrated | ByNumber t => get_block_by_number lookup t hydrated end = Ok blk ->
  hydrated = false /\ exists h p body, shows blk h body /\ header_in c h p /\ meant id h /\
    ((same_uncles body h /\ same_transactions body h /\ (withdrawals body = None \/ same_withdrawals body h)) \/
     exists h' p', header_in c h' p' /\ hash_clash keccak (enc HC h) (enc HC h')).
Proof.
  intros id hydrated blk V E.
  assert (G : exists h p, header_in c h p /\ meant id h /\ fetch_block lookup 1 h hydrated = Ok blk).
  { destruct id as [hash|t].
    - unfold EthApi_Model.get_block_by_hash in E. apply obind_ok in E as (h & F & E). apply header_by_hash in F as (Eh & p & Hi); [|exact V]. exists h, p. cbn. auto.
    - unfold EthApi_Model.get_block_by_number in E. apply obind_ok in E as (h & F & E). apply header_by_number in F as (-> & p & Hi); [|exact V]. exists h, p. cbn. auto. }
  destruct G as (h & p & Hi & M & F). destruct (block_of 1 h hydrated blk F) as (-> & body & h' & p' & Sh & Eh & Hi' & U & T & W). split; [reflexivity|]. exists h, p, body. split; [exact Sh|]. split; [exact Hi|]. split; [exact M|].
  destruct (bytes_eq_dec (enc HC h) (enc HC h')) as [Q|Q].
  - left. assert (h = h') as ->; [|auto]. destruct PHC as (Rd & _). pose proof (Rd h []) as A. pose proof (Rd h' []) as B. rewrite Q in A. congruence.
  - right. exists h', p'. split; [exact Hi'|]. split; [exact Q|congruence].
Qed.
End Lookup.

(** Tags and full transactions are not supported, whatever the network answers. *)
Theorem C97_unsupported : forall lookup,
  (forall t hydrated enabled, (forall n, t <> Number n) -> get_block_by_number lookup t hydrated = Err /\ evm_block_state lookup enabled (ByNumber t) = Err) /\
  (forall t blk, get_block_by_number lookup t true <> Ok blk) /\ (forall hash blk, get_block_by_hash lookup hash true <> Ok blk).
Proof.
  intros lookup. split; [|split].
  - intros t hydrated enabled Nt. destruct t as [n| | | | |]; [destruct (Nt n eq_refl)|..]; (split; [reflexivity|destruct enabled; reflexivity]).
  - intros t blk H. unfold EthApi_Model.get_block_by_number in H. apply obind_ok in H as (h & _ & H). discriminate.
  - intros hash blk H. unfold EthApi_Model.get_block_by_hash in H. apply obind_ok in H as (h & _ & H). discriminate.
Qed.

(** If the lookups give the header and the body of a block, the API returns that block. *)
Theorem C97_complete : forall lookup id h p r bh bb,
  let hkey := match id with ByHash hash => BlockHeaderByHash hash | ByNumber (Number n) => BlockHeaderByNumber n | _ => BlockHeaderByNumber (number h) end in
  meant id h ->
  legacy_value_ok HC HL TC RC WC fk hkey (VHeader (h, p)) -> legacy_encode (VHeader (h, p)) = Ok bh -> lookup 0 hkey = Ok bh ->
  legacy_value_ok HC HL TC RC WC fk (BlockBody (keccak (enc HC h))) (VBody r) -> legacy_encode (VBody r) = Ok bb -> lookup 1 (BlockBody (keccak (enc HC h))) = Ok bb ->
  exists blk, match id with ByHash hash => get_block_by_hash lookup hash false | ByNumber t => get_block_by_number lookup t false end = Ok blk /\ shows blk h r.
Proof.
  intros lookup id h p r bh bb hkey M O1 E1 L1 O2 E2 L2.
  destruct (C77_round_trip HC HL TC RC WC keccak sha fk PHC PHL PTC PRC PWC _ _ O1) as (b1 & Eb1 & _ & D1). rewrite E1 in Eb1. injection Eb1 as <-.
  destruct (C77_round_trip HC HL TC RC WC keccak sha fk PHC PHL PTC PRC PWC _ _ O2) as (b2 & Eb2 & _ & D2). rewrite E2 in Eb2. injection Eb2 as <-.
  assert (F : fetch_block lookup 1 h false = Ok (mk_block h (hash_slow HC keccak h) (block_length h r) (map (fun t => keccak (enc TC t)) (transactions r)) (map (hash_slow HC keccak) (ommers r)) (withdrawals r))).
  { unfold EthApi_Model.fetch_block, fetch_block_body, fetch_history_content. change (hash_slow HC keccak h) with (keccak (enc HC h)). rewrite L2. cbn [obind]. rewrite D2. reflexivity. }
  eexists (mk_block h _ _ _ _ _). split; [|unfold EthApi_Spec.shows, hash_slow; cbn; repeat (split; [reflexivity|]); reflexivity].
  destruct id as [hash|[n| | | | |]]; cbn in M; try contradiction; unfold EthApi_Model.get_block_by_hash, EthApi_Model.get_block_by_number, fetch_header_by_hash, fetch_header_by_number, fetch_history_content; cbn [as_number];
    subst hkey; cbv iota in L1, D1; rewrite L1; cbn [obind]; rewrite D1; cbn [obind header_of fst]; rewrite F; reflexivity.
Qed.

(** A peer can leave out the withdrawals: every node takes the shorter body, and the API then shows
    the block without them. *)
Theorem C97_stripped_refuted : forall n source h p r ws,
  let hash := keccak (enc HC h) in
  stored (n_store n) (BlockHeaderByHash hash) = Some (header_value HC h [] p) -> stored (n_store n) (BlockBody hash) = None ->
  blen (enc HC h) <= 2048 -> era fk h p -> proof_ok p -> body_of r h -> withdrawals r = Some ws -> ommers r = [] ->
  small (map (enc TC) (transactions r)) -> blen (enc HL []) < 2 ^ 30 ->
  exists b, forall lookup, (forall i k, lookup i k = answer n source (Some b) None k) ->
    exists blk, get_block_by_hash lookup hash false = Ok blk /\ b_header blk = h /\ b_withdrawals blk = None /\
      b_transactions blk = map (fun t => keccak (enc TC t)) (transactions r).
Proof.
  intros n source h p r ws hash S1 S2 Lh Er P B W O Sm Le. set (stripped := {| transactions := transactions r; ommers := []; withdrawals := None |} : @block_body tx wdl).
  exists (encode_body HL TC WC stripped). intros lookup Lk.
  assert (Dh : decode_hwp HC fk (header_value HC h [] p) = Ok (h, p)) by (apply hwp_ok; [apply PHC|rewrite app_nil_r; exact Lh|exact Er|exact P]).
  assert (L0 : lookup 0 (BlockHeaderByHash hash) = Ok (header_value HC h [] p)) by (rewrite Lk; unfold EthApi_Model.answer; rewrite S1; reflexivity).
  assert (F : find_header HC HL TC RC WC fk (get_content HC HL TC RC WC keccak trie_root sha fk n source None) hash = Ok h).
  { unfold find_header, get_content. rewrite S1. cbn [legacy_decode]. rewrite Dh. reflexivity. }
  pose proof (C52_stripped_refuted HC HL TC RC WC keccak trie_root sha fk Hsha K32 PHL PTC PWC (n_validator n) source _ hash h r F B O Sm Le) as V. cbv zeta in V. fold stripped in V.
  assert (L1 : lookup 1 (BlockBody hash) = Ok (encode_body HL TC WC stripped)) by (rewrite Lk; unfold EthApi_Model.answer; rewrite S2, V; reflexivity).
  assert (Db : decode_body HL TC WC (encode_body HL TC WC stripped) = Ok stripped).
  { assert (Ov : legacy_value_ok HC HL TC RC WC fk (BlockBody hash) (VBody stripped)) by (cbn; auto).
    destruct (C77_round_trip HC HL TC RC WC keccak sha fk PHC PHL PTC PRC PWC _ _ Ov) as (b' & Eb & _ & D). assert (b' = encode_body HL TC WC stripped) as -> by (cbn [LegacyHistory_Model.legacy_encode] in Eb; congruence). cbn [legacy_decode] in D.
    destruct (decode_body HL TC WC (encode_body HL TC WC stripped)) as [x| |]; try discriminate. cbn [omap] in D. injection D as D. rewrite D. reflexivity. }
  unfold EthApi_Model.get_block_by_hash, fetch_header_by_hash, fetch_history_content. rewrite L0. cbn [obind legacy_decode]. rewrite Dh. cbn [obind omap header_of fst].
  unfold EthApi_Model.fetch_block, fetch_block_body, fetch_history_content. change (hash_slow HC keccak h) with hash. rewrite L1. cbn [obind legacy_decode]. rewrite Db. cbn [obind omap].
  eexists. split; [reflexivity|]. cbn. auto.
Qed.

(** ** States *)

Section States.
Context (decode_node : bytes -> outcome Trie_Model.node) (decode_account : bytes -> outcome account)
        (raw_ok : bytes -> bool) (net : N -> state_key -> outcome bytes) (fuel : nat).
Context (Rb : reads_back keccak decode_node) (Pa : forall v, decode_account v <> Panic) (Pn : forall i k, net i k <> Panic) (Pr : forall c, raw_ok c = true) (Lf : (64 < fuel)%nat)
        (Sv : forall i k b, net i k = Ok b -> served keccak decode_node decode_account k b).
(** The state of a header, as far as the state network cannot show another one. *)
Definition state_of (h : full_header) (t : Trie_Model.node) (storage_of : bytes -> Trie_Model.node) : Prop :=
  state_root_of h = root_hash keccak t /\ world keccak decode_account t storage_of /\ no_forgery keccak net t /\
  forall ah a, account_is decode_account t ah (Some a) -> no_forgery keccak net (storage_of ah).

Lemma on_state_inv {A} lookup enabled block (read : R A) r : on_state HC HL TC RC WC fk state_root_of lookup enabled block read = Some (Ok r) ->
  enabled = true /\ exists h s, evm_block_state lookup true block = Ok h /\ read (open_session (state_root_of h)) = Some (s, Ok r).
Proof.
  unfold on_state. destruct enabled; [|discriminate]. destruct (evm_block_state lookup true block) as [h| |] eqn:E; try discriminate.
  destruct (read (open_session (state_root_of h))) as [[s [x| |]]|] eqn:Rd; try discriminate. cbn. intros [= <-]. eauto 6.
Qed.
Lemma state_header c lookup block h : chain_ok c -> answered c lookup -> id_ok block -> evm_block_state lookup true block = Ok h -> meant block h /\ exists p, header_in c h p.
Proof.
  intros C L V E. unfold EthApi_Model.evm_block_state in E. destruct block as [hash|t].
  - apply (header_by_hash c lookup C L) in E; [|exact V]. exact E.
  - apply (header_by_number c lookup C L) in E as (-> & X); [|exact V]. cbn. auto.
Qed.

(** A balance, slot or code that the API returns is that of the state of a block of the chain: the block
    that was asked for. *)
Theorem C97_state : forall c lookup enabled block address slot, chain_ok c -> answered c lookup -> id_ok block ->
  (forall x, eth_get_balance HC HL TC RC WC keccak fk state_root_of lookup decode_node decode_account net enabled fuel address block = Some (Ok x) ->
     exists h p, header_in c h p /\ meant block h /\ forall t storage_of, state_of h t storage_of ->
       exists a, account_is decode_account t (keccak address) a /\ x = match a with Some a => balance a | None => 0 end) /\
  (forall x, eth_get_storage_at HC HL TC RC WC keccak fk state_root_of lookup decode_node decode_account net enabled fuel address slot block = Some (Ok x) ->
     exists h p, header_in c h p /\ meant block h /\ forall t storage_of, state_of h t storage_of ->
       exists a, account_is decode_account t (keccak address) a /\ match a with Some _ => slot_is keccak (storage_of (keccak address)) slot x | None => x = 0 end) /\
  (forall code, eth_get_code HC HL TC RC WC keccak fk state_root_of lookup decode_node decode_account raw_ok net enabled fuel address block = Some (Ok code) ->
     exists h p, header_in c h p /\ meant block h /\ forall t storage_of, state_of h t storage_of ->
       exists a, account_is decode_account t (keccak address) a /\ match a with Some a => keccak code = code_hash a | None => code = [] end).
Proof.
  intros c lookup enabled block address slot C L V. split; [|split].
  - intros x H. apply on_state_inv in H as (_ & h & s & E & Rd). destruct (state_header c lookup block h C L V E) as (M & p & Hi). exists h, p. split; [exact Hi|]. split; [exact M|].
    intros t st (Rt & W & F1 & F2). rewrite Rt in Rd. destruct (C96_rpc_sound keccak decode_node decode_account raw_ok net t st fuel K Rb Pa Pn Pr W Lf Sv F1 F2 address slot) as ((s' & r & E' & _ & G) & _).
    rewrite Rd in E'. injection E' as <- <-. exact (G x eq_refl).
  - intros x H. apply on_state_inv in H as (_ & h & s & E & Rd). destruct (state_header c lookup block h C L V E) as (M & p & Hi). exists h, p. split; [exact Hi|]. split; [exact M|].
    intros t st (Rt & W & F1 & F2). rewrite Rt in Rd. destruct (C96_rpc_sound keccak decode_node decode_account raw_ok net t st fuel K Rb Pa Pn Pr W Lf Sv F1 F2 address slot) as (_ & (s' & r & E' & _ & G) & _).
    rewrite Rd in E'. injection E' as <- <-. exact (G x eq_refl).
  - intros x H. apply on_state_inv in H as (_ & h & s & E & Rd). destruct (state_header c lookup block h C L V E) as (M & p & Hi). exists h, p. split; [exact Hi|]. split; [exact M|].
    intros t st (Rt & W & F1 & F2). rewrite Rt in Rd. destruct (C96_rpc_sound keccak decode_node decode_account raw_ok net t st fuel K Rb Pa Pn Pr W Lf Sv F1 F2 address slot) as (_ & _ & (s' & r & E' & _ & G)).
    rewrite Rd in E'. injection E' as <- <-. exact (G x eq_refl).
Qed.
(** And if the state is there, the balance and the code of every address are returned. *)
Theorem C97_state_complete : forall lookup h p block bh address a t storage_of,
  let hkey := match block with ByHash hash => BlockHeaderByHash hash | ByNumber (Number n) => BlockHeaderByNumber n | _ => BlockHeaderByNumber (number h) end in
  meant block h -> legacy_value_ok HC HL TC RC WC fk hkey (VHeader (h, p)) -> legacy_encode (VHeader (h, p)) = Ok bh -> lookup 0 hkey = Ok bh ->
  state_of h t storage_of -> has_state keccak decode_account net t storage_of -> all_accounts decode_account t -> no_empty_leaf t ->
  (forall ah a, account_is decode_account t ah (Some a) -> no_empty_leaf (storage_of ah)) ->
  account_is decode_account t (keccak address) a ->
  eth_get_balance HC HL TC RC WC keccak fk state_root_of lookup decode_node decode_account net true fuel address block = Some (Ok match a with Some a => balance a | None => 0 end) /\
  exists code, eth_get_code HC HL TC RC WC keccak fk state_root_of lookup decode_node decode_account raw_ok net true fuel address block = Some (Ok code) /\
    match a with Some a => keccak code = code_hash a | None => code = [] end.
Proof.
  intros lookup h p block bh address a t storage_of hkey M O1 E1 L1 (Rt & W & F1 & F2) H A0 E0 En A.
  destruct (C77_round_trip HC HL TC RC WC keccak sha fk PHC PHL PTC PRC PWC _ _ O1) as (b1 & Eb1 & _ & D1). rewrite E1 in Eb1. injection Eb1 as <-.
  assert (Ev : evm_block_state lookup true block = Ok h).
  { unfold EthApi_Model.evm_block_state. destruct block as [hash|[n| | | | |]]; cbn in M; try contradiction; unfold fetch_header_by_hash, fetch_header_by_number, fetch_history_content; cbn [as_number];
      subst hkey; cbv iota in L1, D1; rewrite L1; cbn [obind]; rewrite D1; reflexivity. }
  destruct (C96_rpc keccak decode_node decode_account raw_ok net t storage_of fuel K Rb Pa Pn Pr W Lf H A0 E0 En Sv F2 address a A) as [[s1 B] (s2 & code & Cd & X)].
  unfold eth_get_balance, eth_get_code, on_state. rewrite Ev, Rt, B, Cd. split; [reflexivity|]. exists code. split; [reflexivity|]. destruct a; [apply X|exact X].
Qed.
End States.
End Api.
Print Assumptions C97_answers.
Print Assumptions C97_block.
Print Assumptions C97_unsupported.
Print Assumptions C97_complete.
Print Assumptions C97_stripped_refuted.
Print Assumptions C97_state.
Print Assumptions C97_state_complete.

(** ** An example: a node that has nothing, and peers that have the block. *)
Definition toy_h : full_header :=
  {| number := 1; timestamp := 1; ommers_hash := toy_keccak (enc (listc toyHC) []); transactions_root := toy_root (map (enc Nc) [4; 7]); receipts_root := toy_root (map (enc Nc) [9]);
     withdrawals_root := None; other_fields := [] |}.
Definition toy_pre : forks := {| paris_block := 3; shanghai_time := 100; cancun_time := 200 |}.
Definition toy_block_hash : bytes := toy_keccak (enc toyHC toy_h).
Definition toy_body : @block_body N N := {| transactions := [4; 7]; ommers := []; withdrawals := None |}.
Definition toy_epoch : list record := [{| Header_Model.block_hash := repeat 1 32; total_difficulty := 5 |}; {| Header_Model.block_hash := toy_block_hash; total_difficulty := 9 |}].
Definition toy_c : chain := {| epochs := [toy_epoch]; batches := []; later_batches := [] |}.
Definition toy_p : list bytes := Eval vm_compute in match construct_proof toy_keccak false {| h_number := 1; h_timestamp := 1; h_hash := toy_block_hash |} toy_epoch with Ok p => p | _ => [] end.
Definition toy_v : validator := Eval vm_compute in fresh toy_keccak toy_c.
Definition toy_header_bytes : bytes := header_value toyHC toy_h [] (HistoricalHashes toy_p).
Definition toy_body_bytes : bytes := encode_body (listc toyHC) Nc Nc toy_body.
Definition toy_answer (k : legacy_key) : outcome bytes :=
  answer (tx := N) (rct := N) (wdl := N) toyHC (listc toyHC) Nc Nc Nc toy_keccak toy_root toy_keccak toy_pre {| n_validator := toy_v; n_store := [] |} None
    match k with BlockHeaderByHash _ | BlockHeaderByNumber _ => Some toy_header_bytes | BlockBody _ => Some toy_body_bytes | _ => None end
    (Some toy_header_bytes) k.
Definition toy_lookup (i : N) (k : legacy_key) : outcome bytes := toy_answer k.
Lemma toy_keccak32 x : hash32 (toy_keccak x).
Proof. split; [reflexivity|]. unfold toy_keccak. apply Forall_app. split; [apply Forall_forall; intros y I; apply repeat_spec in I as ->; reflexivity|]. constructor; [apply N.mod_lt; discriminate|constructor]. Qed.
Lemma toy_bytes_ok b : forallb (fun x => x <? 256) b = true -> bytes_ok b.
Proof. intros H. apply Forall_forall. intros x I. rewrite forallb_forall in H. apply N.ltb_lt, H, I. Qed.
Lemma toy_net n source net nh k b : stored (n_store n) k = None ->
  answer (tx := N) (rct := N) (wdl := N) toyHC (listc toyHC) Nc Nc Nc toy_keccak toy_root toy_keccak toy_pre n source net nh k = Ok b -> net = Some b.
Proof. intros E. unfold answer. rewrite E. destruct net as [x|]; [|discriminate]. destruct (snd _) as [[]| |]; try discriminate; intros [= ->]; reflexivity. Qed.
Example C97_example :
  chain_ok toy_c /\ answered (tx := N) (rct := N) (wdl := N) toyHC (listc toyHC) Nc Nc Nc toy_keccak toy_root toy_keccak toy_pre toy_c toy_lookup /\
  id_ok (ByHash toy_block_hash) /\ id_ok (ByNumber (Number 1)) /\
  let blk := mk_block toy_h toy_block_hash 77 [toy_keccak (enc Nc 4); toy_keccak (enc Nc 7)] [] None in
  get_block_by_hash toyHC (listc toyHC) Nc Nc Nc toy_keccak toy_pre (fun _ _ => 77) toy_lookup toy_block_hash false = Ok blk /\
  get_block_by_number toyHC (listc toyHC) Nc Nc Nc toy_keccak toy_pre (fun _ _ => 77) toy_lookup (Number 1) false = Ok blk /\
  get_block_by_number toyHC (listc toyHC) Nc Nc Nc toy_keccak toy_pre (fun _ _ => 77) toy_lookup (Number 2) false = Err.
Proof.
  split; [split; [|split; constructor]; constructor; [|constructor]; split; [vm_compute; discriminate|repeat constructor]|].
  split.
  { intros i k b E. assert (B : bytes_ok toy_header_bytes /\ bytes_ok toy_body_bytes) by (split; apply toy_bytes_ok; vm_compute; reflexivity).
    assert (L : blen toy_header_bytes < 2 ^ 32 /\ blen toy_body_bytes < 2 ^ 32) by (split; apply N.ltb_lt; vm_compute; reflexivity).
    split.
    - apply toy_net in E; [|reflexivity]. destruct k; try discriminate; injection E as <-; apply L.
    - exists {| n_validator := toy_v; n_store := [] |}, None, (match k with BlockHeaderByHash _ | BlockHeaderByNumber _ => Some toy_header_bytes | BlockBody _ => Some toy_body_bytes | _ => None end), (Some toy_header_bytes).
      split; [exists toy_v, []; split; [assert (toy_v = fresh toy_keccak toy_c) as -> by (vm_compute; reflexivity); constructor|split; [constructor|reflexivity]]|]. split; [intros ? [=]|]. split; [|split; [intros ? [= <-]; apply B|exact E]].
      clear E. intros x X. revert X. generalize toy_header_bytes toy_body_bytes B. intros u w [Bu Bw] X. destruct k; try discriminate; injection X as <-; assumption. }
  split; [apply toy_keccak32|]. split; [reflexivity|]. cbv zeta.
  split; [vm_compute; reflexivity|]. split; vm_compute; reflexivity.
Qed.
