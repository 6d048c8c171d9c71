(** Properties C52 and C77: content of the legacy history network. *)
From Verif Require Import Base Ssz_Model Ssz_Proofs Keys_Model Keys_Spec Keys_Proofs Keys_Props Merkle_Model Merkle_Spec Trie_Model StateContent_Model StateContent_Proofs
  Header_Model Header_Spec Header_Proofs Header_Props LegacyHistory_Model LegacyHistory_Spec LegacyHistory_Proofs.

Section Legacy.
Context {tx rct wdl : Type}.
Context (HC : codec full_header) (HL : codec (list full_header)) (TC : codec tx) (RC : codec rct) (WC : codec wdl).
Context (keccak : bytes -> bytes) (trie_root : list bytes -> bytes) (sha : bytes -> bytes) (fk : forks).
Notation validate := (validate_legacy HC HL TC RC WC keccak trie_root sha fk).
Notation find_header := (LegacyHistory_Model.find_header HC HL TC RC WC fk).
Notation hash_slow := (LegacyHistory_Model.hash_slow HC keccak).
Notation legacy_decode := (LegacyHistory_Model.legacy_decode HC HL TC RC WC fk).
Notation legacy_encode := (LegacyHistory_Model.legacy_encode HC HL TC RC WC).
Notation body_of := (LegacyHistory_Spec.body_of HL TC WC keccak trie_root).

(** ** C77: content values and their bytes. *)

Lemma small_lt l : small l -> blen (encode_var_list l) < 2 ^ 30.
Proof. intros S. rewrite encode_var_list_len. exact S. Qed.
Lemma var_list_ok l : Forall bytes_ok l -> bytes_ok (encode_var_list l).
Proof.
  intros F. unfold encode_var_list, encode_container. apply bytes_ok_app. split.
  - generalize (heads_len (map PVar l)). clear. induction l as [|x l IH]; intros n; cbn [map heads]; [constructor|]. apply bytes_ok_app. split; [apply le_bytes_ok|apply IH].
  - rewrite tails_var. induction F as [|x l H F IH]; cbn [concat]; [constructor|]. apply bytes_ok_app. auto.
Qed.
Lemma enc_list_ok {A} (c : codec A) l : (forall x, bytes_ok (enc c x)) -> bytes_ok (encode_var_list (map (enc c) l)).
Proof. intros H. apply var_list_ok. induction l; constructor; auto. Qed.

(** Every value that fits its key is read back from its bytes. *)
Theorem C77_round_trip : proper HC -> proper HL -> proper TC -> proper RC -> proper WC ->
  forall k v, legacy_value_ok HC HL TC RC WC fk k v -> exists b, legacy_encode v = Ok b /\ bytes_ok b /\ legacy_decode k b = Ok v.
Proof.
  intros (R1 & _ & B1) (R2 & _ & B2) (R3 & _ & B3) (R4 & _ & B4) (R5 & _ & B5) k v OK.
  assert (Hdr : forall h p, blen (enc HC h) <= 2048 /\ era fk h p /\ proof_ok p -> bytes_ok (encode_hwp HC (h, p)) /\ decode_hwp HC fk (encode_hwp HC (h, p)) = Ok (h, p)).
  { intros h p (L & E & P). unfold encode_hwp, encode_header. cbn [fst snd]. rewrite firstn_all2 by (unfold blen in L; lia). split.
    - rewrite enc_vv, !bytes_ok_app. split; [apply le_bytes_ok|]. split; [apply le_bytes_ok|]. split; [apply B1|apply proof_bytes_ok, P].
    - pose proof (hwp_ok fk HC h [] p R1) as H. rewrite header_value_eq, app_nil_r in H. auto. }
  destruct k as [hash|n|hash|hash|hash n|hash], v as [[h p]|b|l|l|h]; cbn [legacy_value_ok] in OK; try contradiction; cbn [LegacyHistory_Model.legacy_encode LegacyHistory_Model.legacy_decode].
  - destruct (Hdr h p OK) as [X Y]. eexists. split; [reflexivity|]. split; [exact X|]. rewrite Y. reflexivity.
  - destruct (Hdr h p OK) as [X Y]. eexists. split; [reflexivity|]. split; [exact X|]. rewrite Y. reflexivity.
  - destruct OK as (S1 & S2 & S3). apply small_lt in S1. eexists. split; [reflexivity|].
    assert (X : bytes_ok (encode_body HL TC WC b)).
    { unfold encode_body. destruct (withdrawals b); [rewrite enc_vvv|rewrite enc_vv]; rewrite !bytes_ok_app; auto 10 using le_bytes_ok, (enc_list_ok TC), (enc_list_ok WC). }
    split; [exact X|]. rewrite (body_ok HL TC WC b); [reflexivity|exact R2|exact R3|exact R5|exact X| |].
    + unfold encode_body. destruct (withdrawals b) as [ws|]; [|rewrite enc_vv, !blen_app, !blen4; lia]. destruct S3 as [S3 S4]. apply small_lt in S4. rewrite S3 in S2. rewrite enc_vvv, !blen_app, !blen4. lia.
    + exists (map (enc TC) (transactions b)), (enc HL (ommers b)). split; [apply items_exact|]. split; [exists []; symmetry; apply app_nil_r|]. unfold encode_body. destruct (withdrawals b) as [ws|]; [|reflexivity].
      destruct S3 as [S3 S4]. split; [exact S3|]. exists (map (enc WC) ws). split; [apply items_exact|]. rewrite S3. reflexivity.
  - destruct OK as (S1 & S2). apply small_lt in S1. eexists. split; [reflexivity|]. split; [apply enc_list_ok, B4|]. unfold encode_receipts.
    rewrite (receipts_ok RC l); [reflexivity|exact R4|lia|]. split; [exact S2|]. exists (map (enc RC) l). split; [apply items_exact|reflexivity].
  - destruct OK as (S1 & S2). destruct (ephemeral_ok HC l R1 S1 S2) as [X Y]. eexists. split; [exact X|]. split; [apply enc_list_ok, B1|]. rewrite Y. reflexivity.
  - eexists. split; [reflexivity|]. split.
    + unfold encode_offer_header, encode_header. rewrite enc_v, bytes_ok_app. split; [apply le_bytes_ok|]. apply bytes_ok_firstn, B1.
    + rewrite offer_ok by assumption. reflexivity.
Qed.

(** What is read from bytes is what they say: they are its encoding, except that bytes may follow each
    item encoded in RLP. *)
Theorem C77_only_own_bytes : proper HC -> proper HL -> proper TC -> proper RC -> proper WC ->
  forall k v b, bytes_ok b -> legacy_decode k b = Ok v ->
  match k, v with
  | BlockHeaderByHash _, VHeader (h, p) | BlockHeaderByNumber _, VHeader (h, p) =>
      era fk h p /\ proof_ok p /\ exists junk, b = header_value HC h junk p /\ blen (enc HC h ++ junk) <= 2048
  | BlockBody _, VBody body => body_value HL TC WC body b
  | BlockReceipts _, VReceipts l => receipts_value RC l b
  | EphemeralHeadersFindContent _ _, VEphemeral l => blen l <= 256 /\ exists items, items_of HC l items /\ Forall (fun x => blen x <= 2048) items /\ b = encode_var_list items
  | EphemeralHeaderOffer _, VOffer h => exists junk, b = encode_container [PVar (enc HC h ++ junk)] /\ blen (enc HC h ++ junk) <= 2048
  | _, _ => False
  end.
Proof.
  intros (_ & X1 & _) (_ & X2 & _) (_ & X3 & _) (_ & X4 & _) (_ & X5 & _) k v b Hb H.
  destruct k as [hash|n|hash|hash|hash n|hash]; cbn [LegacyHistory_Model.legacy_decode] in H; apply omap_ok in H as (x & D & <-).
  - destruct x as [h p]. apply hwp_inv in D as (junk & E & L & Er & P); [|exact X1|exact Hb]. eauto 10.
  - destruct x as [h p]. apply hwp_inv in D as (junk & E & L & Er & P); [|exact X1|exact Hb]. eauto 10.
  - apply body_inv; assumption.
  - apply receipts_inv; assumption.
  - unfold decode_ephemeral in D. apply obind_ok in D as (items & D & F). apply decode_var_list_canonical in D as [E L]; [|exact Hb]. apply all_ok_inv in F.
    assert (G : items_of HC x items /\ Forall (fun x => blen x <= 2048) items).
    { clear E L. induction F as [|b' h bs l T F [I1 I2]]; [split; constructor|]. unfold decode_header in T. apply obind_ok in T as (b2 & T1 & T2). apply bytelist_inv in T1 as [-> T1]. apply take_inv in T2; [|exact X1].
      split; constructor; assumption. }
    destruct G as [G1 G2]. split; [rewrite (F2_blen _ _ _ G1); exact L|]. exists items. auto.
  - unfold decode_offer_header in D. apply obind_ok in D as (y & C & D). apply container1_inv in C as [_ E]; [|exact Hb]. cbn [part_of] in E. unfold decode_header in D. apply obind_ok in D as (b2 & T1 & T2).
    apply bytelist_inv in T1 as [-> T1]. apply take_inv in T2 as [junk ->]; [|exact X1]. exists junk. auto.
Qed.
(** No bytes make the decoder panic. *)
Theorem C77_no_panic : forall k b, legacy_decode k b <> Panic.
Proof.
  intros k b. destruct k as [hash|n|hash|hash|hash n|hash]; cbn [LegacyHistory_Model.legacy_decode].
  - pose proof (hwp_no_panic fk HC b). destruct (decode_hwp HC fk b); cbn [omap]; congruence.
  - pose proof (hwp_no_panic fk HC b). destruct (decode_hwp HC fk b); cbn [omap]; congruence.
  - pose proof (body_no_panic HL TC WC b). destruct (decode_body HL TC WC b); cbn [omap]; congruence.
  - pose proof (receipts_no_panic RC b). destruct (decode_receipts RC b); cbn [omap]; congruence.
  - pose proof (ephemeral_no_panic HC b). destruct (decode_ephemeral HC b); cbn [omap]; congruence.
  - pose proof (offer_no_panic HC b). destruct (decode_offer_header HC b); cbn [omap]; congruence.
Qed.
(** Values that do not fit are written all the same, but not read back: a header of more than
    2048 bytes, or with the proof of another era, *)
Theorem C77_unfit_header_refuted : proper HC -> forall k h p, 2048 < blen (enc HC h) \/ ~ era fk h p -> bytes_ok (encode_proof p) ->
  exists b, legacy_encode (VHeader (h, p)) = Ok b /\ legacy_decode (BlockHeaderByHash k) b <> Ok (VHeader (h, p)).
Proof.
  intros (_ & X & B) k h p Bad Bp. eexists. split; [reflexivity|]. intros H. cbn [LegacyHistory_Model.legacy_decode] in H. apply omap_ok in H as (x & D & E). injection E as ->.
  assert (Bb : bytes_ok (encode_hwp HC (h, p))). { unfold encode_hwp, encode_header. cbn [fst snd]. rewrite enc_vv, !bytes_ok_app. split; [apply le_bytes_ok|]. split; [apply le_bytes_ok|]. split; [apply bytes_ok_firstn, B|exact Bp]. }
  apply hwp_inv in D as (junk & E & L & Er & _); [|exact X|exact Bb]. destruct Bad as [Bad|Bad]; [|exact (Bad Er)].
  rewrite blen_app in L. lia.
Qed.
(** more than 16384 receipts, *)
Theorem C77_many_receipts_refuted : proper RC -> forall k l, 16384 < blen l ->
  exists b, legacy_encode (VReceipts l) = Ok b /\ legacy_decode (BlockReceipts k) b <> Ok (VReceipts l).
Proof.
  intros (_ & X & B) k l Bad. eexists. split; [reflexivity|]. intros H. cbn [LegacyHistory_Model.legacy_decode] in H. apply omap_ok in H as (x & D & E). injection E as ->.
  apply receipts_inv in D as (L & _); [lia|exact X|apply enc_list_ok, B].
Qed.
(** and a body with both withdrawals and uncles, which comes back without the uncles. *)
Theorem C77_uncles_refuted : proper HL -> proper TC -> proper WC -> forall k b ws, withdrawals b = Some ws ->
  small (map (enc TC) (transactions b)) -> small (map (enc WC) ws) -> blen (enc HL []) < 2 ^ 30 ->
  exists v, legacy_encode (VBody b) = Ok v /\
    legacy_decode (BlockBody k) v = Ok (VBody {| transactions := transactions b; ommers := []; withdrawals := Some ws |}).
Proof.
  intros (R1 & _ & B1) (R2 & _ & B2) (R3 & _ & B3) k b ws W S1 S2 S3. eexists. split; [reflexivity|]. cbn [LegacyHistory_Model.legacy_decode]. apply small_lt in S1, S2. unfold encode_body. rewrite W.
  rewrite (body_ok HL TC WC {| transactions := transactions b; ommers := []; withdrawals := Some ws |}); [reflexivity|assumption|assumption|assumption| | |].
  - rewrite enc_vvv, !bytes_ok_app. auto 10 using le_bytes_ok, (enc_list_ok TC), (enc_list_ok WC).
  - rewrite enc_vvv, !blen_app, !blen4. lia.
  - exists (map (enc TC) (transactions b)), (enc HL []). cbn [transactions ommers withdrawals]. split; [apply items_exact|]. split; [exists []; symmetry; apply app_nil_r|]. split; [reflexivity|].
    exists (map (enc WC) ws). split; [apply items_exact|reflexivity].
Qed.

(** ** C52: validation. *)
Context (Hsha : forall x, len32 (sha x)) (Hkec : forall x, len32 (keccak x)).
Context (PHC : proper HC) (PHL : proper HL) (PTC : proper TC) (PRC : proper RC) (PWC : proper WC).

Definition header_in (c : chain) (h : full_header) (p : header_proof) : Prop :=
  era fk h p /\ proof_ok p /\ backed sha fk c (number h) (timestamp h) (hash_slow h) p.

Lemma proof_backed c v source h p v' : chain_ok c -> reach sha fk c v -> honest sha c source -> proof_ok p ->
  validate_header_with_proof sha fk v source (view HC keccak h) p = (v', Ok tt) -> backed sha fk c (number h) (timestamp h) (hash_slow h) p.
Proof.
  intros C R S P V. destruct P as [T P]. pose proof (C22_only_canonical sha Hsha fk c v source (view HC keccak h) p v' C R S T (Hkec _) V) as G.
  cbn [view h_number h_timestamp h_hash] in G. destruct p as [p|p|p|p]; [apply G, hash32_len32, P|..]; destruct P as (P1 & [P2 _] & P3 & _); (apply G; [apply hash32_len32, P1|apply hash32_len32, P3|exact P2]).
Qed.
Lemma check_proof_inv v source x v' : check_proof HC keccak sha fk v source x = (v', Ok CanonicallyValid) ->
  validate_header_with_proof sha fk v source (view HC keccak (fst x)) (snd x) = (v', Ok tt).
Proof. unfold check_proof. destruct (validate_header_with_proof _ _ _ _ _ _) as [v2 [[]| |]]; intros H; injection H as ->; [reflexivity|discriminate..]. Qed.

(** A header is accepted under a block hash only if that is its hash and the chain contains it,
    and the value is the header's encoding (up to bytes after the RLP of the header) with the proof. *)
Theorem C52_header_by_hash : forall c v source get hash b v', chain_ok c -> reach sha fk c v -> honest sha c source -> bytes_ok b ->
  validate v source get (BlockHeaderByHash hash) b = (v', Ok CanonicallyValid) ->
  exists h p junk, b = header_value HC h junk p /\ blen (enc HC h ++ junk) <= 2048 /\ keccak (enc HC h) = hash /\ header_in c h p.
Proof.
  intros c v source get hash b v' C R S Hb V. cbn [validate_legacy] in V. destruct (decode_hwp HC fk b) as [[h p]| |] eqn:D; try discriminate. cbn [fst] in V.
  destruct (beqb (hash_slow h) hash) eqn:E; [|discriminate]. cbn [negb] in V. apply beqb_spec in E. apply check_proof_inv in V. cbn [fst snd] in V.
  apply hwp_inv in D as (junk & Eb & L & Er & P); [|apply PHC|exact Hb]. exists h, p, junk. split; [exact Eb|]. split; [exact L|]. split; [exact E|]. split; [exact Er|]. split; [exact P|]. exact (proof_backed c v source h p v' C R S P V).
Qed.
(** The same under a block number. *)
Theorem C52_header_by_number : forall c v source get n b v', chain_ok c -> reach sha fk c v -> honest sha c source -> bytes_ok b ->
  validate v source get (BlockHeaderByNumber n) b = (v', Ok CanonicallyValid) ->
  exists h p junk, b = header_value HC h junk p /\ blen (enc HC h ++ junk) <= 2048 /\ number h = n /\ header_in c h p.
Proof.
  intros c v source get n b v' C R S Hb V. cbn [validate_legacy] in V. destruct (decode_hwp HC fk b) as [[h p]| |] eqn:D; try discriminate. cbn [fst] in V.
  destruct (N.eqb_spec (number h) n) as [E|E]; [|discriminate]. cbn [negb] in V. apply check_proof_inv in V. cbn [fst snd] in V.
  apply hwp_inv in D as (junk & Eb & L & Er & P); [|apply PHC|exact Hb]. exists h, p, junk. split; [exact Eb|]. split; [exact L|]. split; [exact E|]. split; [exact Er|]. split; [exact P|]. exact (proof_backed c v source h p v' C R S P V).
Qed.
(** Two headers accepted under one hash are the same, unless their encodings have one hash. *)
Theorem C52_header_unique : forall v1 v2 s1 s2 g1 g2 hash b1 b2 v1' v2' h1 p1 j1 h2 p2 j2,
  validate v1 s1 g1 (BlockHeaderByHash hash) b1 = (v1', Ok CanonicallyValid) -> validate v2 s2 g2 (BlockHeaderByHash hash) b2 = (v2', Ok CanonicallyValid) ->
  b1 = header_value HC h1 j1 p1 -> b2 = header_value HC h2 j2 p2 ->
  blen (enc HC h1 ++ j1) <= 2048 -> blen (enc HC h2 ++ j2) <= 2048 -> era fk h1 p1 -> proof_ok p1 -> era fk h2 p2 -> proof_ok p2 ->
  h1 = h2 \/ hash_clash keccak (enc HC h1) (enc HC h2).
Proof.
  intros v1 v2 s1 s2 g1 g2 hash b1 b2 v1' v2' h1 p1 j1 h2 p2 j2 V1 V2 -> -> L1 L2 E1 P1 E2 P2. destruct PHC as (Rd & Ex & _).
  cbn [validate_legacy] in V1, V2. rewrite (hwp_ok fk HC h1 j1 p1 Rd L1 E1 P1) in V1. rewrite (hwp_ok fk HC h2 j2 p2 Rd L2 E2 P2) in V2. cbn [fst] in V1, V2.
  destruct (beqb (hash_slow h1) hash) eqn:H1; [|discriminate]. destruct (beqb (hash_slow h2) hash) eqn:H2; [|discriminate]. apply beqb_spec in H1, H2.
  destruct (bytes_eq_dec (enc HC h1) (enc HC h2)) as [E|E].
  - left. pose proof (Rd h1 []) as A. pose proof (Rd h2 []) as B. rewrite E in A. congruence.
  - right. split; [exact E|]. unfold LegacyHistory_Model.hash_slow in H1, H2. congruence.
Qed.

(** A body is accepted only if the oracle has a header for the hash, and it has the uncles and
    transactions that the header commits to, and, if it has any withdrawals, the header's. *)
Theorem C52_body : forall v source get hash b v', bytes_ok b ->
  validate v source get (BlockBody hash) b = (v', Ok CanonicallyValid) ->
  v' = v /\ exists h body, find_header get hash = Ok h /\ body_value HL TC WC body b /\
    same_uncles HL keccak body h /\ same_transactions TC trie_root body h /\
    (withdrawals body = None \/ same_withdrawals WC trie_root body h).
Proof.
  intros v source get hash b v' Hb V. cbn [validate_legacy] in V. destruct (decode_body HL TC WC b) as [body| |] eqn:D; try discriminate.
  destruct (find_header get hash) as [h| |] eqn:F; try discriminate. injection V as <- V. split; [reflexivity|]. exists h, body. split; [reflexivity|].
  split; [apply body_inv; [apply PHL|apply PTC|apply PWC|exact Hb|exact D]|].
  destruct (validate_against_header HL TC WC keccak trie_root body h) eqn:A; [|discriminate]. unfold validate_against_header in A.
  destruct (beqb (keccak _) _) eqn:A1; [|discriminate]. destruct (beqb (trie_root (map (enc TC) _)) _) eqn:A2; [|discriminate]. cbn [negb] in A. apply beqb_spec in A1, A2.
  split; [symmetry; exact A1|]. split; [symmetry; exact A2|]. destruct (withdrawals body) as [ws|] eqn:W; [|left; reflexivity]. right. unfold same_withdrawals. rewrite W.
  destruct (withdrawals_root h) as [e|]; [|discriminate]. apply beqb_spec in A. cbn [option_map]. congruence.
Qed.
(** So if [r] is the body of the block, an accepted body has the same transactions and uncles and the
    same withdrawals or none, or two different lists or encodings have one root. *)
Theorem C52_body_same : forall v source get hash b v' h r, bytes_ok b ->
  validate v source get (BlockBody hash) b = (v', Ok CanonicallyValid) -> find_header get hash = Ok h -> body_of r h ->
  exists body, body_value HL TC WC body b /\
    (map (enc TC) (transactions body) = map (enc TC) (transactions r) \/ root_clash trie_root (map (enc TC) (transactions body)) (map (enc TC) (transactions r))) /\
    (ommers body = ommers r \/ hash_clash keccak (enc HL (ommers body)) (enc HL (ommers r))) /\
    (withdrawals body = None \/ exists ws wr, withdrawals body = Some ws /\ withdrawals r = Some wr /\
       (map (enc WC) ws = map (enc WC) wr \/ root_clash trie_root (map (enc WC) ws) (map (enc WC) wr))).
Proof.
  intros v source get hash b v' h r Hb V F (B1 & B2 & B3). apply C52_body in V as (-> & h' & body & F' & Bv & U & T & W); [|exact Hb]. rewrite F in F'. injection F' as <-.
  assert (D : forall x y : list bytes, {x = y} + {x <> y}) by (apply list_eq_dec, bytes_eq_dec).
  exists body. split; [exact Bv|]. unfold same_uncles in *. unfold same_transactions in *. unfold same_withdrawals in *. split; [|split].
  - destruct (D (map (enc TC) (transactions body)) (map (enc TC) (transactions r))) as [E|E]; [left; exact E|right; split; [exact E|congruence]].
  - destruct (bytes_eq_dec (enc HL (ommers body)) (enc HL (ommers r))) as [E|E]; [left|right; split; [exact E|congruence]].
    destruct PHL as (Rd & _). pose proof (Rd (ommers body) []) as A. pose proof (Rd (ommers r) []) as B. rewrite E in A. congruence.
  - destruct W as [W|W]; [left; exact W|]. destruct (withdrawals body) as [ws|]; [right|left; reflexivity]. rewrite W in B3. cbn [option_map] in B3. destruct (withdrawals r) as [wr|]; [|discriminate].
    cbn [option_map] in B3. exists ws, wr. split; [reflexivity|]. split; [reflexivity|].
    destruct (D (map (enc WC) ws) (map (enc WC) wr)) as [E|E]; [left; exact E|right; split; [exact E|congruence]].
Qed.
(** But a body from which the withdrawals were taken away is accepted like the real one. *)
Theorem C52_stripped_refuted : forall v source get hash h r, find_header get hash = Ok h -> body_of r h -> ommers r = [] ->
  small (map (enc TC) (transactions r)) -> blen (enc HL []) < 2 ^ 30 ->
  let stripped := {| transactions := transactions r; ommers := []; withdrawals := None |} in
  validate v source get (BlockBody hash) (encode_body HL TC WC stripped) = (v, Ok CanonicallyValid).
Proof.
  intros v source get hash h r F (B1 & B2 & _) O S1 S2 stripped. cbn [validate_legacy]. apply small_lt in S1. destruct PHL as (R1 & _ & K1). destruct PTC as (R2 & _ & K2). destruct PWC as (R3 & _ & K3).
  assert (D : decode_body HL TC WC (encode_body HL TC WC stripped) = Ok stripped).
  { apply body_ok; [exact R1|exact R2|exact R3| | |].
    - unfold encode_body, stripped. cbn [withdrawals transactions ommers]. rewrite enc_vv, !bytes_ok_app. auto 10 using le_bytes_ok, (enc_list_ok TC).
    - unfold encode_body, stripped. cbn [withdrawals transactions ommers]. rewrite enc_vv, !blen_app, !blen4. lia.
    - exists (map (enc TC) (transactions r)), (enc HL []). unfold stripped. cbn [withdrawals transactions ommers]. split; [apply items_exact|]. split; [exists []; symmetry; apply app_nil_r|reflexivity]. }
  rewrite D, F. unfold validate_against_header, stripped. cbn [withdrawals transactions ommers]. unfold same_uncles in B1. unfold same_transactions in B2. rewrite O in B1. rewrite B1, B2, !beqb_refl. reflexivity.
Qed.

(** Receipts are accepted only if their root is the one in the header. *)
Theorem C52_receipts : forall v source get hash b v', bytes_ok b ->
  validate v source get (BlockReceipts hash) b = (v', Ok CanonicallyValid) ->
  v' = v /\ exists h l, find_header get hash = Ok h /\ receipts_value RC l b /\ receipts_root h = trie_root (map (enc RC) l).
Proof.
  intros v source get hash b v' Hb V. cbn [validate_legacy] in V. destruct (decode_receipts RC b) as [l| |] eqn:D; try discriminate.
  destruct (find_header get hash) as [h| |] eqn:F; try discriminate. injection V as <- V. split; [reflexivity|]. exists h, l. split; [reflexivity|].
  split; [apply receipts_inv; [apply PRC|exact Hb|exact D]|]. destruct (beqb _ _) eqn:A; [|discriminate]. apply beqb_spec in A. symmetry. exact A.
Qed.
(** Ephemeral headers are never accepted, and nothing is accepted halfway. *)
Theorem C52_ephemeral : forall v source get hash n b,
  validate v source get (EphemeralHeadersFindContent hash n) b = (v, Ok Invalid) /\ validate v source get (EphemeralHeaderOffer hash) b = (v, Ok Invalid).
Proof. auto. Qed.
Theorem C52_all_or_nothing : forall v source get k b v', validate v source get k b <> (v', Ok Valid).
Proof.
  intros v source get k b v' V. destruct k as [hash|n|hash|hash|hash n|hash]; cbn [validate_legacy] in V; try discriminate.
  - destruct (decode_hwp HC fk b) as [x| |]; try discriminate. destruct (negb _); [discriminate|]. unfold check_proof in V. destruct (validate_header_with_proof _ _ _ _ _ _) as [v2 [[]| |]]; discriminate.
  - destruct (decode_hwp HC fk b) as [x| |]; try discriminate. destruct (negb _); [discriminate|]. unfold check_proof in V. destruct (validate_header_with_proof _ _ _ _ _ _) as [v2 [[]| |]]; discriminate.
  - destruct (decode_body HL TC WC b) as [x| |]; try discriminate. destruct (find_header get hash) as [h| |]; try discriminate. destruct (validate_against_header _ _ _ _ _ _ _); discriminate.
  - destruct (decode_receipts RC b) as [x| |]; try discriminate. destruct (find_header get hash) as [h| |]; try discriminate. destruct (beqb _ _); discriminate.
Qed.

(** Honest content is accepted: a header whose proof the header validator accepts (see C23 and C64), *)
Theorem C52_honest_header : forall v source get h p v', blen (enc HC h) <= 2048 -> era fk h p -> proof_ok p ->
  validate_header_with_proof sha fk v source {| h_number := number h; h_timestamp := timestamp h; h_hash := keccak (enc HC h) |} p = (v', Ok tt) ->
  validate v source get (BlockHeaderByHash (keccak (enc HC h))) (header_value HC h [] p) = (v', Ok CanonicallyValid) /\
  validate v source get (BlockHeaderByNumber (number h)) (header_value HC h [] p) = (v', Ok CanonicallyValid).
Proof.
  intros v source get h p v' L E P V. cbn [validate_legacy]. rewrite hwp_ok; [|apply PHC|rewrite app_nil_r; exact L|exact E|exact P]. cbn [fst]. unfold LegacyHistory_Model.hash_slow at 1. rewrite beqb_refl, N.eqb_refl. cbn [negb].
  unfold check_proof, view, LegacyHistory_Model.hash_slow. cbn [fst snd]. rewrite V. auto.
Qed.
(** and the body and the receipts of a block whose header is found. *)
Theorem C52_honest_body : forall v source get hash h r b, find_header get hash = Ok h -> body_of r h ->
  legacy_value_ok HC HL TC RC WC fk (BlockBody hash) (VBody r) -> legacy_encode (VBody r) = Ok b ->
  validate v source get (BlockBody hash) b = (v, Ok CanonicallyValid).
Proof.
  intros v source get hash h r b F (B1 & B2 & B3) OK E. destruct (C77_round_trip PHC PHL PTC PRC PWC _ _ OK) as (b' & E' & Hb & D). rewrite E in E'. injection E' as <-.
  cbn [LegacyHistory_Model.legacy_decode] in D. apply omap_ok in D as (x & D & X). injection X as ->. cbn [validate_legacy]. rewrite D, F. unfold validate_against_header.
  unfold same_uncles in B1. unfold same_transactions in B2. unfold same_withdrawals in B3. rewrite B1, B2, B3, !beqb_refl. cbn [negb]. destruct (withdrawals r); cbn [option_map]; rewrite ?beqb_refl; reflexivity.
Qed.
Theorem C52_honest_receipts : forall v source get hash h l b, find_header get hash = Ok h -> receipts_root h = trie_root (map (enc RC) l) ->
  legacy_value_ok HC HL TC RC WC fk (BlockReceipts hash) (VReceipts l) -> legacy_encode (VReceipts l) = Ok b ->
  validate v source get (BlockReceipts hash) b = (v, Ok CanonicallyValid).
Proof.
  intros v source get hash h l b F R OK E. destruct (C77_round_trip PHC PHL PTC PRC PWC _ _ OK) as (b' & E' & Hb & D). rewrite E in E'. injection E' as <-.
  cbn [LegacyHistory_Model.legacy_decode] in D. apply omap_ok in D as (x & D & X). injection X as ->. cbn [validate_legacy]. rewrite D, F. unfold receipts_trie_root. rewrite R, beqb_refl. reflexivity.
Qed.

(** Bytes after the RLP of a header, of the uncles or of a receipt do not change the verdict: the
    value that is stored and passed on need not be the canonical one. *)
Theorem C52_junk_refuted : forall v source get,
  (forall k h p junk, (exists hash, k = BlockHeaderByHash hash) \/ (exists n, k = BlockHeaderByNumber n) -> era fk h p -> proof_ok p -> blen (enc HC h ++ junk) <= 2048 ->
     validate v source get k (header_value HC h junk p) = validate v source get k (header_value HC h [] p)) /\
  (forall hash body junk b, withdrawals body = None -> legacy_value_ok HC HL TC RC WC fk (BlockBody hash) (VBody body) -> legacy_encode (VBody body) = Ok b ->
     bytes_ok junk -> blen (b ++ junk) < 2 ^ 32 -> validate v source get (BlockBody hash) (b ++ junk) = validate v source get (BlockBody hash) b) /\
  (forall hash l junk b, l <> [] -> legacy_value_ok HC HL TC RC WC fk (BlockReceipts hash) (VReceipts l) -> legacy_encode (VReceipts l) = Ok b ->
     bytes_ok junk -> blen (b ++ junk) < 2 ^ 32 -> validate v source get (BlockReceipts hash) (b ++ junk) = validate v source get (BlockReceipts hash) b).
Proof.
  intros v source get. split; [|split].
  - intros k h p junk K E P L. assert (L0 : blen (enc HC h ++ []) <= 2048) by (rewrite app_nil_r; rewrite blen_app in L; lia).
    destruct K as [[hash ->]|[n ->]]; cbn [validate_legacy]; rewrite !hwp_ok by (apply PHC || assumption); reflexivity.
  - intros hash body junk b W OK E Hj L. destruct (C77_round_trip PHC PHL PTC PRC PWC _ _ OK) as (b' & E' & Hb & D). rewrite E in E'. injection E' as <-.
    cbn [LegacyHistory_Model.legacy_decode] in D. apply omap_ok in D as (x & D & X). injection X as ->. cbn [validate_legacy]. rewrite D.
    rewrite (body_ok HL TC WC body); [reflexivity|apply PHL|apply PTC|apply PWC|apply bytes_ok_app; auto|exact L|].
    exists (map (enc TC) (transactions body)), (enc HL (ommers body) ++ junk). split; [apply items_exact|]. split; [exists junk; reflexivity|]. rewrite W.
    cbn [LegacyHistory_Model.legacy_encode] in E. injection E as <-. unfold encode_body. rewrite W, !enc_vv, <- !app_assoc. reflexivity.
  - intros hash l junk b NE OK E Hj L. destruct (C77_round_trip PHC PHL PTC PRC PWC _ _ OK) as (b' & E' & Hb & D). rewrite E in E'. injection E' as <-.
    cbn [LegacyHistory_Model.legacy_decode] in D. apply omap_ok in D as (x & D & X). injection X as ->. cbn [validate_legacy]. rewrite D.
    rewrite (receipts_ok RC l); [reflexivity|apply PRC|exact L|]. cbn [LegacyHistory_Model.legacy_encode] in E. injection E as <-. destruct OK as [_ N]. split; [exact N|].
    destruct (exists_last NE) as (l' & x & ->). exists (map (enc RC) l' ++ [enc RC x ++ junk]). split.
    + apply Forall2_app; [apply items_exact|]. constructor; [exists junk; reflexivity|constructor].
    + unfold encode_receipts, encode_var_list, encode_container. rewrite !map_app. cbn [map].
      assert (HL1 : forall y ps, heads_len (ps ++ [PVar y]) = heads_len ps + 4) by (intros y; induction ps as [|q ps IH]; cbn [app heads_len part_head_len]; [lia|rewrite IH; lia]).
      assert (HH : forall y z ps n, heads n (ps ++ [PVar y]) = heads n (ps ++ [PVar z])) by (intros y z; induction ps as [|[q|q] ps IH]; intros n; cbn [app heads]; [reflexivity|rewrite IH; reflexivity..]).
      assert (HT : forall y ps, tails (ps ++ [PVar y]) = tails ps ++ y) by (intros y; induction ps as [|[q|q] ps IH]; cbn [app tails]; [apply app_nil_r|exact IH|rewrite IH, app_assoc; reflexivity]).
      rewrite !HL1, !HT, (HH (enc RC x ++ junk) (enc RC x)), <- !app_assoc. reflexivity.
Qed.

(** Validation panics only where C22 says, and there anyone can make it panic, for the hash of any
    header with a number and a time of that era. *)
Theorem C52_no_panic : forall c v source get k b, reach sha fk c v -> (paris_block fk - 1) / 8192 < blen (epochs c) -> bytes_ok b ->
  snd (validate v source get k b) = Panic -> exists h q junk, b = header_value HC h junk (HistoricalRoots q) /\ blen (batches c) <= slot q / 8192.
Proof.
  intros c v source get k b R He Hb V.
  assert (Hdr : forall x, decode_hwp HC fk b = Ok x -> snd (check_proof HC keccak sha fk v source x) = Panic -> exists h q junk, b = header_value HC h junk (HistoricalRoots q) /\ blen (batches c) <= slot q / 8192).
  { intros [h p] D P. unfold check_proof in P. cbn [fst snd] in P. pose proof (C22_no_panic sha fk c v source (view HC keccak h) p R He) as NP.
    destruct (validate_header_with_proof sha fk v source (view HC keccak h) p) as [v2 r]. cbn [snd] in P, NP. apply hwp_inv in D as (junk & Eb & _); [|apply PHC|exact Hb].
    assert (r = Panic) as -> by (destruct r; [discriminate..|reflexivity]). destruct p as [p|q|p|p]; try (exfalso; apply NP; [exact Logic.I|reflexivity]).
    exists h, q, junk. split; [exact Eb|]. destruct (N.le_gt_cases (blen (batches c)) (slot q / 8192)) as [H|H]; [exact H|]. exfalso. apply NP; [exact H|reflexivity]. }
  assert (FH : forall hash, find_header get hash <> Panic).
  { intros hash. unfold LegacyHistory_Model.find_header. destruct (get _) as [content|]; [|discriminate]. pose proof (C77_no_panic (BlockHeaderByHash hash) content) as P.
    destruct (legacy_decode _ content) as [[]| |]; cbn [obind]; congruence. }
  destruct k as [hash|n|hash|hash|hash n|hash]; cbn [validate_legacy] in V; try discriminate.
  - pose proof (hwp_no_panic fk HC b) as NP. destruct (decode_hwp HC fk b) as [x| |]; [|discriminate|congruence]. destruct (negb _); [discriminate|]. exact (Hdr x eq_refl V).
  - pose proof (hwp_no_panic fk HC b) as NP. destruct (decode_hwp HC fk b) as [x| |]; [|discriminate|congruence]. destruct (negb _); [discriminate|]. exact (Hdr x eq_refl V).
  - pose proof (body_no_panic HL TC WC b) as NP. cbn [snd] in V. destruct (decode_body HL TC WC b) as [x| |]; [|discriminate|congruence]. specialize (FH hash). destruct (find_header get hash); [discriminate|discriminate|congruence].
  - pose proof (receipts_no_panic RC b) as NP. cbn [snd] in V. destruct (decode_receipts RC b) as [x| |]; [|discriminate|congruence]. specialize (FH hash). destruct (find_header get hash); [discriminate|discriminate|congruence].
Qed.
Theorem C52_panic_refuted : forall c v source get h, reach sha fk c v -> paris_block fk <= number h -> timestamp h < shanghai_time fk -> timestamp h < cancun_time fk ->
  blen (enc HC h) <= 2048 -> blen (batches c) < 2 ^ 50 -> (forall x, bytes_ok (sha x)) ->
  exists b, snd (validate v source get (BlockHeaderByHash (hash_slow h)) b) = Panic.
Proof.
  intros c v source get h R H1 H2 H3 L Lb Bsha. destruct (reach_parts sha fk c v R) as (_ & P2 & _).
  set (e := repeat (repeat 0 32) 11). set (q := {| beacon_block_proof := repeat (repeat 0 32) 14; beacon_block_root := root_from_branch sha (hash_slow h) e 3228 0; execution_block_proof := e; slot := 8192 * blen (batches c) |}).
  exists (header_value HC h [] (HistoricalRoots q)). cbn [validate_legacy].
  assert (Z : hash32 (repeat 0 32)) by (split; [reflexivity|unfold bytes_ok; repeat (apply Forall_cons || apply Forall_nil); reflexivity]).
  assert (P : proof_ok (HistoricalRoots q)).
  { split; [split; reflexivity|]. cbn [q block_proof_ok]. unfold block_proof_ok. unfold q. cbn [beacon_block_proof beacon_block_root execution_block_proof slot]. split; [apply Forall_forall; intros x I; apply repeat_spec in I as ->; exact Z|].
    split; [|split; [apply Forall_forall; intros x I; apply repeat_spec in I as ->; exact Z|clear - Lb; change (2 ^ 50) with 1125899906842624 in Lb; change (2 ^ 64) with 18446744073709551616; lia]].
    unfold e. cbn [repeat root_from_branch]. repeat match goal with |- context [N.testbit ?a ?b] => change (N.testbit a b) with ltac:(let r := eval vm_compute in (N.testbit a b) in exact r) end.
    split; [apply Hsha|apply Bsha]. }
  rewrite hwp_ok; [|apply PHC|rewrite app_nil_r; exact L|cbn; auto|exact P]. cbn [fst snd]. rewrite beqb_refl. cbn [negb]. unfold check_proof. cbn [fst snd validate_header_with_proof].
  unfold verify_merge_to_capella_header, paris_active, shanghai_active. cbn [view h_number h_timestamp h_hash]. apply N.leb_le in H1. apply N.leb_gt in H2. rewrite H1, H2. cbn [negb].
  unfold verify_bellatrix_execution_proof, verify_merkle_proof. cbn [q beacon_block_proof beacon_block_root execution_block_proof slot]. rewrite Nat.eqb_refl, beqb_refl. cbn [andb negb].
  unfold verify_historical_roots_proof. change slots_per_historical_root with 8192. cbv zeta. rewrite N.mul_comm, N.div_mul by discriminate. destruct (nth_error _ _) eqn:E; [|reflexivity].
  assert (N.to_nat (blen (batches c)) < length (historical_roots v))%nat by (apply nth_error_Some; congruence). rewrite P2, map_length in H. unfold blen in H. lia.
Qed.

(** ** What a node stores. *)
Notation node_run := (LegacyHistory_Model.node_run HC HL TC RC WC keccak trie_root sha fk).
Notation node_step := (LegacyHistory_Model.node_step HC HL TC RC WC keccak trie_root sha fk).
Notation get_content := (LegacyHistory_Model.get_content HC HL TC RC WC keccak trie_root sha fk).
(** What holds of the value under a key. *)
Definition held (c : chain) (k : legacy_key) (b : bytes) : Prop :=
  match k with
  | BlockHeaderByHash hash => exists h p junk, b = header_value HC h junk p /\ blen (enc HC h ++ junk) <= 2048 /\ keccak (enc HC h) = hash /\ header_in c h p
  | BlockHeaderByNumber n => exists h p junk, b = header_value HC h junk p /\ blen (enc HC h ++ junk) <= 2048 /\ number h = n /\ header_in c h p
  | BlockBody hash => exists h p body, keccak (enc HC h) = hash /\ header_in c h p /\ body_value HL TC WC body b /\
      same_uncles HL keccak body h /\ same_transactions TC trie_root body h /\ (withdrawals body = None \/ same_withdrawals WC trie_root body h)
  | BlockReceipts hash => exists h p l, keccak (enc HC h) = hash /\ header_in c h p /\ receipts_value RC l b /\ receipts_root h = trie_root (map (enc RC) l)
  | _ => False
  end.
(** Content comes from the network, with honest summaries; nothing is stored by hand. *)
Definition from_network (c : chain) (o : @op tx rct wdl) : Prop :=
  match o with
  | Received k b source net => legacy_valid k /\ bytes_ok b /\ honest sha c source /\ forall x, net = Some x -> bytes_ok x
  | RpcStore _ _ => False
  | Dropped _ => True
  end.
Definition good_store (c : chain) (s : list (bytes * bytes)) : Prop :=
  Forall (fun x => exists k, legacy_valid k /\ fst x = legacy_to_bytes k /\ bytes_ok (snd x) /\ held c k (snd x)) s.

Lemma stored_held c s k b : good_store c s -> legacy_valid k -> stored s k = Some b -> held c k b /\ bytes_ok b.
Proof.
  intros G K St. unfold stored in St. destruct (find _ s) as [x|] eqn:F; [|discriminate]. injection St as <-. apply find_some in F as [I E]. apply beqb_spec in E. unfold good_store in G. rewrite Forall_forall in G. destruct (G x I) as (k' & V' & E' & B & H).
  assert (k = k') as -> by (apply (distinct_bytes _ _ _ C26_legacy_history); [exact K|exact V'|congruence]). auto.
Qed.
Lemma validate_reach c v source get k b : reach sha fk c v -> honest sha c source -> reach sha fk c (fst (validate v source get k b)).
Proof.
  intros R S. assert (G : forall x, reach sha fk c (fst (check_proof HC keccak sha fk v source x))).
  { intros x. unfold check_proof. pose proof (R_validate sha fk c v source (view HC keccak (fst x)) (snd x) R S) as H. destruct (validate_header_with_proof _ _ _ _ _ _). exact H. }
  destruct k; cbn [validate_legacy fst]; try exact R; (destruct (decode_hwp HC fk b) as [x| |]; [|exact R..]; destruct (negb _); [exact R|apply G]).
Qed.
Lemma found_header c n source net hash h : chain_ok c -> reach sha fk c (n_validator n) -> good_store c (n_store n) -> honest sha c source -> (forall x, net = Some x -> bytes_ok x) -> hash32 hash ->
  find_header (get_content n source net) hash = Ok h -> exists p, keccak (enc HC h) = hash /\ header_in c h p.
Proof.
  intros C R G S Hn Hh F. unfold LegacyHistory_Model.find_header in F. destruct (get_content n source net (BlockHeaderByHash hash)) as [content|] eqn:E; [|discriminate].
  assert (H : held c (BlockHeaderByHash hash) content /\ bytes_ok content).
  { unfold LegacyHistory_Model.get_content in E. destruct (stored (n_store n) (BlockHeaderByHash hash)) as [b|] eqn:St.
    - injection E as ->. apply (stored_held c (n_store n)); assumption.
    - destruct net as [b|]; [|discriminate]. destruct (validate (n_validator n) source (fun _ => None) (BlockHeaderByHash hash) b) as [v' r] eqn:V. cbn [snd] in E.
      destruct r as [[]| |]; try discriminate; injection E as ->; [exfalso; exact (C52_all_or_nothing _ _ _ _ _ _ V)|].
      split; [|apply Hn; reflexivity]. exact (C52_header_by_hash c _ _ _ _ _ _ C R S (Hn _ eq_refl) V). }
  destruct H as [(h' & p & junk & -> & L & Eh & (Er & P & Bk)) Hb]. apply obind_ok in F as (x & D & F). cbn [LegacyHistory_Model.legacy_decode] in D. rewrite hwp_ok in D by (apply PHC || assumption).
  cbn [omap] in D. injection D as <-. cbn [fst] in F. injection F as <-. exists p. split; [exact Eh|]. split; [exact Er|]. split; [exact P|exact Bk].
Qed.
Lemma put_good c s k b : good_store c s -> legacy_valid k -> bytes_ok b -> held c k b -> good_store c (put s k b).
Proof.
  intros G K B H. unfold put. constructor; [exists k; auto|exact G].
Qed.
Lemma step_good c n o : chain_ok c -> reach sha fk c (n_validator n) -> good_store c (n_store n) -> from_network c o ->
  reach sha fk c (n_validator (node_step n o)) /\ good_store c (n_store (node_step n o)).
Proof.
  intros C R G O. destruct o as [k b source net|k v|k]; cbn [from_network] in O; [|contradiction|].
  - destruct O as (K & B & S & Hn). cbn [LegacyHistory_Model.node_step]. pose proof (validate_reach c (n_validator n) source (get_content n source net) k b R S) as R'.
    destruct (validate (n_validator n) source (get_content n source net) k b) as [v' r] eqn:V. cbn [fst] in R'.
    destruct r as [[]| |]; cbn [n_validator n_store]; auto. split; [exact R'|]. apply put_good; [exact G|exact K|exact B|].
    destruct k as [hash|num|hash|hash|hash num|hash]; cbn [held].
    + exact (C52_header_by_hash c _ _ _ _ _ _ C R S B V).
    + exact (C52_header_by_number c _ _ _ _ _ _ C R S B V).
    + apply C52_body in V as (_ & h & body & F & V); [|exact B]. destruct (found_header c n source net hash h C R G S Hn K F) as (p & E & H). exists h, p, body. tauto.
    + apply C52_receipts in V as (_ & h & l & F & V); [|exact B]. destruct (found_header c n source net hash h C R G S Hn K F) as (p & E & H). exists h, p, l. tauto.
    + discriminate.
    + discriminate.
  - cbn [LegacyHistory_Model.node_step n_validator n_store]. split; [exact R|]. unfold good_store in *. rewrite Forall_forall in *. intros x I. apply filter_In in I as [I _]. auto.
Qed.
(** As long as content comes from the network, everything a node stores is about headers of the chain:
    headers have the hash or number of their key, and bodies and receipts are those of the header with
    the hash in the key (up to missing withdrawals). *)
Theorem C52_stored : forall c v l k b, chain_ok c -> reach sha fk c v -> Forall (from_network c) l -> legacy_valid k ->
  stored (n_store (node_run {| n_validator := v; n_store := [] |} l)) k = Some b -> held c k b.
Proof.
  intros c v l k b C R F K St.
  assert (G : forall n, reach sha fk c (n_validator n) -> good_store c (n_store n) -> good_store c (n_store (node_run n l))).
  { clear - Hsha Hkec PHC PHL PTC PRC PWC C F. unfold LegacyHistory_Model.node_run. induction F as [|o l O F IH]; intros n R G; [exact G|]. cbn [fold_left].
    destruct (step_good c n o C R G O) as [R' G']. apply IH; assumption. }
  eapply (stored_held c); [|exact K|exact St]. apply G; [exact R|constructor].
Qed.
(** The JSON-RPC method that stores content does not validate it: a header stored under any key is
    trusted, and then the body of any block is accepted under a hash that is not its block's. *)
Theorem C52_rpc_store_refuted : forall n hash h p r b, hash32 hash ->
  legacy_value_ok HC HL TC RC WC fk (BlockHeaderByHash hash) (VHeader (h, p)) -> body_of r h ->
  legacy_value_ok HC HL TC RC WC fk (BlockBody hash) (VBody r) -> legacy_encode (VBody r) = Ok b ->
  stored (n_store (node_run n [RpcStore (BlockHeaderByHash hash) (VHeader (h, p)); Received (BlockBody hash) b None None])) (BlockBody hash) = Some b.
Proof.
  intros n hash h p r b Hh OK1 B OK2 E. destruct (C77_round_trip PHC PHL PTC PRC PWC _ _ OK1) as (b1 & E1 & _ & D1). unfold LegacyHistory_Model.node_run. cbn [fold_left LegacyHistory_Model.node_step]. rewrite E1.
  set (n1 := {| n_validator := n_validator n; n_store := put (n_store n) (BlockHeaderByHash hash) b1 |}).
  assert (SP : forall s k x, stored (put s k x) k = Some x) by (intros s k x; unfold stored, put; cbn [find fst]; rewrite beqb_refl; reflexivity).
  assert (F : find_header (get_content n1 None None) hash = Ok h).
  { unfold LegacyHistory_Model.find_header, LegacyHistory_Model.get_content, n1. cbn [n_store]. rewrite SP, D1. reflexivity. }
  cbn [LegacyHistory_Model.node_step]. rewrite (C52_honest_body _ _ _ _ _ _ _ F B OK2 E). cbn [n_store]. apply SP.
Qed.
End Legacy.
Print Assumptions C77_round_trip.
Print Assumptions C77_only_own_bytes.
Print Assumptions C77_no_panic.
Print Assumptions C77_unfit_header_refuted.
Print Assumptions C77_many_receipts_refuted.
Print Assumptions C77_uncles_refuted.
Print Assumptions C52_header_by_hash.
Print Assumptions C52_header_by_number.
Print Assumptions C52_header_unique.
Print Assumptions C52_body.
Print Assumptions C52_body_same.
Print Assumptions C52_stripped_refuted.
Print Assumptions C52_receipts.
Print Assumptions C52_ephemeral.
Print Assumptions C52_all_or_nothing.
Print Assumptions C52_honest_header.
Print Assumptions C52_honest_body.
Print Assumptions C52_honest_receipts.
Print Assumptions C52_junk_refuted.
Print Assumptions C52_no_panic.
Print Assumptions C52_panic_refuted.
Print Assumptions C52_stored.
Print Assumptions C52_rpc_store_refuted.

(** ** Examples.  A codec that writes everything in unary meets the assumptions on codecs. *)
Definition mapc {A B} (f : A -> B) (g : B -> A) (c : codec A) : codec B :=
  {| enc := fun y => enc c (g y); dec := fun b => match dec c b with Some (x, r) => Some (f x, r) | None => None end |}.
Definition pairc {A B} (c : codec A) (d : codec B) : codec (A * B) :=
  {| enc := fun x => enc c (fst x) ++ enc d (snd x);
     dec := fun b => match dec c b with Some (x, r) => match dec d r with Some (y, r) => Some ((x, y), r) | None => None end | None => None end |}.
Fixpoint unary (b : bytes) : option (nat * bytes) :=
  match b with 0 :: r => Some (O, r) | 1 :: r => match unary r with Some (n, r) => Some (S n, r) | None => None end | _ => None end.
Definition natc : codec nat := {| enc := fun n => repeat 1 n ++ [0]; dec := unary |}.
Fixpoint enc_n {A} (c : codec A) (l : list A) : bytes := match l with [] => [] | x :: l => enc c x ++ enc_n c l end.
Fixpoint dec_n {A} (c : codec A) (n : nat) (b : bytes) : option (list A * bytes) :=
  match n with O => Some ([], b) | S n => match dec c b with Some (x, r) => match dec_n c n r with Some (l, r) => Some (x :: l, r) | None => None end | None => None end end.
Definition listc {A} (c : codec A) : codec (list A) :=
  {| enc := fun l => enc natc (length l) ++ enc_n c l; dec := fun b => match dec natc b with Some (n, r) => dec_n c n r | None => None end |}.

Lemma mapc_proper {A B} (f : A -> B) g c : proper c -> (forall y, f (g y) = y) -> (forall x, g (f x) = x) -> proper (mapc f g c).
Proof.
  intros (R & X & K) F G. split; [|split].
  - intros y rest. cbn. rewrite R, F. reflexivity.
  - intros b y rest. cbn. destruct (dec c b) as [[x r]|] eqn:D; [|discriminate]. intros H. injection H as <- <-. rewrite G. apply X, D.
  - intros y. apply K.
Qed.
Lemma pairc_proper {A B} (c : codec A) (d : codec B) : proper c -> proper d -> proper (pairc c d).
Proof.
  intros (R1 & X1 & K1) (R2 & X2 & K2). split; [|split].
  - intros [x y] rest. cbn. rewrite <- app_assoc, R1, R2. reflexivity.
  - intros b [x y] rest. cbn. destruct (dec c b) as [[x' r]|] eqn:D1; [|discriminate]. destruct (dec d r) as [[y' r']|] eqn:D2; [|discriminate]. intros H. injection H as <- <- <-.
    apply X1 in D1 as ->. apply X2 in D2 as ->. apply app_assoc.
  - intros [x y]. apply bytes_ok_app. auto.
Qed.
Lemma natc_proper : proper natc.
Proof.
  split; [|split].
  - intros n rest. cbn. induction n as [|n IH]; [reflexivity|]. cbn [repeat app unary]. rewrite IH. reflexivity.
  - intros b. induction b as [|x b IH]; intros n rest; cbn [natc dec unary enc]; [discriminate|]. destruct x as [|[| |]]; [intros H; injection H as <- <-; reflexivity|discriminate|discriminate|].
    destruct (unary b) as [[m r]|] eqn:U; [|discriminate]. intros H. injection H as <- <-. cbn [repeat app]. f_equal. exact (IH m r U).
  - intros n. apply bytes_ok_app. split; [|repeat constructor; reflexivity]. unfold bytes_ok. apply Forall_forall. intros x I. apply repeat_spec in I as ->. reflexivity.
Qed.
Lemma listc_proper {A} (c : codec A) : proper c -> proper (listc c).
Proof.
  intros (R & X & K). destruct natc_proper as (R0 & X0 & K0). split; [|split].
  - intros l rest. unfold listc. cbn [enc dec]. rewrite <- app_assoc. fold (enc natc (length l)). rewrite (R0 (length l)). induction l as [|x l IH]; [reflexivity|]. cbn [length dec_n enc_n]. rewrite <- app_assoc, R, IH. reflexivity.
  - intros b l rest. unfold listc. cbn [enc dec]. destruct (dec natc b) as [[n r]|] eqn:D; [|discriminate]. apply X0 in D as ->. intros H.
    assert (G : r = enc_n c l ++ rest /\ n = length l).
    { revert r l H. induction n as [|n IH]; intros r l; cbn [dec_n]; [intros H; injection H as <- <-; auto|]. destruct (dec c r) as [[x r']|] eqn:D; [|discriminate]. destruct (dec_n c n r') as [[l' r2]|] eqn:D2; [|discriminate].
      intros H. injection H as <- <-. apply IH in D2 as [-> ->]. apply X in D as ->. cbn [enc_n length]. rewrite app_assoc. auto. }
    destruct G as [-> ->]. apply app_assoc.
  - intros l. apply bytes_ok_app. split; [apply K0|]. induction l; [constructor|]. apply bytes_ok_app. auto.
Qed.
Definition Nc : codec N := mapc N.of_nat N.to_nat natc.
Definition bytesc : codec bytes := listc Nc.
Definition optc {A} (c : codec A) : codec (option A) :=
  {| enc := fun x => match x with None => [0] | Some x => 1 :: enc c x end;
     dec := fun b => match b with 0 :: r => Some (None, r) | 1 :: r => match dec c r with Some (x, r) => Some (Some x, r) | None => None end | _ => None end |}.
Lemma optc_proper {A} (c : codec A) : proper c -> proper (optc c).
Proof.
  intros (R & X & K). split; [|split].
  - intros [x|] rest; cbn; [rewrite R|]; reflexivity.
  - intros [|[|[| |]] b] x rest; cbn; try discriminate; [intros H; injection H as <- <-; reflexivity|]. destruct (dec c b) as [[y r]|] eqn:D; [|discriminate]. intros H. injection H as <- <-. cbn. f_equal. apply X, D.
  - intros [x|]; constructor; try reflexivity; [apply K|constructor].
Qed.
Lemma Nc_proper : proper Nc. Proof. apply mapc_proper; [apply natc_proper|intros; apply Nnat.N2Nat.id|intros; apply Nnat.Nat2N.id]. Qed.
Lemma bytesc_proper : proper bytesc. Proof. apply listc_proper, Nc_proper. Qed.
Definition toyHC : codec full_header :=
  mapc (fun x => match x with (n, (t, (o, (x, (r, (w, f)))))) => {| number := n; timestamp := t; ommers_hash := o; transactions_root := x; receipts_root := r; withdrawals_root := w; other_fields := f |} end)
    (fun h => (number h, (timestamp h, (ommers_hash h, (transactions_root h, (receipts_root h, (withdrawals_root h, other_fields h)))))))
    (pairc Nc (pairc Nc (pairc bytesc (pairc bytesc (pairc bytesc (pairc (optc bytesc) bytesc)))))).
Example toy_proper : proper toyHC /\ proper (listc toyHC) /\ proper Nc.
Proof.
  assert (H : proper toyHC) by (apply mapc_proper; [repeat apply pairc_proper; auto using Nc_proper, bytesc_proper, optc_proper|intros []; reflexivity|intros (? & ? & ? & ? & ? & ? & ?); reflexivity]).
  auto using listc_proper, Nc_proper.
Qed.
Definition toy_keccak (b : bytes) : bytes := repeat 0 31 ++ [blen b mod 256].
Definition toy_root (l : list bytes) : bytes := repeat 0 31 ++ [blen (concat l) mod 256].
Definition toy_forks : forks := {| paris_block := 1; shanghai_time := 2; cancun_time := 3 |}.
Definition toy_block : @block_body N N := {| transactions := [4; 7]; ommers := []; withdrawals := Some [5] |}.
Definition toy_header : full_header :=
  {| number := 2; timestamp := 3; ommers_hash := toy_keccak (enc (listc toyHC) []); transactions_root := toy_root (map (enc Nc) [4; 7]); receipts_root := toy_root (map (enc Nc) [9]);
     withdrawals_root := Some (toy_root (map (enc Nc) [5])); other_fields := [] |}.
Definition toy_proof : header_proof :=
  SummariesDeneb {| beacon_block_proof := repeat (repeat 0 32) 13; beacon_block_root := repeat 7 32; execution_block_proof := repeat (repeat 0 32) 12; slot := 3 |}.
Lemma repeat_hash n x m : x < 256 -> m = 32%nat -> Forall hash32 (repeat (repeat x m) n).
Proof. intros H ->. apply Forall_forall. intros y I. apply repeat_spec in I as ->. split; [reflexivity|]. apply Forall_forall. intros z I. apply repeat_spec in I as ->. exact H. Qed.
Notation toy_validate := (validate_legacy toyHC (listc toyHC) Nc Nc Nc toy_keccak toy_root toy_keccak toy_forks).
Notation toy_value_ok := (legacy_value_ok (tx := N) (rct := N) (wdl := N) toyHC (listc toyHC) Nc Nc Nc toy_forks).
Example C77_example :
  toy_value_ok (BlockHeaderByHash (toy_keccak (enc toyHC toy_header))) (VHeader (toy_header, toy_proof)) /\
  toy_value_ok (BlockBody []) (VBody toy_block) /\ toy_value_ok (BlockReceipts []) (VReceipts [9]) /\
  toy_value_ok (EphemeralHeadersFindContent [] 1) (VEphemeral [toy_header]) /\ toy_value_ok (EphemeralHeaderOffer []) (VOffer toy_header) /\
  body_of (listc toyHC) Nc Nc toy_keccak toy_root toy_block toy_header.
Proof.
  split; [|split; [|split; [|split; [|split]]]].
  - split; [vm_compute; discriminate|]. split; [vm_compute; discriminate|]. split; [split; reflexivity|]. unfold block_proof_ok. split; [apply repeat_hash; reflexivity|]. split; [|split; [apply repeat_hash; reflexivity|reflexivity]].
    assert (F : Forall hash32 (repeat (repeat 7 32) 1)) by (apply repeat_hash; reflexivity). exact (Forall_inv F).
  - split; [vm_compute; reflexivity|]. split; [vm_compute; reflexivity|]. split; [reflexivity|vm_compute; reflexivity].
  - split; [vm_compute; reflexivity|vm_compute; discriminate].
  - split; [constructor; [vm_compute; discriminate|constructor]|vm_compute; discriminate].
  - vm_compute; discriminate.
  - vm_compute. auto.
Qed.
(** The body of that block is accepted, the body with another transaction is not, and the body
    without its withdrawals is. *)
Example C52_example :
  let get := fun k => match k with BlockHeaderByHash _ => Some (header_value toyHC toy_header [] toy_proof) | _ => None end in
  let verdict b := snd (toy_validate (fresh toy_keccak {| epochs := []; batches := []; later_batches := [] |}) None get (BlockBody (toy_keccak (enc toyHC toy_header))) (encode_body (listc toyHC) Nc Nc b)) in
  verdict toy_block = Ok CanonicallyValid /\
  verdict {| transactions := [4; 8]; ommers := []; withdrawals := Some [5] |} = Ok Invalid /\
  verdict {| transactions := [4; 7]; ommers := []; withdrawals := Some [6] |} = Ok Invalid /\
  verdict {| transactions := [4; 7]; ommers := []; withdrawals := None |} = Ok CanonicallyValid.
Proof. vm_compute. auto. Qed.
