(** Property C28: trie proofs prove what they say. *)
From Verif Require Import Base Keys_Model Keys_Spec Keys_Proofs Trie_Model Trie_Spec Trie_Proofs Trie_Codec.

Section Proofs.
Context (keccak : bytes -> bytes) (decode_node : bytes -> outcome node).
Context {account : Type} (decode_account : bytes -> outcome account).
Notation enc := (encode_raw keccak).
Notation validate_node := (validate_node_trie_proof keccak decode_node).
Notation validate_account := (validate_account_state keccak decode_node decode_account).

(** A proof accepted for the root of a trie, a path and a hash: the trie has at that path a node
    with that hash, and it is the last of the proof. *)
Theorem C28_node_sound : reads_back keccak decode_node ->
  forall t path hash proof, trie t -> sized proof ->
  validate_node (Some (root_hash keccak t)) hash path proof = Ok tt ->
  (exists s, at_path t path s /\ keccak (enc s) = hash /\ last proof [] = enc s) \/ forged keccak t proof.
Proof.
  intros R t path hash proof T Z V. unfold validate_node_trie_proof in V.
  apply obind_inv in V. destruct V as ([final rest] & V & C). cbn [fst snd] in C.
  destruct rest as [|? ?]; [|discriminate]. cbn [is_nil negb] in C. apply check_ok in C.
  pose proof (proof_sound keccak decode_node R t path proof final [] T Z V) as [(q & s & E & A & ->)|F]; [left|right; exact F].
  rewrite app_nil_r in E. subst q. exists s. split; [exact A|]. split; [exact C|].
  destruct proof as [|x nodes]; [discriminate|]. cbn [validate_trie_proof] in V. apply obind_inv in V. destruct V as (_ & _ & V).
  rewrite (follow_last keccak decode_node nodes x path _ _ V). apply last_cons.
Qed.

Lemma account_cases : reads_back keccak decode_node ->
  forall t address proof a, trie t -> sized proof ->
  validate_account (Some (root_hash keccak t)) address proof = Ok a ->
  (exists v, decode_account v = Ok a /\
     ((exists q k, unpack_nibbles address = q ++ k /\ k <> [] /\ at_path t q (NLeaf (k ++ [16]) v)) \/
      (exists l, at_path t (unpack_nibbles address) (NBranch l (Some v))))) \/ forged keccak t proof.
Proof.
  intros R t address proof a T Z V. unfold validate_account_state in V.
  apply obind_inv in V. destruct V as ([final rest] & V & W). cbn [fst snd] in W.
  pose proof (proof_sound keccak decode_node R t _ proof final rest T Z V) as [(q & s & E & A & ->)|F]; [|right; exact F].
  apply obind_inv in W. destruct W as (n & D & W).
  assert (L : blen (enc s) <= 1024).
  { destruct proof as [|x nodes]; [discriminate|]. cbn [validate_trie_proof] in V. apply obind_inv in V. destruct V as (_ & _ & V).
    apply (follow_last keccak decode_node) in V. rewrite V. unfold sized in Z. rewrite Forall_forall in Z. apply Z, last_in. }
  rewrite R in D; [|eapply trie_at; eauto|exact L]. injection D as <-.
  pose proof (proj1 (traverse_leads keccak s (trie_at _ _ _ A T) rest)) as G.
  destruct (traverse (seen keccak s) rest) as [|v|h r| |]; try discriminate. left. exists v. split; [exact W|].
  rewrite E. destruct G as [(q' & k & -> & K & B)|(l & B)]; [left|right].
  - exists (q ++ q'), k. rewrite app_assoc. split; [reflexivity|]. split; [exact K|]. eapply at_app; eauto.
  - exists l. eapply at_app; eauto.
Qed.

(** A proof accepted for the root of a trie and an account: the trie maps the account's path to
    bytes that decode to the returned account. *)
Theorem C28_account_sound : reads_back keccak decode_node ->
  forall t address proof a, trie t -> sized proof ->
  validate_account (Some (root_hash keccak t)) address proof = Ok a ->
  (exists v, holds t (unpack_nibbles address) v /\ decode_account v = Ok a) \/ forged keccak t proof.
Proof.
  intros R t address proof a T Z V.
  destruct (account_cases R t address proof a T Z V) as [(v & D & G)|F]; [left|right; exact F].
  exists v. split; [|exact D]. destruct G as [(q & k & E & _ & A)|G]; [left; eauto|right; exact G].
Qed.

(** Whatever the trie contains can be proved: every node that its parent refers to by hash, *)
Theorem C28_node_complete : reads_back keccak decode_node ->
  forall t path s, trie t -> fits keccak t -> (length path <= 64)%nat ->
  at_path t path s -> 32 <= blen (enc s) \/ path = [] ->
  exists proof, validate_node (Some (root_hash keccak t)) (keccak (enc s)) path proof = Ok tt /\
    (length proof <= 65)%nat /\ sized proof /\
    Forall (fun x => exists q s, at_path t q s /\ x = enc s) proof.
Proof.
  intros R t path s T F Lp A H.
  destruct (proof_complete keccak decode_node R t path s [] A T F) as (proof & cur & pre & V & _ & _ & _ & C & Fa & Le).
  destruct (C H) as [-> ->]. exists proof. rewrite app_nil_r in V. cbn [app] in V.
  unfold validate_node_trie_proof. rewrite V. cbn [obind fst snd is_nil negb]. split; [apply check_ok; reflexivity|].
  split; [clear - Le Lp; lia|]. split; [|exact Fa].
  unfold sized. eapply Forall_impl; [|exact Fa]. intros x (q & u & B & ->). eapply F; eauto.
Qed.

(** and every account, unless nothing of its path is left for the leaf. *)
Theorem C28_account_complete : reads_back keccak decode_node ->
  forall t address q k v a, trie t -> fits keccak t -> length address = 32%nat ->
  unpack_nibbles address = q ++ k -> k <> [] -> at_path t q (NLeaf (k ++ [16]) v) -> decode_account v = Ok a ->
  exists proof, validate_account (Some (root_hash keccak t)) address proof = Ok a /\
    (length proof <= 65)%nat /\ sized proof.
Proof.
  intros R t address q k v a T F La E K A D.
  destruct (proof_complete keccak decode_node R t q _ k A T F) as (proof & cur & pre & V & Tc & S & Lc & _ & Fa & Le).
  exists proof. unfold validate_account_state. rewrite E, V. cbn [obind fst snd]. rewrite R by assumption. cbn [obind]. rewrite S.
  cbn [seen traverse]. rewrite split_last_snoc. change (16 =? 16) with true. cbn [negb]. destruct k as [|x k]; [congruence|]. cbn [is_nil].
  rewrite beqb_refl. cbn [negb]. split; [exact D|]. split.
  - apply (f_equal (@length N)) in E. rewrite unpack_len, app_length, La in E. clear - E Le. lia.
  - unfold sized. eapply Forall_impl; [|exact Fa]. intros y (p & u & B & ->). eapply F; eauto.
Qed.

(** Two accepted proofs for the same root and account are the same list of nodes, whatever the
    decoder of nodes does, *)
Theorem C28_account_unique : forall root address p1 p2 a1 a2,
  validate_account (Some root) address p1 = Ok a1 -> validate_account (Some root) address p2 = Ok a2 ->
  p1 = p2 /\ a1 = a2 \/ clash_between keccak p1 p2.
Proof.
  intros root address p1 p2 a1 a2 V1 V2. unfold validate_account_state in V1, V2.
  apply obind_inv in V1, V2. destruct V1 as (r1 & V1 & W1), V2 as (r2 & V2 & W2).
  destruct (proof_two keccak decode_node root _ p1 p2 r1 r2 V1 V2) as [C|[(tl & -> & Fo)|(tl & -> & Fo)]]; [right; exact C| |]; left.
  - destruct tl as [|y tl].
    + cbn [follow] in Fo. injection Fo as <-. destruct r1; cbn [fst snd] in *. rewrite W1 in W2. injection W2 as ->. rewrite app_nil_r. auto.
    + exfalso. cbn [follow] in Fo. apply obind_inv in W1, Fo. destruct W1 as (n & D & W1), Fo as (m & D' & Fo). rewrite D in D'. injection D' as <-.
      destruct (traverse n (snd r1)); discriminate.
  - destruct tl as [|y tl].
    + cbn [follow] in Fo. injection Fo as <-. destruct r2; cbn [fst snd] in *. rewrite W2 in W1. injection W1 as ->. rewrite app_nil_r. auto.
    + exfalso. cbn [follow] in Fo. apply obind_inv in W2, Fo. destruct W2 as (n & D & W2), Fo as (m & D' & Fo). rewrite D in D'. injection D' as <-.
      destruct (traverse n (snd r2)); discriminate.
Qed.

(** and so are two for the same root and path, unless the decoder takes a node for a mere hash. *)
Theorem C28_node_unique : forall root path p1 p2 h1 h2,
  validate_node (Some root) h1 path p1 = Ok tt -> validate_node (Some root) h2 path p2 = Ok tt ->
  p1 = p2 /\ h1 = h2 \/ clash_between keccak p1 p2 \/
  exists x h, (In x p1 \/ In x p2) /\ decode_node x = Ok (NHash h).
Proof.
  assert (W : forall root path p1 p2 r1 r2 y tl,
    validate_trie_proof keccak decode_node (Some root) path p1 = Ok r1 ->
    validate_trie_proof keccak decode_node (Some root) path p2 = Ok r2 ->
    is_nil (snd r1) = true -> p2 = p1 ++ y :: tl -> follow keccak decode_node (fst r1) (snd r1) (y :: tl) = Ok r2 ->
    exists x h, In x p1 /\ decode_node x = Ok (NHash h)).
  { intros root path p1 p2 r1 r2 y tl V1 V2 N E Fo. destruct r1 as [f r]. cbn [fst snd] in *. destruct r; [|discriminate].
    cbn [follow] in Fo. apply obind_inv in Fo. destruct Fo as (n & D & Fo).
    destruct (traverse n []) as [|v|h r'| |] eqn:Tr; try discriminate. apply traverse_end in Tr. subst n.
    exists f, h. split; [|exact D]. destruct p1 as [|x nodes]; [discriminate|]. cbn [validate_trie_proof] in V1. apply obind_inv in V1.
    destruct V1 as (_ & _ & V1). apply (follow_last keccak decode_node) in V1. rewrite V1. apply last_in. }
  intros root path p1 p2 h1 h2 V1 V2. unfold validate_node_trie_proof in V1, V2.
  apply obind_inv in V1, V2. destruct V1 as (r1 & V1 & W1), V2 as (r2 & V2 & W2).
  destruct (is_nil (snd r1)) eqn:N1; [|discriminate]. destruct (is_nil (snd r2)) eqn:N2; [|discriminate]. cbn [negb] in W1, W2.
  apply check_ok in W1, W2.
  destruct (proof_two keccak decode_node root path p1 p2 r1 r2 V1 V2) as [C|[(tl & E & Fo)|(tl & E & Fo)]]; [right; left; exact C| |].
  - destruct tl as [|y tl].
    + left. cbn [follow] in Fo. injection Fo as <-. rewrite app_nil_r in E. split; [auto|]. cbn [fst] in W2. congruence.
    + right. right. destruct (W root path p1 p2 r1 r2 y tl V1 V2 N1 E Fo) as (x & h & I & D). exists x, h. auto.
  - destruct tl as [|y tl].
    + left. cbn [follow] in Fo. injection Fo as <-. rewrite app_nil_r in E. split; [auto|]. cbn [fst] in W1. congruence.
    + right. right. destruct (W root path p2 p1 r2 r1 y tl V2 V1 N2 E Fo) as (x & h & I & D). exists x, h. auto.
Qed.

(** Validation does not panic when the decoders do not. *)
Theorem C28_no_panic :
  (forall b, decode_node b <> Panic) ->
  (forall b n q l v, decode_node b = Ok n -> at_path n q (NBranch l v) -> length l = 16%nat) ->
  (forall v, decode_account v <> Panic) ->
  forall root hash path address proof, Forall nibble path -> bytes_ok address ->
  validate_node root hash path proof <> Panic /\ validate_account root address proof <> Panic.
Proof.
  intros D D16 Da root hash path address proof P A.
  assert (V : forall path, Forall nibble path -> validate_trie_proof keccak decode_node root path proof <> Panic /\
    forall f r, validate_trie_proof keccak decode_node root path proof = Ok (f, r) -> Forall nibble r).
  { intros q Q. destruct proof as [|x nodes]; [split; [discriminate|intros; discriminate]|]. cbn [validate_trie_proof].
    pose proof (no_panic_follow keccak decode_node nodes D D16 x q Q) as G.
    destruct root as [h|]; cbn [obind]; [|exact G]. unfold check_node_hash. destruct (beqb (keccak x) h); cbn [obind]; [exact G|split; [discriminate|intros; discriminate]]. }
  split.
  - unfold validate_node_trie_proof. destruct (V path P) as [NP _]. destruct (validate_trie_proof keccak decode_node root path proof) as [x| |]; [|discriminate|congruence].
    cbn [obind]. destruct (negb (is_nil (snd x))); [discriminate|]. unfold check_node_hash. destruct (beqb _ _); discriminate.
  - unfold validate_account_state.
    assert (Q : Forall nibble (unpack_nibbles address)).
    { destruct (pack_unpack_pairs address A) as [_ Q]. eapply Forall_impl; [|exact Q]. unfold nibble. intros; lia. }
    destruct (V _ Q) as [NP R]. destruct (validate_trie_proof keccak decode_node root _ proof) as [[f r]| |] eqn:E; [|discriminate|congruence].
    cbn [obind fst snd]. destruct (decode_node f) as [n| |] eqn:Ef; [|discriminate|exfalso; eapply D; eauto]. cbn [obind].
    pose proof (no_panic_traverse n r (R f r eq_refl) (fun q l v => D16 f n q l v Ef)) as NT.
    destruct (traverse n r); try discriminate; [apply Da|congruence].
Qed.

(** An account whose leaf is reached only by its whole path cannot be proved at all. *)
Theorem C28_empty_leaf_refuted : reads_back keccak decode_node ->
  forall t address v, trie t -> at_path t (unpack_nibbles address) (NLeaf [16] v) ->
  holds t (unpack_nibbles address) v /\
  forall proof a, sized proof -> validate_account (Some (root_hash keccak t)) address proof = Ok a -> forged keccak t proof.
Proof.
  intros R t address v T A. split.
  - left. exists (unpack_nibbles address), []. rewrite app_nil_r. split; [reflexivity|exact A].
  - intros proof a Z V. destruct (account_cases R t address proof a T Z V) as [(w & _ & [(q & k & E & K & B)|(l & B)])|F]; [| |exact F]; exfalso.
    + assert (C : exists s, at_path (NLeaf (k ++ [16]) w) k s).
      { clear - A B E T. rewrite E in A.
        assert (G : forall t q, at_path t q (NLeaf (k ++ [16]) w) -> trie t -> at_path t (q ++ k) (NLeaf [16] v) -> exists s, at_path (NLeaf (k ++ [16]) w) k s).
        { clear. intros t q B. remember (NLeaf (k ++ [16]) w) as lf eqn:El. induction B as [n|p c q s B IH|l o i c q s E B IH]; intros T A.
          - subst n. eauto.
          - subst s. inversion T; subst. rewrite <- app_assoc in A. inversion A as [|? ? ? ? A' E1 E2|]; subst.
            apply app_inj_prefix in E2; [|reflexivity]. destruct E2 as [_ ->]. apply IH; auto.
          - subst s. inversion T; subst. cbn [app] in A. inversion A as [|? ? ? ? A'|? ? j c' ? ? E' A' E1 E2]; subst.
            match goal with J : N.of_nat j = N.of_nat i |- _ => apply Nat2N.inj in J; subst j end.
            rewrite E in E'. injection E' as <-. apply IH; auto.
            match goal with J : Forall trie l |- _ => rewrite Forall_forall in J; apply J end. eapply nth_error_In; eauto. }
        eapply G; eauto. }
      destruct C as (s & C). inversion C; subst. congruence.
    + pose proof (at_det _ _ _ A T _ B). discriminate.
Qed.
End Proofs.
Print Assumptions C28_node_sound.
Print Assumptions C28_account_sound.
Print Assumptions C28_node_complete.
Print Assumptions C28_account_complete.
Print Assumptions C28_account_unique.
Print Assumptions C28_node_unique.
Print Assumptions C28_no_panic.
Print Assumptions C28_empty_leaf_refuted.

(** The decoders that the theorems ask for exist, for every hash of 32 bytes. *)
Theorem C28_decoder : forall keccak, (forall x, length (keccak x) = 32%nat) ->
  reads_back keccak rlp_decode_node /\
  forall b n q l v, rlp_decode_node b = Ok n -> at_path n q (NBranch l v) -> length l = 16%nat.
Proof.
  intros keccak Hk. split; [apply rlp_reads_back, Hk|].
  unfold rlp_decode_node. intros b. generalize (S (length b)). intros f. revert b.
  assert (G : forall f b n, rlp_decode f b = Ok n -> forall q l v, at_path n q (NBranch l v) -> length l = 16%nat).
  { clear. induction f as [|f IH]; intros b n D q l v A; cbn [rlp_decode] in D; [discriminate|].
    destruct (rlp_split b) as [[[[] payload] rest]|]; [| |discriminate].
    2: { destruct (is_nil payload); [injection D as <-; inversion A|]. destruct (blen payload =? 32); [|discriminate]. injection D as <-. inversion A. }
    destruct (rlp_items (length payload) payload) as [its|]; [|discriminate].
    assert (Br : forall l0, (if blen l0 =? 17 then
                obind (all_ok (map (fun it : bool * bytes * bytes => rlp_decode f (snd it)) (firstn 16 l0))) (fun cs =>
                  match nth_error l0 16 with
                  | Some (false, v, _) => Ok (NBranch cs (if is_nil v then None else Some v))
                  | _ => Err
                  end) else Err) = Ok n -> length l = 16%nat).
    { intros l0 D0. destruct (blen l0 =? 17) eqn:L17; [|discriminate]. apply obind_inv in D0. destruct D0 as (cs & C & D0).
      destruct (nth_error l0 16) as [[[[] w] raw]|]; try discriminate. injection D0 as <-.
      assert (Al : forall (xs : list (outcome node)) ys, all_ok xs = Ok ys -> length ys = length xs /\ forall i y, nth_error ys i = Some y -> nth_error xs i = Some (Ok y)).
      { clear. induction xs as [|x xs IH]; intros ys E; cbn [all_ok] in E.
        - injection E as <-. split; [reflexivity|]. intros [|i] y; discriminate.
        - apply obind_inv in E. destruct E as (a & -> & E). apply obind_inv in E. destruct E as (r & E & F). injection F as <-.
          apply IH in E. destruct E as [L N]. split; [cbn; congruence|]. intros [|i] y; cbn; [congruence|apply N]. }
      apply Al in C. destruct C as [Lc Nc]. rewrite map_length, firstn_length in Lc.
      assert (L0 : (length l0 = 17)%nat) by (apply N.eqb_eq in L17; unfold blen in L17; lia). rewrite L0 in Lc.
      inversion A as [|? ? ? ? A'|? ? i c ? ? E A']; subst; [exact Lc|].
      apply Nc in E. rewrite nth_error_map in E. destruct (nth_error (firstn 16 l0) i) as [it|]; [|discriminate]. injection E as E.
      eapply IH; eauto. }
    destruct its as [|[[[] c] r1] [|[[k w] raw] [|x its]]]; try (match type of D with context[blen ?l0 =? 17] => exact (Br l0 D) end).
    apply obind_inv in D. destruct D as ([leaf key] & _ & D). cbn [fst snd] in D. destruct leaf.
    - destruct k; [discriminate|]. injection D as <-. inversion A.
    - destruct (rlp_decode f raw) as [m| |] eqn:E; try discriminate. injection D as <-. inversion A; subst. eapply IH; eauto. }
  intros b n q l v D A. eapply G; eauto.
Qed.
Print Assumptions C28_decoder.

(** A trie with two accounts below a branch, one further down through an extension. *)
Definition toy_keccak (x : bytes) : bytes := firstn 32 (rev x ++ repeat 0 32).
Lemma toy_keccak_len x : length (toy_keccak x) = 32%nat.
Proof. unfold toy_keccak. rewrite firstn_length, app_length, repeat_length. lia. Qed.
Definition toy_leaf k v := NLeaf (k ++ [16]) (repeat v 40).
Definition toy_address : bytes := [81] ++ repeat 0 31.
Definition toy_trie : node :=
  NBranch [NEmpty; NEmpty; NEmpty; NEmpty; NEmpty; NExt [1] (NBranch (toy_leaf (repeat 0 61) 7 :: repeat NEmpty 14 ++ [toy_leaf [3] 8]) None);
           NEmpty; toy_leaf [2] 9; NEmpty; NEmpty; NEmpty; NEmpty; NEmpty; NEmpty; NEmpty; NEmpty] None.
Example C28_toy : trie toy_trie /\ fits toy_keccak toy_trie /\
  exists proof, length proof = 4%nat /\
    validate_account_state toy_keccak rlp_decode_node (@Ok bytes) (Some (root_hash toy_keccak toy_trie)) toy_address proof = Ok (repeat 7 40).
Proof.
  assert (T : trie toy_trie).
  { unfold toy_trie, toy_leaf. cbn [repeat app].
    assert (Lf : forall k v, forallb (fun n => n <? 16) k = true -> trie (NLeaf (k ++ [16]) v)).
    { intros k v H. constructor. rewrite forallb_forall in H. apply Forall_forall. intros x I. apply H in I. unfold nibble. lia. }
    constructor; [reflexivity| |discriminate]. repeat (constructor; [try apply trie_empty|]); try apply Lf; try reflexivity; try constructor.
    - discriminate.
    - repeat constructor.
    - constructor; [reflexivity| |discriminate]. repeat (constructor; [try apply trie_empty|]); try constructor; try (apply (Lf _ _ eq_refl)).
      + apply (Lf (0 :: repeat 0 60)). reflexivity.
      + apply (Lf [3]). reflexivity.
    - apply (Lf [2]). reflexivity. }
  split; [exact T|]. split.
  { intros p s A.
    assert (G : forall n, (fix small n : bool := (blen (encode_raw toy_keccak n) <=? 1024) &&
       match n with NExt _ c => small c | NBranch l _ => forallb small l | _ => true end) n = true ->
       forall p s, at_path n p s -> blen (encode_raw toy_keccak s) <= 1024).
    { clear. intros n H p s A. revert H. induction A as [n|p c q s A IH|l v i c q s E A IH]; intros H.
      - destruct n; apply andb_true_iff in H; destruct H as [H _]; lia.
      - apply andb_true_iff in H. destruct H as [_ H]. auto.
      - apply andb_true_iff in H. destruct H as [_ H]. rewrite forallb_forall in H. apply IH, H. eapply nth_error_In; eauto. }
    eapply G; [|exact A]. vm_compute. reflexivity. }
  exists [encode_raw toy_keccak toy_trie;
          encode_raw toy_keccak (NExt [1] (NBranch (toy_leaf (repeat 0 61) 7 :: repeat NEmpty 14 ++ [toy_leaf [3] 8]) None));
          encode_raw toy_keccak (NBranch (toy_leaf (repeat 0 61) 7 :: repeat NEmpty 14 ++ [toy_leaf [3] 8]) None);
          encode_raw toy_keccak (toy_leaf (repeat 0 61) 7)].
  split; [reflexivity|]. vm_compute. reflexivity.
Qed.
