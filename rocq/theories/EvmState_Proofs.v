(** Lemmas about reading a state over the network. *)
From Verif Require Import Base ExecDb_Model ExecDb_Proofs Keys_Model Keys_Spec Keys_Proofs Trie_Model Trie_Spec Trie_Proofs Trie_Codec StateContent_Model StateContent_Spec StateContent_Proofs StateContent_Props Walker_Spec EvmState_Model EvmState_Spec.

(** ** Tries *)

Lemma holds_ext p c y v : holds (NExt p c) y v <-> exists x, y = p ++ x /\ holds c x v.
Proof.
  split.
  - intros [(q & k & -> & A)|(l & A)]; inversion A; subst; clear A.
    + exists (q0 ++ k). rewrite app_assoc. split; [reflexivity|]. left. eauto.
    + exists q. split; [reflexivity|]. right. eauto.
  - intros (x & -> & [(q & k & -> & A)|(l & A)]); [left|right].
    + exists (p ++ q), k. rewrite app_assoc. split; [reflexivity|]. constructor. exact A.
    + exists l. constructor. exact A.
Qed.
Lemma holds_top l w v : holds (NBranch l w) [] v <-> w = Some v.
Proof.
  split.
  - intros [(q & k & E & A)|(l' & A)].
    + symmetry in E. apply app_eq_nil in E as [-> ->]. inversion A.
    + inversion A; subst; reflexivity.
  - intros ->. right. exists l. constructor.
Qed.
Lemma holds_branch l w i x v : holds (NBranch l w) (i :: x) v <-> exists c, nth_error l (N.to_nat i) = Some c /\ holds c x v.
Proof.
  split.
  - intros [(q & k & E & A)|(l' & A)]; inversion A; subst; clear A.
    + cbn [app] in E. injection E as -> ->. rewrite Nat2N.id. exists c. split; [assumption|]. left. eauto.
    + rewrite Nat2N.id. exists c. split; [assumption|]. right. eauto.
  - intros (c & N & [(q & k & -> & A)|(l' & A)]); [left|right].
    + exists (i :: q), k. split; [reflexivity|]. rewrite <- (N2Nat.id i). econstructor; eauto.
    + exists l'. rewrite <- (N2Nat.id i). econstructor; eauto.
Qed.
Lemma holds_leaf k v y u : holds (NLeaf (k ++ [16]) v) y u <-> y = k /\ u = v.
Proof.
  split.
  - intros [(q & k' & -> & A)|(l' & A)]; inversion A as [n0 E1 E2 E3| |]; subst. split; [|reflexivity]. apply app_inj_tail in E3 as [E3 _]. exact (eq_sym E3).
  - intros [-> ->]. left. exists [], k. split; [reflexivity|constructor].
Qed.
Lemma holds_empty y v : ~ holds NEmpty y v.
Proof. intros [(q & k & _ & A)|(l & A)]; inversion A. Qed.
Lemma holds_below t q cur : at_path t q cur -> forall rest v, holds t (q ++ rest) v <-> holds cur rest v.
Proof.
  induction 1 as [n|p c q s A IH|l v i c q s E A IH]; intros rest u; [reflexivity| |].
  - rewrite <- app_assoc, holds_ext. split.
    + intros (x & E & H). apply app_inv_head in E. subst x. apply IH, H.
    + intros H. exists (q ++ rest). split; [reflexivity|]. apply IH, H.
  - cbn [app]. rewrite holds_branch, Nat2N.id. split.
    + intros (c' & E' & H). rewrite E in E'. injection E' as <-. apply IH, H.
    + intros H. exists c. split; [exact E|]. apply IH, H.
Qed.
Lemma holds_unique t : trie t -> forall p v w, holds t p v -> holds t p w -> v = w.
Proof.
  induction t as [|k v|p c IH|l v IH|h] using node_ind'; intros T y a b; inversion T; subst.
  - intros H. destruct (holds_empty _ _ H).
  - rewrite !holds_leaf. intuition congruence.
  - rewrite !holds_ext. intros (x & -> & Ha) (x' & E & Hb). apply app_inv_head in E. subst x'. eauto.
  - destruct y as [|i y]; [rewrite !holds_top; congruence|]. rewrite !holds_branch. intros (c & E & Ha) (c' & E' & Hb). rewrite E in E'. injection E' as <-.
    rewrite Forall_forall in IH, H2. eapply IH; eauto using nth_error_In.
Qed.

Section Reads.
Context (keccak : bytes -> bytes) (decode_node : bytes -> outcome Trie_Model.node) (net : N -> state_key -> outcome bytes).
Notation enc := (encode_raw keccak).
Notation seen := (seen keccak).
Notation link := (link keccak).

(** What a step from a node says about the values of the trie. *)
Definition tells (strict : bool) (n : Trie_Model.node) (path : bytes) (r : traversal) : Prop :=
  match r with
  | TrNode h rest => exists p m, path = p ++ rest /\ at_path n p m /\ h = keccak (enc m) /\ 32 <= blen (enc m) /\ (strict = true -> p <> [])
  | TrValue v => holds n path v
  | TrEmpty => forall v, ~ holds n path v
  | TrError => exists p v, at_path n p (NLeaf [16] v)
  | TrPanic => ~ Forall nibble path
  end.
Lemma traverse_tells n : trie n -> forall path, tells true n path (traverse (seen n) path) /\ tells false n path (traverse (link n) path).
Proof.
  induction n as [|k v|p c IH|l v IH|h] using node_ind'; intros T path; inversion T; subst.
  all: match goal with |- tells _ ?n ?path _ /\ _ => cut (tells true n path (traverse (seen n) path)) end;
    [intros L; split; [exact L|]; unfold Trie_Proofs.link; destruct (blen (enc _) <? 32) eqn:Hs;
      [destruct (traverse _ path); try exact L; destruct L as (p0 & m0 & X1 & X2 & X3 & X4 & _); exists p0, m0; repeat (split; [assumption|]); discriminate
      |cbn [traverse tells]; eexists [], _; split; [reflexivity|]; split; [constructor|]; split; [reflexivity|]; split; [lia|discriminate]]|].
  - cbn [Trie_Spec.seen traverse tells]. intros v. apply holds_empty.
  - cbn [Trie_Spec.seen traverse]. rewrite split_last_snoc. change (16 =? 16) with true. cbn [negb].
    destruct k0 as [|x k0]; [cbn [is_nil tells]; exists [], v; constructor|]. cbn [is_nil].
    destruct (beqb (x :: k0) path) eqn:E; cbn [negb tells].
    + apply beqb_spec in E. subst path. apply holds_leaf. auto.
    + apply beqb_false in E. intros u H. apply holds_leaf in H as [-> _]. congruence.
  - rewrite seen_ext. cbn [traverse]. destruct p as [|x p]; [congruence|]. cbn [is_nil].
    destruct (strip_prefix (x :: p) path) as [r|] eqn:E.
    + apply strip_inv in E. subst path. destruct (IH ltac:(assumption) r) as [_ L]. destruct (traverse (link c) r) as [|u|h rest| |]; cbn [tells] in *.
      * intros u H. apply holds_ext in H as (y & E & H). apply app_inv_head in E. subst y. exact (L u H).
      * apply holds_ext. eauto.
      * destruct L as (q & m & -> & A & E & B & _). exists ((x :: p) ++ q), m. rewrite app_assoc. repeat (split; [first [assumption|reflexivity|constructor; assumption]|]). intros _ Z. discriminate.
      * destruct L as (q & u & A). exists ((x :: p) ++ q), u. constructor. exact A.
      * intros F. apply Forall_app in F as [_ F]. exact (L F).
    + cbn [tells]. intros u H. apply holds_ext in H as (y & -> & _). rewrite strip_app in E. discriminate.
  - rewrite seen_branch. destruct path as [|i rest].
    + cbn [traverse]. destruct v as [v|]; cbn [tells]; [apply holds_top; reflexivity|]. intros u H. apply holds_top in H. discriminate.
    + rewrite traverse_branch, nth_error_map. destruct (nth_error l (N.to_nat i)) as [c|] eqn:E; cbn [option_map].
      2: { cbn [tells]. intros F. inversion F as [|? ? F1 F2]; subst. unfold nibble in F1. apply nth_error_None in E. lia. }
      rewrite Forall_forall in IH. match goal with H : Forall trie l |- _ => rewrite Forall_forall in H; rename H into Fl end. pose proof (nth_error_In _ _ E) as I.
      destruct (IH c I (Fl c I) rest) as [_ L]. destruct (traverse (link c) rest) as [|u|h r| |]; cbn [tells] in *.
      * intros u H. apply holds_branch in H as (c' & E' & H). rewrite E in E'. injection E' as <-. exact (L u H).
      * apply holds_branch. eauto.
      * destruct L as (q & m & -> & A & Eh & B & _). exists (i :: q), m. split; [reflexivity|]. split; [rewrite <- (N2Nat.id i); econstructor; eauto|]. split; [assumption|]. split; [assumption|]. intros _ Z. discriminate.
      * destruct L as (q & u & A). exists (i :: q), u. rewrite <- (N2Nat.id i). econstructor; eauto.
      * intros F. inversion F; subst. contradiction.
Qed.

(** ** The session *)

Notation fetch_content := (fetch_content net).
Notation traverse_loop := (traverse_loop decode_node net).
Definition came (k : state_key) (v : state_value) : Prop := exists i b, net i k = Ok b /\ state_decode k b = Ok v.
Definition cache_ok (s : session) : Prop := forall k v, s_cache s k = Some v -> came k v.
Definition same (s s' : session) : Prop := s_root s' = s_root s /\ s_codes s' = s_codes s.
Lemma same_refl s : same s s. Proof. split; reflexivity. Qed.
Lemma same_trans a b c : same a b -> same b c -> same a c.
Proof. unfold same. intros [-> ->] [-> ->]. auto. Qed.

Lemma key_eqb a b : state_key_eqb a b = true -> a = b.
Proof.
  destruct a, b; cbn; try discriminate; rewrite ?andb_true_iff, ?beqb_spec; intuition congruence.
Qed.
Lemma decode_np k b : state_decode k b <> Panic.
Proof.
  destruct k; cbn [state_decode]; unfold or_else.
  - pose proof (account_np b). pose proof (trie_node_np b). destruct (decode_account_proof b); congruence.
  - pose proof (storage_np b). pose proof (trie_node_np b). destruct (decode_storage_proof b); congruence.
  - pose proof (bytecode_proof_np b). pose proof (bytecode_np b). destruct (decode_bytecode_proof b); congruence.
Qed.
Lemma fetch_ok k s : cache_ok s -> exists s' r, fetch_content k s = Some (s', r) /\ cache_ok s' /\ same s s' /\
  (forall v, r = Ok v -> came k v) /\
  (r = Panic -> exists i, net i k = Panic) /\
  ((forall i, exists b v, net i k = Ok b /\ state_decode k b = Ok v) -> exists v, r = Ok v).
Proof.
  intros C. unfold EvmState_Model.fetch_content. destruct (s_cache s k) as [v|] eqn:E.
  - exists s, (Ok v). split; [reflexivity|]. split; [exact C|]. split; [apply same_refl|]. split; [intros ? [= <-]; exact (C k v E)|]. split; [discriminate|eauto].
  - pose proof (decode_np k) as P. destruct (net (s_requests s) k) as [b| |] eqn:Nt; cbn [obind].
    + specialize (P b). destruct (state_decode k b) as [v| |] eqn:D; [| |congruence].
      * eexists _, (Ok v). split; [reflexivity|]. split; [|split; [split; reflexivity|]; split; [intros ? [= <-]; exists (s_requests s), b; auto|split; [discriminate|eauto]]].
        intros k' v'. cbn [s_cache]. destruct (state_key_eqb k' k) eqn:Q; [|apply C]. apply key_eqb in Q. subst k'. intros [= <-]. exists (s_requests s), b. auto.
      * eexists _, Err. split; [reflexivity|]. split; [exact C|]. split; [split; reflexivity|]. split; [discriminate|]. split; [discriminate|].
        intros H. destruct (H (s_requests s)) as (b' & v' & A & B). congruence.
    + eexists _, Err. split; [reflexivity|]. split; [exact C|]. split; [split; reflexivity|]. split; [discriminate|]. split; [discriminate|].
      intros H. destruct (H (s_requests s)) as (b' & v' & A & B). congruence.
    + eexists _, Panic. split; [reflexivity|]. split; [exact C|]. split; [split; reflexivity|]. split; [discriminate|]. split; [eauto|].
      intros H. destruct (H (s_requests s)) as (b' & v' & A & B). congruence.
Qed.

Lemma strip_suffix_app p r : strip_suffix (p ++ r) r = Some p.
Proof.
  unfold strip_suffix. rewrite app_length. replace (length p + length r - length r)%nat with (length p) by lia.
  rewrite skipn_app_exact, beqb_refl, firstn_app_exact. reflexivity.
Qed.
Lemma unpacked p : Forall nibble p -> (length p <= 64)%nat -> try_from_unpacked p = Ok p.
Proof.
  intros F L. unfold try_from_unpacked. unfold blen. destruct (N.ltb_spec 64 (N.of_nat (length p))); [lia|].
  replace (forallb _ p) with true; [reflexivity|]. symmetry. apply forallb_forall. rewrite Forall_forall in F. intros x I. specialize (F x I). unfold nibble in F. lia.
Qed.

(** The nodes that the network gives for the trie are the trie's. *)
Definition genuine (kf : bytes -> bytes -> state_key) (t : Trie_Model.node) : Prop :=
  forall q cur x, own_entry keccak t q cur -> came (kf q (keccak (enc cur))) (TrieNode x) -> x = enc cur.
(** They are there. *)
Definition present (kf : bytes -> bytes -> state_key) (t : Trie_Model.node) : Prop :=
  forall q cur i, own_entry keccak t q cur -> exists b, net i (kf q (keccak (enc cur))) = Ok b /\ state_decode (kf q (keccak (enc cur))) b = Ok (TrieNode (enc cur)).

Lemma present_value kf t q cur v : present kf t -> own_entry keccak t q cur -> came (kf q (keccak (enc cur))) v -> v = TrieNode (enc cur).
Proof. intros P O (i & b & N1 & D). destruct (P q cur i O) as (b' & N2 & D'). congruence. Qed.
Lemma present_genuine kf t : present kf t -> genuine kf t.
Proof. intros P q cur x O C. pose proof (present_value _ _ _ _ _ P O C) as H. injection H as H. exact H. Qed.

Lemma loop_ok kf t path : reads_back keccak decode_node -> good_trie keccak t -> genuine kf t -> Forall nibble path -> (length path <= 64)%nat ->
  (forall i k, net i k <> Panic) ->
  forall fuel q cur rest s, own_entry keccak t q cur -> path = q ++ rest -> (length rest < fuel)%nat -> cache_ok s ->
  exists s' r, traverse_loop fuel kf path (keccak (enc cur)) rest s = Some (s', r) /\ cache_ok s' /\ same s s' /\ r <> Panic /\
    (forall v, r = Ok (Some v) -> holds t path v) /\
    (r = Ok None -> forall v, ~ holds t path v) /\
    (present kf t -> no_empty_leaf t -> exists v, r = Ok v).
Proof.
  intros R (T & Ft & Fb) G Np Lp NP. induction fuel as [|fuel IH]; intros q cur rest s O Ep Lf C; [lia|].
  cbn [EvmState_Model.traverse_loop].
  assert (E0 : strip_suffix path rest = Some q) by (rewrite Ep; apply strip_suffix_app). rewrite E0.
  rewrite unpacked; [|rewrite Ep in Np; apply Forall_app in Np; apply Np|rewrite Ep, app_length in Lp; lia].
  unfold fetch_trie_node, rbind. destruct (fetch_ok (kf q (keccak (enc cur))) s C) as (s1 & r1 & F1 & C1 & S1 & V1 & P1 & Pr1).
  rewrite F1. destruct r1 as [v1| |].
  2: { eexists _, Err. split; [reflexivity|]. split; [exact C1|]. split; [exact S1|]. split; [discriminate|]. split; [discriminate|]. split; [discriminate|].
       intros P _. destruct Pr1 as [v E]; [|discriminate]. intros i. destruct (P q cur i O) as (b & A & B). eauto. }
  2: { destruct (P1 eq_refl) as [i Hi]. destruct (NP i _ Hi). }
  specialize (V1 v1 eq_refl). unfold rret.
  assert (Hx : exists x, v1 = TrieNode x \/ forall x, v1 <> TrieNode x) by (destruct v1; eauto; exists []; right; discriminate).
  destruct Hx as [x [-> |Hx]].
  2: { destruct v1 as [x0| | | |]; [destruct (Hx x0 eq_refl)| | | |].
       all: eexists _, Err; split; [reflexivity|]; split; [exact C1|]; split; [exact S1|]; split; [discriminate|]; split; [discriminate|]; split; [discriminate|];
         intros P _; pose proof (present_value _ _ _ _ _ P O V1); discriminate. }
  pose proof (G q cur x O V1) as ->. destruct O as [A Own].
  assert (Tc : trie cur) by exact (trie_at _ _ _ A T). rewrite (R cur Tc (Ft q cur A)).
  destruct (traverse_tells cur Tc rest) as [L _].
  assert (Hb : forall v, holds t path v <-> holds cur rest v) by (rewrite Ep; apply holds_below, A).
  destruct (traverse (seen cur) rest) as [|v|h r| |]; cbn [tells] in L.
  - eexists _, (Ok None). split; [reflexivity|]. split; [exact C1|]. split; [exact S1|]. split; [discriminate|]. split; [discriminate|]. split; [|eauto].
    intros _ v H. apply Hb in H. exact (L v H).
  - eexists _, (Ok (Some v)). split; [reflexivity|]. split; [exact C1|]. split; [exact S1|]. split; [discriminate|]. split; [|split; [discriminate|eauto]].
    intros ? [= <-]. apply Hb, L.
  - destruct L as (p & m & -> & Am & -> & Bm & Hp). specialize (Hp eq_refl).
    destruct (IH (q ++ p) m r s1) as (s2 & r2 & E2 & C2 & S2 & X).
    + split; [exact (at_app _ _ _ A _ _ Am)|right; exact Bm].
    + rewrite Ep, app_assoc. reflexivity.
    + rewrite app_length in Lf. destruct p; [congruence|]. cbn [length] in Lf. lia.
    + exact C1.
    + exists s2, r2. split; [exact E2|]. split; [exact C2|]. split; [exact (same_trans _ _ _ S1 S2)|exact X].
  - eexists _, Err. split; [reflexivity|]. split; [exact C1|]. split; [exact S1|]. split; [discriminate|]. split; [discriminate|]. split; [discriminate|].
    intros _ Ne. destruct L as (p & v & Al). destruct (Ne (q ++ p) v (at_app _ _ _ A _ _ Al)).
  - destruct L. rewrite Ep in Np. apply Forall_app in Np. apply Np.
Qed.

Lemma traverse_trie_ok {X} (decode : bytes -> outcome X) kf t h : reads_back keccak decode_node -> good_trie keccak t -> genuine kf t -> hash32 h ->
  (forall i k, net i k <> Panic) -> (forall v, decode v <> Panic) ->
  forall fuel s, (64 < fuel)%nat -> cache_ok s ->
  exists s' r, traverse_trie decode_node net decode fuel (root_hash keccak t) h kf s = Some (s', r) /\ cache_ok s' /\ same s s' /\ r <> Panic /\
    (forall a, r = Ok (Some a) -> exists v, holds t (unpack_nibbles h) v /\ decode v = Ok a) /\
    (r = Ok None -> forall v, ~ holds t (unpack_nibbles h) v) /\
    (present kf t -> no_empty_leaf t -> (forall v, holds t (unpack_nibbles h) v -> exists a, decode v = Ok a) -> exists a, r = Ok a).
Proof.
  intros R T G Hh NP ND fuel s L C.
  assert (Np : Forall nibble (unpack_nibbles h) /\ length (unpack_nibbles h) = 64%nat).
  { destruct Hh as [Lh Bh]. split; [|rewrite unpack_len, Lh; reflexivity].
    eapply Forall_impl; [|apply (pack_unpack_pairs h Bh)]. intros x Lx. unfold nibble. cbn beta in Lx. lia. }
  destruct Np as [Np Ln]. assert (Lp : (length (unpack_nibbles h) <= 64)%nat) by lia.
  destruct (loop_ok kf t (unpack_nibbles h) R T G Np Lp NP fuel [] t (unpack_nibbles h) s) as (s' & r & E & C' & S' & P & V & Nn & Pr).
  { split; [constructor|left; reflexivity]. } { reflexivity. } { lia. } { exact C. }
  unfold EvmState_Model.traverse_trie, rbind. unfold root_hash. rewrite E. destruct r as [[v|]| |].
  - specialize (V v eq_refl). specialize (ND v). unfold rret. destruct (decode v) as [a| |] eqn:D; cbn [omap]; [| |congruence].
    + eexists _, _. split; [reflexivity|]. split; [exact C'|]. split; [exact S'|]. split; [discriminate|]. split; [intros ? [= <-]; eauto|]. split; [discriminate|eauto].
    + eexists _, _. split; [reflexivity|]. split; [exact C'|]. split; [exact S'|]. split; [discriminate|]. split; [discriminate|]. split; [discriminate|].
      intros _ _ H. destruct (H v V) as [a Da]. congruence.
  - eexists _, _. split; [reflexivity|]. split; [exact C'|]. split; [exact S'|]. split; [discriminate|]. split; [discriminate|]. split; [intros _; apply Nn; reflexivity|eauto].
  - eexists _, _. split; [reflexivity|]. split; [exact C'|]. split; [exact S'|]. split; [discriminate|]. split; [discriminate|]. split; [discriminate|].
    intros P1 P2 _. destruct (Pr P1 P2). discriminate.
  - congruence.
Qed.
End Reads.

Lemma string_round_trip b : blen b < 2 ^ 64 -> decode_string (rlp_bytes b) = Ok b.
Proof.
  intros L. unfold decode_string. rewrite <- (app_nil_r (rlp_bytes b)) at 1. rewrite rlp_bytes_ok by exact L. cbn [length]. rewrite Nat.sub_0_r, firstn_all, beqb_refl. reflexivity.
Qed.
Lemma string_np b : decode_string b <> Panic.
Proof. unfold decode_string. destruct (rlp_split b) as [[[[] p] r]|]; try discriminate. destruct (beqb _ _); discriminate. Qed.
Lemma slot_value x : x < 2 ^ 256 -> exists b, decode_string (rlp_uint x) = Ok b /\ blen b <= 32 /\ be_num b = x.
Proof.
  intros L. pose proof (uint_payload x) as B. exists (trim (be_bytes 32 x)). split; [apply string_round_trip; pose proof pow64; lia|]. split; [exact B|].
  rewrite trim_num. apply be_num_be_bytes_id. exact L.
Qed.

Lemma served_hash keccak decode_node decode_account k b v : served keccak decode_node decode_account k b -> state_decode k b = Ok v ->
  match v with TrieNode x => keccak x = wanted k | Bytecode c => keccak c = wanted k | _ => True end.
Proof.
  intros [(b' & Bb & St)|(gr & verdict & V & Nv)] D.
  - apply (C29_stored_valid keccak decode_node decode_account) in St as [V _]; [|exact Bb]. specialize (V (fun _ => Err) true). unfold validate_with in V. rewrite D in V.
    destruct k, v; try exact Logic.I; cbn [wanted] in *; cbn in V; try discriminate; unfold check_node_hash in V;
      match type of V with context [beqb ?x ?y] => destruct (beqb x y) eqn:E; [apply beqb_spec in E; exact E|discriminate] end.
  - unfold validate, validate_with in V. rewrite D in V.
    destruct k, v; try exact Logic.I; cbn [wanted] in *; cbn in V; try (injection V as <-; congruence); unfold check_node_hash in V;
      match type of V with context [beqb ?x ?y] => destruct (beqb x y) eqn:E; [apply beqb_spec in E; exact E|injection V as <-; congruence] end.
Qed.
Lemma encode_node_back k x : (forall a c, k <> ContractBytecode a c) -> node_ok x -> state_decode k (state_encode (TrieNode x)) = Ok (TrieNode x).
Proof.
  intros Nk V. assert (W : state_value_ok k (TrieNode x)) by (destruct k; try exact V; destruct (Nk _ _ eq_refl)).
  apply (read_back _ _ _ (state_round_trip k) _ W).
Qed.
Lemma encode_code_back a h c : code_ok c -> state_decode (ContractBytecode a h) (state_encode (Bytecode c)) = Ok (Bytecode c).
Proof. intros V. apply (read_back _ _ _ (state_round_trip (ContractBytecode a h)) (Bytecode c) V). Qed.

Section Queries.
Context (keccak : bytes -> bytes) (decode_node : bytes -> outcome Trie_Model.node)
        (decode_account : bytes -> outcome account) (raw_ok : bytes -> bool) (net : N -> state_key -> outcome bytes).
Context (t : Trie_Model.node) (storage_of : bytes -> Trie_Model.node) (fuel : nat).
Notation enc := (encode_raw keccak).
Notation account_is := (account_is decode_account).
Context (K : forall x, hash32 (keccak x)) (Rb : reads_back keccak decode_node)
        (Pa : forall v, decode_account v <> Panic) (Pn : forall i k, net i k <> Panic) (Pr : forall c, raw_ok c = true)
        (W : world keccak decode_account t storage_of) (Lf : (64 < fuel)%nat).
Context (G1 : genuine keccak net AccountTrieNode t)
        (G2 : forall h a, account_is t h (Some a) -> genuine keccak net (ContractStorageTrieNode h) (storage_of h))
        (G3 : forall h k c, came net (ContractBytecode h k) (Bytecode c) -> keccak c = k).

Definition inv (s : session) : Prop :=
  cache_ok net s /\ s_root s = root_hash keccak t /\
  forall h ah, s_codes s h = Some ah -> exists a, account_is t ah (Some a) /\ code_hash a = h /\ h <> keccak [].
Definition more (s s' : session) : Prop := forall h ah, s_codes s h = Some ah -> s_codes s' h = Some ah.
Lemma inv_open : inv (open_session (root_hash keccak t)).
Proof. split; [intros k v; discriminate|]. split; [reflexivity|]. intros h ah; discriminate. Qed.
Lemma inv_same s s' : inv s -> cache_ok net s' -> same s s' -> inv s' /\ more s s'.
Proof. intros (C & Rt & Co) C' [S1 S2]. unfold inv, more. rewrite S1, S2. auto. Qed.

Lemma account_state_ok h s : hash32 h -> inv s ->
  exists s' r, account_state keccak decode_node decode_account net fuel h s = Some (s', r) /\ inv s' /\ more s s' /\ r <> Panic /\
    (forall x, r = Ok x -> account_is t h x) /\
    (forall a, r = Ok (Some a) -> code_hash a <> keccak [] -> exists ah, s_codes s' (code_hash a) = Some ah) /\
    (present keccak net AccountTrieNode t -> no_empty_leaf t -> all_accounts decode_account t -> exists x, r = Ok x).
Proof.
  intros Hh I. destruct I as (C & Rt & Co). unfold account_state. rewrite Rt.
  destruct (traverse_trie_ok keccak decode_node net decode_account AccountTrieNode t h Rb (w_trie _ _ _ _ W) G1 Hh Pn Pa fuel s Lf C)
    as (s' & r & E & C' & S' & P & Vs & Vn & Vp).
  unfold rbind at 1. rewrite E. destruct (inv_same s s' (conj C (conj Rt Co)) C' S') as [I' M'].
  destruct r as [[a|]| |]; [| | |congruence].
  - destruct (Vs a eq_refl) as (v & Hv & Dv). destruct (beqb (code_hash a) (keccak [])) eqn:B; cbn [negb].
    + eexists s', (Ok (Some a)). split; [reflexivity|]. split; [exact I'|]. split; [exact M'|]. split; [discriminate|]. split; [|split; [|eauto]].
      * intros x [= <-]. exists v. auto.
      * intros ? [= <-] N. apply beqb_spec in B. congruence.
    + apply beqb_false in B. unfold rbind, note_code, rret. eexists _, (Ok (Some a)). split; [reflexivity|]. split; [|split; [|split; [discriminate|split; [|split]]]].
      * destruct I' as (C1 & R1 & Co1). split; [exact C1|]. split; [exact R1|]. cbn [s_codes]. intros x ah. destruct (beqb x (code_hash a)) eqn:Q.
        -- apply beqb_spec in Q. subst x. destruct (s_codes s' (code_hash a)) as [z|] eqn:Z; intros [= <-]; [apply Co1, Z|]. exists a. split; [exists v; auto|auto].
        -- apply Co1.
      * intros x ah Hx. apply M' in Hx. cbn [s_codes]. rewrite Hx. destruct (beqb x (code_hash a)); reflexivity.
      * intros x [= <-]. exists v. auto.
      * intros ? [= <-] _. cbn [s_codes]. rewrite beqb_refl. destruct (s_codes s' (code_hash a)); eauto.
      * eauto.
  - eexists s', (Ok None). split; [reflexivity|]. split; [exact I'|]. split; [exact M'|]. split; [discriminate|]. split; [|split; [discriminate|eauto]].
    intros x [= <-]. exact (Vn eq_refl).
  - eexists s', Err. split; [reflexivity|]. split; [exact I'|]. split; [exact M'|]. split; [discriminate|]. split; [discriminate|split; [discriminate|]].
    intros P1 P2 P3. destruct (Vp P1 P2) as [x Hx]; [|discriminate]. intros v Hv. exact (P3 _ v Hv).
Qed.

Definition fine (q : query) (r : outcome reply) : Prop :=
  match r with Ok a => right keccak decode_account t storage_of q a | Err => True | Panic => False end.

Lemma basic_ok address s : inv s ->
  exists s' r, ask keccak decode_node decode_account raw_ok net fuel (QBasic address) s = Some (s', r) /\ inv s' /\ more s s' /\ fine (QBasic address) r /\
    (forall a, account_is t (keccak address) (Some a) -> code_hash a <> keccak [] -> r <> Err -> exists ah, s_codes s' (code_hash a) = Some ah) /\
    (present keccak net AccountTrieNode t -> no_empty_leaf t -> all_accounts decode_account t -> r <> Err).
Proof.
  intros I. cbn [ask]. unfold basic. unfold rbind, rret. destruct (account_state_ok (keccak address) s (K _) I) as (s' & r & E & I' & M' & P & V & Cd & Pe).
  rewrite E. destruct r as [[a|]| |]; [| | |congruence].
  - pose proof (V _ eq_refl) as A. eexists s', _. split; [reflexivity|]. split; [exact I'|]. split; [exact M'|]. split; [|split; [|discriminate]].
    + cbn [fine right]. exists a. auto.
    + intros b Hb Nb _. assert (b = a) as ->; [|apply Cd; [reflexivity|exact Nb]].
      destruct A as (v & Hv & Dv), Hb as (w & Hw & Dw). assert (v = w) as ->; [|congruence].
      destruct (w_trie _ _ _ _ W) as (T & _). eapply holds_unique; eassumption.
  - pose proof (V _ eq_refl) as A. eexists s', _. split; [reflexivity|]. split; [exact I'|]. split; [exact M'|]. split; [exact A|split; [|discriminate]].
    intros b (v & Hv & _). destruct (A v Hv).
  - eexists s', Err. split; [reflexivity|]. split; [exact I'|]. split; [exact M'|]. split; [exact Logic.I|split; [congruence|]].
    intros P1 P2 P3. destruct (Pe P1 P2 P3). discriminate.
Qed.

Lemma slot_ok h a index s : account_is t h (Some a) -> inv s ->
  exists s' r, contract_storage_at_slot keccak decode_node net fuel (storage_root a) h index s = Some (s', r) /\ inv s' /\ more s s' /\ r <> Panic /\
    (forall x, r = Ok x -> slot_is keccak (storage_of h) index x) /\
    (present keccak net (ContractStorageTrieNode h) (storage_of h) -> no_empty_leaf (storage_of h) -> r <> Err).
Proof.
  intros A I. destruct (w_storage _ _ _ _ W h a A) as (Er & Gt & Vals). unfold contract_storage_at_slot. rewrite Er.
  destruct (traverse_trie_ok keccak decode_node net decode_string (ContractStorageTrieNode h) (storage_of h) (keccak (b256 index)) Rb Gt (G2 h a A) (K _) Pn string_np fuel s Lf (proj1 I))
    as (s' & r & E & C' & S' & P & Vs & Vn & Vp).
  destruct (inv_same s s' I C' S') as [I' M']. unfold rbind. rewrite E. unfold rret. destruct r as [[b|]| |]; [| | |congruence].
  - destruct (Vs b eq_refl) as (v & Hv & Dv). destruct (Vals _ v Hv) as (x & Bx & ->). destruct (slot_value x) as (b' & D' & L' & Nb); [apply Bx|].
    rewrite D' in Dv. injection Dv as ->. destruct (N.ltb_spec 32 (blen b)); [lia|]. rewrite Nb. eexists s', (Ok x).
    split; [reflexivity|]. split; [exact I'|]. split; [exact M'|]. split; [discriminate|]. split; [|discriminate].
    intros ? [= <-]. unfold slot_is. destruct x; [lia|]. exact Hv.
  - change (32 <? blen []) with false. change (be_num []) with 0. eexists s', (Ok 0). split; [reflexivity|]. split; [exact I'|]. split; [exact M'|]. split; [discriminate|]. split; [|discriminate].
    intros ? [= <-]. exact (Vn eq_refl).
  - eexists s', Err. split; [reflexivity|]. split; [exact I'|]. split; [exact M'|]. split; [discriminate|]. split; [discriminate|].
    intros P1 P2. destruct (Vp P1 P2) as [x Hx]; [|discriminate]. intros v Hv. destruct (Vals _ v Hv) as (x & Bx & ->). destruct (slot_value x) as (b' & D' & _); [apply Bx|eauto].
Qed.
Lemma storage_ok address index s : inv s ->
  exists s' r, ask keccak decode_node decode_account raw_ok net fuel (QStorage address index) s = Some (s', r) /\ inv s' /\ more s s' /\ fine (QStorage address index) r /\
    (forall a, account_is t (keccak address) (Some a) -> code_hash a <> keccak [] -> r <> Err -> exists ah, s_codes s' (code_hash a) = Some ah) /\
    (present keccak net AccountTrieNode t -> no_empty_leaf t -> all_accounts decode_account t ->
     (forall a, account_is t (keccak address) (Some a) -> present keccak net (ContractStorageTrieNode (keccak address)) (storage_of (keccak address)) /\ no_empty_leaf (storage_of (keccak address))) -> r <> Err).
Proof.
  intros I. cbn [ask]. unfold storage. unfold rbind. destruct (account_state_ok (keccak address) s (K _) I) as (s1 & r1 & E & I1 & M1 & P1 & V1 & Cd & Pe).
  rewrite E. destruct r1 as [[a|]| |]; [| | |congruence].
  - pose proof (V1 _ eq_refl) as A. destruct (slot_ok (keccak address) a index s1 A I1) as (s2 & r2 & E2 & I2 & M2 & P2 & V2 & Pe2). rewrite E2.
    assert (Uq : forall b, account_is t (keccak address) (Some b) -> b = a).
    { intros b Hb. destruct A as (v & Hv & Dv), Hb as (w & Hw & Dw). assert (v = w) as ->; [|congruence].
      destruct (w_trie _ _ _ _ W) as (T & _). eapply holds_unique; eassumption. }
    destruct r2 as [x| |]; [| |congruence]; unfold rret; eexists s2, _; (split; [reflexivity|]); (split; [exact I2|]); (split; [intros h ah H; apply M2, M1, H|]); (split; [|split]).
    + cbn [fine right]. right. exists a. split; [exact A|]. apply V2. reflexivity.
    + intros b Hb Nb _. rewrite (Uq b Hb) in *. destruct (Cd a eq_refl Nb) as [ah H]. exists ah. apply M2, H.
    + discriminate.
    + exact Logic.I.
    + congruence.
    + intros Q1 Q2 Q3 Q4. destruct (Q4 a A) as [Q5 Q6]. intros _. exact (Pe2 Q5 Q6 eq_refl).
  - pose proof (V1 _ eq_refl) as A. unfold rret. eexists s1, _. split; [reflexivity|]. split; [exact I1|]. split; [exact M1|]. split; [cbn; auto|split; [|discriminate]].
    intros b (v & Hv & _). destruct (A v Hv).
  - eexists s1, Err. split; [reflexivity|]. split; [exact I1|]. split; [exact M1|]. split; [exact Logic.I|split; [congruence|]].
    intros Q1 Q2 Q3 _. destruct (Pe Q1 Q2 Q3). discriminate.
Qed.
Lemma code_ok' h s : inv s ->
  exists s' r, ask keccak decode_node decode_account raw_ok net fuel (QCode h) s = Some (s', r) /\ inv s' /\ more s s' /\ fine (QCode h) r /\
    (h = keccak [] -> r = Ok (ACode [])) /\
    ((forall ah a, account_is t ah (Some a) -> code_hash a <> keccak [] ->
        exists c, code_for keccak c (code_hash a) /\ forall i, net i (ContractBytecode ah (code_hash a)) = Ok (state_encode (Bytecode c))) ->
     (exists ah, s_codes s h = Some ah) -> r <> Err).
Proof.
  intros I. cbn [ask]. unfold code_by_hash, rbind at 1. destruct (beqb h (keccak [])) eqn:B.
  - apply beqb_spec in B. unfold rret. eexists s, _. split; [reflexivity|]. split; [exact I|]. split; [intros ? ? H; exact H|]. split; [cbn; auto|]. split; [reflexivity|discriminate].
  - apply beqb_false in B. destruct (s_codes s h) as [ah|] eqn:Ec.
    2: { eexists s, Err. split; [reflexivity|]. split; [exact I|]. split; [intros ? ? H; exact H|]. split; [exact Logic.I|]. split; [congruence|]. intros _ [ah H]. discriminate. }
    pose proof I as (C & _ & Co). destruct (Co h ah Ec) as (a & A & Ha & _).
    unfold contract_bytecode, rbind. destruct (fetch_ok keccak decode_node net (ContractBytecode ah h) s C) as (s1 & r1 & E1 & C1 & S1 & V1 & P1 & Pr1). rewrite E1.
    destruct (inv_same s s1 I C1 S1) as [I1 M1]. destruct r1 as [v| |].
    + specialize (V1 v eq_refl). unfold rret.
      assert (Hx : exists c, v = Bytecode c \/ forall x, v <> Bytecode x) by (destruct v; eauto; exists []; right; discriminate).
      destruct Hx as [c [-> |Hx]].
      * rewrite Pr. eexists s1, _. split; [reflexivity|]. split; [exact I1|]. split; [exact M1|]. split; [cbn; exact (G3 ah h c V1)|]. split; [congruence|discriminate].
      * destruct v as [| | |x0|]; [| | |destruct (Hx x0 eq_refl)|].
        all: eexists s1, Err; split; [reflexivity|]; split; [exact I1|]; split; [exact M1|]; split; [exact Logic.I|]; split; [congruence|];
          intros Q _; destruct (Q ah a A) as (c' & [_ Oc] & Nc); [congruence|]; destruct V1 as (i & b & Ni & Di); rewrite <- Ha in Ni, Di; rewrite Nc in Ni; assert (Eb : b = state_encode (Bytecode c')) by congruence; rewrite Eb in Di;
          rewrite (encode_code_back ah (code_hash a) c' Oc) in Di; discriminate.
    + eexists s1, Err. split; [reflexivity|]. split; [exact I1|]. split; [exact M1|]. split; [exact Logic.I|]. split; [congruence|].
      intros Q _. destruct (Q ah a A) as (c' & [_ Oc] & Nc); [congruence|]. destruct Pr1 as [v Hv]; [|discriminate]. intros i. rewrite <- Ha. eexists _, _. split; [apply Nc|apply encode_code_back, Oc].
    + destruct (P1 eq_refl) as [i Hi]. destruct (Pn _ _ Hi).
Qed.
Lemma ask_ok q s : inv s -> exists s' r, ask keccak decode_node decode_account raw_ok net fuel q s = Some (s', r) /\ inv s' /\ more s s' /\ fine q r.
Proof.
  intros I. destruct q as [a|h|a i].
  - destruct (basic_ok a s I) as (s' & r & E & I' & M & F & _). eauto 6.
  - destruct (code_ok' h s I) as (s' & r & E & I' & M & F & _). eauto 6.
  - destruct (storage_ok a i s I) as (s' & r & E & I' & M & F & _). eauto 6.
Qed.
Lemma all_ok_run qs : forall s, inv s -> exists s' rs, ask_all keccak decode_node decode_account raw_ok net fuel qs s = Some (s', rs) /\ inv s' /\ more s s' /\ Forall2 fine qs rs.
Proof.
  induction qs as [|q qs IH]; intros s I; cbn [ask_all].
  - exists s, []. split; [reflexivity|]. split; [exact I|]. split; [intros ? ? H; exact H|constructor].
  - destruct (ask_ok q s I) as (s1 & r & E & I1 & M1 & F). rewrite E. destruct (IH s1 I1) as (s2 & rs & E2 & I2 & M2 & F2). rewrite E2. cbn [option_map fst snd].
    exists s2, (r :: rs). split; [reflexivity|]. split; [exact I2|]. split; [intros h ah H; apply M2, M1, H|constructor; assumption].
Qed.
End Queries.
