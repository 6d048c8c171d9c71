(** Properties C29, C30 and C71: the content of the state network. *)
From Verif Require Import Base Ssz_Model Ssz_Proofs Keys_Model Keys_Spec Keys_Proofs Keys_Props Distance_Model Distance_Spec
  Store_Model Store_Spec Store_Props Trie_Model Trie_Spec Trie_Proofs Trie_Props StateContent_Model StateContent_Spec StateContent_Proofs.

(** C71: whatever the key, a value that may stand under it is read back from its bytes; whatever
    is read is such a value and has those bytes, so a bare value is never taken for one with a proof;
    and no bytes crash the decoder. *)
Theorem C71_round_trip : forall k, unambiguous (state_value_ok k) state_encode (state_decode k).
Proof. exact state_round_trip. Qed.
Print Assumptions C71_round_trip.
Example C71_case :
  state_decode (AccountTrieNode [] (repeat 1 32)) (state_encode (AccountTrieNodeWithProof [[7; 8]; []; [9]] (repeat 2 32)))
    = Ok (AccountTrieNodeWithProof [[7; 8]; []; [9]] (repeat 2 32)) /\
  state_decode (AccountTrieNode [] (repeat 1 32)) (state_encode (TrieNode [7; 8])) = Ok (TrieNode [7; 8]).
Proof. split; reflexivity. Qed.

Section State.
Context (keccak : bytes -> bytes) (decode_node : bytes -> outcome node) (decode_account : bytes -> outcome account).
Notation enc := (encode_raw keccak).
Notation validate_with := (validate_with keccak decode_node decode_account).
Notation validate := (validate keccak decode_node decode_account).
Notation stored_form := (stored_form keccak).

Lemma put_node_ok p h s : put_node keccak p h = Ok s <-> (p <> [] /\ keccak (last p []) = h) /\ s = state_encode (TrieNode (last p [])).
Proof.
  unfold put_node. destruct p as [|x p]; [split; [discriminate|intros [[] _]; congruence]|].
  destruct (beqb (keccak (last (x :: p) [])) h) eqn:E; cbn [negb].
  - apply beqb_spec in E. split; [intros [= <-]|intros [_ ->]]; repeat split; auto; discriminate.
  - split; [discriminate|]. intros [[_ H] _]. apply (proj2 (beqb_spec _ _)) in H. congruence.
Qed.

(** C29: storing keeps the last node of the proof, or the code, and nothing else; it succeeds
    exactly when the value comes with a proof and what it is about has the key's hash. *)
Theorem C29_put : forall k b s,
  stored_form k b = Ok s <->
  exists v x, state_decode k b = Ok v /\ carries v x /\ keccak x = wanted k /\ s = state_encode (bare k x).
Proof.
  intros k b s. unfold StateContent_Model.stored_form. destruct (state_decode k b) as [v| |] eqn:D; cbn [obind].
  2, 3: split; [discriminate|intros (? & ? & E & _); discriminate].
  assert (U : forall v', Ok v = Ok v' -> v' = v) by (intros ? [= ->]; reflexivity).
  assert (Kind : match k, v with
    | ContractBytecode _ _, (Bytecode _ | BytecodeWithProof _ _ _) | AccountTrieNode _ _, (TrieNode _ | AccountTrieNodeWithProof _ _)
    | ContractStorageTrieNode _ _ _, (TrieNode _ | ContractStorageTrieNodeWithProof _ _ _) => True | _, _ => False end).
  { clear U. assert (A : forall b v, decode_account_proof b = Ok v -> exists p h, v = AccountTrieNodeWithProof p h).
    { clear. intros b v H. unfold decode_account_proof in H. apply obind_ok in H as (? & _ & H). apply obind_ok in H as (? & _ & H). injection H as <-. eauto. }
    assert (B : forall b v, decode_storage_proof b = Ok v -> exists p a h, v = ContractStorageTrieNodeWithProof p a h).
    { clear. intros b v H. unfold decode_storage_proof in H. apply obind_ok in H as (? & _ & H). apply obind_ok in H as (? & _ & H). apply obind_ok in H as (? & _ & H). injection H as <-. eauto. }
    assert (C : forall b v, decode_bytecode_proof b = Ok v -> exists p a h, v = BytecodeWithProof p a h).
    { clear. intros b v H. unfold decode_bytecode_proof in H. apply obind_ok in H as (? & _ & H). apply obind_ok in H as (? & _ & H). apply obind_ok in H as (? & _ & H). injection H as <-. eauto. }
    assert (T : forall b v, decode_trie_node b = Ok v -> exists n, v = TrieNode n).
    { clear. intros b v H. unfold decode_trie_node in H. apply obind_ok in H as (? & _ & H). apply omap_ok in H as (? & _ & <-). eauto. }
    assert (Y : forall b v, decode_bytecode b = Ok v -> exists n, v = Bytecode n).
    { clear. intros b v H. unfold decode_bytecode in H. apply obind_ok in H as (? & _ & H). apply omap_ok in H as (? & _ & <-). eauto. }
    destruct k; cbn [state_decode] in D;
      [destruct (decode_account_proof b) eqn:E|destruct (decode_storage_proof b) eqn:E|destruct (decode_bytecode_proof b) eqn:E]; cbn [or_else] in D; try discriminate;
      try (injection D as ->).
    - apply A in E as (? & ? & ->). exact I.
    - apply T in D as (? & ->). exact I.
    - apply B in E as (? & ? & ? & ->). exact I.
    - apply T in D as (? & ->). exact I.
    - apply C in E as (? & ? & ? & ->). exact I.
    - apply Y in D as (? & ->). exact I. }
  destruct k as [p h|a p h|a h], v as [n|q g|t q g|c|c q g]; try contradiction; clear Kind.
  1, 3, 5: split; [discriminate|intros (v' & x & E & C & _); apply U in E; subst v'; contradiction].
  - rewrite put_node_ok. split.
    + intros [[Q E] ->]. exists (AccountTrieNodeWithProof q g), (last q []). cbn. auto.
    + intros (v' & x & E & C & W & ->). apply U in E. subst v'. destruct C as [Q <-]. cbn in W |- *. auto.
  - rewrite put_node_ok. split.
    + intros [[Q E] ->]. exists (ContractStorageTrieNodeWithProof t q g), (last t []). cbn. auto.
    + intros (v' & x & E & C & W & ->). apply U in E. subst v'. destruct C as [Q <-]. cbn in W |- *. auto.
  - destruct (beqb (keccak c) h) eqn:E; cbn [negb].
    + apply beqb_spec in E. split.
      * intros [= <-]. exists (BytecodeWithProof c q g), c. cbn. auto.
      * intros (v' & x & F & C & W & ->). apply U in F. subst v'. cbn in C. subst x. reflexivity.
    + split; [discriminate|]. intros (v' & x & F & C & W & ->). apply U in F. subst v'. cbn in C, W. subst x h. rewrite beqb_refl in E. discriminate.
Qed.

Lemma carries_last k b v x : bytes_ok b -> state_decode k b = Ok v -> carries v x -> bytes_ok x /\ state_value_ok k (bare k x).
Proof.
  intros Hb D C. apply (only_own_bytes _ _ _ (state_round_trip k)) in D as [V _]; [|exact Hb].
  assert (L : forall p, proof_ok p -> p <> [] -> node_ok (last p [])).
  { intros p [_ F] Q. rewrite Forall_forall in F. apply F. destruct p; [congruence|]. rewrite last_cons. apply last_in. }
  destruct k as [p h|a p h|a h], v as [n|q g|t q g|c|c q g]; try contradiction; cbn [state_value_ok] in V; cbn [bare state_value_ok].
  - destruct C as [Q <-]. pose proof (L q (proj1 V) Q) as O. split; [apply O|exact O].
  - destruct C as [Q <-]. pose proof (L t (proj1 V) Q) as O. split; [apply O|exact O].
  - cbn in C. subst x. split; apply V.
Qed.
Lemma bare_valid flag root k x : state_value_ok k (bare k x) -> keccak x = wanted k ->
  validate_with root flag k (state_encode (bare k x)) = Ok Valid.
Proof.
  intros V W. unfold StateContent_Model.validate_with. destruct (read_back _ _ _ (state_round_trip k) _ V) as [_ D].
  rewrite D. destruct k as [p h|a p h|a h]; cbn [bare wanted] in *;
    cbn [validate_account_trie_node validate_contract_storage_trie_node validate_contract_bytecode]; unfold check_node_hash; rewrite W, beqb_refl; reflexivity.
Qed.
(** What is stored is itself valid content for the key, to every validator, whatever it knows of
    headers; it is not proven canonical, and cannot be put again. *)
Theorem C29_stored_valid : forall k b s, bytes_ok b -> stored_form k b = Ok s ->
  (forall root flag, validate_with root flag k s = Ok Valid) /\ stored_form k s = Err.
Proof.
  intros k b s Hb H. apply C29_put in H as (v & x & D & C & W & ->). destruct (carries_last k b v x Hb D C) as [Bx V]. split.
  - intros root flag. apply bare_valid; assumption.
  - destruct (read_back _ _ _ (state_round_trip k) _ V) as [_ E]. unfold StateContent_Model.stored_form. rewrite E.
    destruct k; reflexivity.
Qed.

(** Whatever validation calls canonical is stored. *)
Lemma node_proof_last root h path p u : validate_node_trie_proof keccak decode_node root h path p = Ok u -> p <> [] /\ keccak (last p []) = h.
Proof.
  unfold validate_node_trie_proof. intros V. apply obind_inv in V. destruct V as ([f r] & V & C). cbn [fst snd] in C.
  destruct (negb (is_nil r)); [discriminate|]. destruct u. apply check_ok in C. destruct p as [|x p]; [discriminate|]. split; [discriminate|].
  cbn [validate_trie_proof] in V. apply obind_inv in V. destruct V as (_ & _ & V). apply follow_last in V. rewrite last_cons, <- V. exact C.
Qed.
Theorem C29_canonical_stored : forall k b root flag,
  validate_with root flag k b = Ok CanonicallyValid -> exists s, stored_form k b = Ok s.
Proof.
  intros k b root flag H. unfold StateContent_Model.validate_with in H. destruct (state_decode k b) as [v| |] eqn:D; try discriminate.
  assert (P : exists x, carries v x /\ keccak x = wanted k).
  { destruct k as [p h|a p h|a h], v as [n|q g|t q g|c|c q g]; try discriminate;
      cbn [validate_account_trie_node validate_contract_storage_trie_node validate_contract_bytecode] in H.
    - unfold check_node_hash in H. destruct (beqb (keccak n) h); discriminate.
    - destruct (state_root root flag g) as [r| |]; try discriminate. cbn [obind] in H.
      destruct (validate_node_trie_proof keccak decode_node r h p q) as [u| |] eqn:V; try discriminate. apply node_proof_last in V. exists (last q []). cbn. tauto.
    - unfold check_node_hash in H. destruct (beqb (keccak n) h); discriminate.
    - destruct (state_root root flag g) as [r| |]; try discriminate. cbn [obind] in H.
      destruct (validate_account_state _ _ _ _ _ _) as [st| |]; try discriminate. cbn [obind] in H.
      destruct (validate_node_trie_proof keccak decode_node _ h p t) as [u| |] eqn:V; try discriminate. apply node_proof_last in V. exists (last t []). cbn. tauto.
    - destruct (beqb (keccak c) h); discriminate.
    - destruct (beqb (keccak c) h) eqn:E; [|discriminate]. apply beqb_spec in E. exists c. cbn. auto. }
  destruct P as (x & C & W). exists (state_encode (bare k x)). apply C29_put. eauto 6.
Qed.

(** Content that a validator accepts without a proof is the node or code with the key's hash; so
    two such values differ only if two different byte strings have that hash. *)
Theorem C29_valid_form : forall k b root flag, bytes_ok b ->
  validate_with root flag k b = Ok Valid <-> exists x, state_value_ok k (bare k x) /\ b = state_encode (bare k x) /\ keccak x = wanted k.
Proof.
  intros k b root flag Hb. split; [|intros (x & V & -> & W); apply bare_valid; assumption].
  intros H. unfold StateContent_Model.validate_with in H. destruct (state_decode k b) as [v| |] eqn:D; try discriminate.
  apply (only_own_bytes _ _ _ (state_round_trip k)) in D as [V <-]; [|exact Hb].
  destruct k as [p h|a p h|a h], v as [n|q g|t q g|c|c q g]; try contradiction;
      cbn [validate_account_trie_node validate_contract_storage_trie_node validate_contract_bytecode] in H.
  - unfold check_node_hash in H. destruct (beqb (keccak n) h) eqn:E; [|discriminate]. apply beqb_spec in E. exists n. cbn. auto.
  - destruct (state_root root flag g) as [r| |]; try discriminate. cbn [obind] in H. destruct (validate_node_trie_proof _ _ _ _ _ _); discriminate.
  - unfold check_node_hash in H. destruct (beqb (keccak n) h) eqn:E; [|discriminate]. apply beqb_spec in E. exists n. cbn. auto.
  - destruct (state_root root flag g) as [r| |]; try discriminate. cbn [obind] in H.
    destruct (validate_account_state _ _ _ _ _ _) as [st| |]; try discriminate. cbn [obind] in H. destruct (validate_node_trie_proof _ _ _ _ _ _); discriminate.
  - destruct (beqb (keccak c) h) eqn:E; [|discriminate]. apply beqb_spec in E. exists c. cbn. auto.
  - destruct (beqb (keccak c) h); [|discriminate]. cbn [negb] in H. destruct (state_root root flag g) as [r| |]; try discriminate. cbn [obind] in H.
    destruct (validate_account_state _ _ _ _ _ _) as [st| |]; try discriminate. cbn [obind] in H. destruct (beqb (code_hash st) h); discriminate.
Qed.

(** Over any history of puts of any bytes, restarts and crashes: what is read for a key is valid
    for that key, unless a different key with the same SHA-256 was put. *)
Definition puts (k : state_key) (o : state_op) : Prop :=
  match o with SPut _ _ k' _ | SCrash _ _ k' _ _ _ _ _ => k' = k | SReopen _ _ _ => False end.
Theorem C29_read_back : forall sha, (forall x, id32 (sha x)) ->
  forall c ties durs s0 ops s k value,
    config_ok c -> fst (create c ties durs []) = Ok s0 -> Forall state_op_ok ops -> state_run keccak sha s0 ops = Some s ->
    state_valid k -> state_get sha k s = Some value ->
    (exists x, value = state_encode (bare k x) /\ keccak x = wanted k /\ forall root flag, validate_with root flag k value = Ok Valid) \/
    (exists o k', In o ops /\ puts k' o /\ k' <> k /\ state_to_bytes k' <> state_to_bytes k /\ sha (state_to_bytes k') = sha (state_to_bytes k)).
Proof.
  intros sha Hs c ties durs s0 ops s k value Hc Cr Ops R Vk G.
  set (tr := fun o => match o with
    | SPut t d k b => match StateContent_Model.stored_form keccak k b with Ok v => [OInsert t d (state_to_bytes k) v] | _ => [] end
    | SReopen c t d => [OReopen c t d]
    | SCrash t d k b n c t' d' => match StateContent_Model.stored_form keccak k b with Ok v => [OCrash t d (state_to_bytes k) v n c t' d'] | _ => [OReopen c t' d'] end
    end).
  assert (Ro : forall l1 l2 s1, run sha s1 (l1 ++ l2) = match run sha s1 l1 with Some s2 => run sha s2 l2 | None => None end).
  { clear. induction l1 as [|o l1 IH]; intros l2 s1; [reflexivity|]. cbn [app run]. destruct (step sha s1 o); [apply IH|reflexivity]. }
  assert (T : forall ops s1, state_run keccak sha s1 ops = run sha s1 (flat_map tr ops)).
  { clear - Ro. induction ops as [|o ops IH]; intros s1; [reflexivity|]. cbn [state_run flat_map]. rewrite Ro.
    assert (E : run sha s1 (tr o) = state_step keccak sha s1 o).
    { destruct o as [t d k b|c t d|t d k b n c t' d']; cbn [tr state_step].
      - destruct (StateContent_Model.stored_form keccak k b); reflexivity.
      - cbn [run]. destruct (step sha s1 (OReopen c t d)); reflexivity.
      - destruct (StateContent_Model.stored_form keccak k b); cbn [run]; match goal with |- match ?x with _ => _ end = _ => destruct x; reflexivity end. }
    rewrite E. destruct (state_step keccak sha s1 o); [apply IH|reflexivity]. }
  rewrite T in R.
  assert (Ok' : Forall op_ok (flat_map tr ops)).
  { clear - Ops. induction Ops as [|o ops O F IH]; [constructor|]. cbn [flat_map]. apply Forall_app. split; [|exact IH].
    destruct o as [t d k b|c t d|t d k b n c t' d']; cbn [tr state_op_ok] in *.
    - destruct (StateContent_Model.stored_form keccak k b); repeat constructor.
    - constructor; [exact O|constructor].
    - destruct (StateContent_Model.stored_form keccak k b); (constructor; [apply O|constructor]). }
  destruct (C11_lookup_history sha Hs c ties durs s0 _ s (state_id sha k) value Hc Cr Ok' R G) as (pre & o' & post & key & E & Id & Ins & _).
  assert (In' : In o' (flat_map tr ops)) by (rewrite E; apply in_or_app; right; left; reflexivity).
  apply in_flat_map in In' as (o & Io & It).
  assert (P : exists k' b, puts k' o /\ state_valid k' /\ bytes_ok b /\ key = state_to_bytes k' /\ StateContent_Model.stored_form keccak k' b = Ok value).
  { pose proof (proj1 (Forall_forall _ _) Ops o Io) as Oo. clear - It Ins Oo. destruct o as [t d k' b|c t d|t d k' b n c t' d']; cbn [tr state_op_ok] in *.
    - destruct (StateContent_Model.stored_form keccak k' b) as [v| |] eqn:F; cbn [In] in It; try contradiction. destruct It as [It|[]]. subst o'.
      destruct Ins as [(t1 & d1 & X)|(? & ? & ? & ? & ? & ? & ?)]; [|discriminate]. injection X as _ _ <- <-. exists k', b. cbn. tauto.
    - destruct It as [It|[]]. subst o'. destruct Ins as [(? & ? & ?)|(? & ? & ? & ? & ? & ? & ?)]; discriminate.
    - destruct (StateContent_Model.stored_form keccak k' b) as [v| |] eqn:F; cbn [In] in It; destruct It as [It|[]]; subst o'.
      + destruct Ins as [(? & ? & ?)|(t1 & d1 & n1 & c1 & t2 & d2 & X)]; [discriminate|]. injection X as _ _ <- <- _ _ _ _. exists k', b. cbn. tauto.
      + destruct Ins as [(? & ? & ?)|(? & ? & ? & ? & ? & ? & ?)]; discriminate.
      + destruct Ins as [(? & ? & ?)|(? & ? & ? & ? & ? & ? & ?)]; discriminate. }
  destruct P as (k' & b & Pu & Vk' & Bb & -> & F).
  destruct (C26_content_id sha _ _ _ _ C26_state k' k Vk' Vk Id) as [->|[N1 N2]].
  - left. pose proof F as F'. apply C29_put in F' as (v & x & D & C & W & ->). exists x. split; [reflexivity|]. split; [exact W|].
    eapply C29_stored_valid; eauto.
  - right. exists o, k'. repeat split; auto. intros ->. congruence.
Qed.

(** C30: with the check of headers on, canonical content is part of the state of the block it names:
    for every state trie with the root of that block's header, *)
Definition forged_in (t : node) (v : state_value) : Prop :=
  match v with
  | AccountTrieNodeWithProof p _ | BytecodeWithProof _ p _ | ContractStorageTrieNodeWithProof _ p _ => forged keccak t p
  | _ => False
  end.
Lemma proof_ok_sized p : proof_ok p -> sized p.
Proof. intros [_ F]. unfold sized. eapply Forall_impl; [|exact F]. intros x [L _]. exact L. Qed.
Theorem C30_checked : reads_back keccak decode_node ->
  forall get_state_root k b, bytes_ok b ->
  validate_with get_state_root false k b = Ok CanonicallyValid ->
  exists v block root x, state_decode k b = Ok v /\ names v block /\ get_state_root block = Ok root /\ carries v x /\ keccak x = wanted k /\
    forall t, trie t -> root_hash keccak t = root -> forged_in t v \/
      match k with
      (* the node is at that path of the state trie *)
      | AccountTrieNode path _ => exists s, at_path t path s /\ x = enc s
      (* the account is in the state trie, and the node at that path of the account's storage trie *)
      | ContractStorageTrieNode address path _ => exists blob a, holds t (unpack_nibbles address) blob /\ decode_account blob = Ok a /\
          forall t', trie t' -> root_hash keccak t' = storage_root a ->
            (exists s, at_path t' path s /\ x = enc s) \/
            match v with ContractStorageTrieNodeWithProof p _ _ => forged keccak t' p | _ => False end
      (* the account is in the state trie and has that code *)
      | ContractBytecode address _ => exists blob a, holds t (unpack_nibbles address) blob /\ decode_account blob = Ok a /\ code_hash a = keccak x
      end.
Proof.
  intros R gr k b Hb H. unfold StateContent_Model.validate_with in H. destruct (state_decode k b) as [v| |] eqn:D; try discriminate.
  pose proof (only_own_bytes _ _ _ (state_round_trip k) _ _ Hb D) as [V _].
  exists v. destruct k as [p h|a p h|a h], v as [n|q g|st q g|c|c q g]; try contradiction;
      cbn [validate_account_trie_node validate_contract_storage_trie_node validate_contract_bytecode] in H; cbn [state_value_ok] in V.
  - unfold check_node_hash in H. destruct (beqb (keccak n) h); discriminate.
  - unfold state_root in H. destruct (gr g) as [r| |] eqn:Rt; try discriminate. cbn [omap obind] in H.
    destruct (validate_node_trie_proof keccak decode_node (Some r) h p q) as [u| |] eqn:N; try discriminate. destruct u.
    exists g, r, (last q []). pose proof (node_proof_last _ _ _ _ _ N) as [Q L]. repeat split; auto. intros t T E. subst r.
    destruct (C28_node_sound keccak decode_node R t p h q T (proof_ok_sized q (proj1 V)) N) as [(s & A & _ & X)|F]; [right; eauto|left; exact F].
  - unfold check_node_hash in H. destruct (beqb (keccak n) h); discriminate.
  - unfold state_root in H. destruct (gr g) as [r| |] eqn:Rt; try discriminate. cbn [omap obind] in H.
    destruct (validate_account_state keccak decode_node decode_account (Some r) a q) as [ac| |] eqn:Ac; try discriminate. cbn [obind] in H.
    destruct (validate_node_trie_proof keccak decode_node (Some (storage_root ac)) h p st) as [u| |] eqn:N; try discriminate. destruct u.
    exists g, r, (last st []). pose proof (node_proof_last _ _ _ _ _ N) as [Q L]. destruct V as (V1 & V2 & V3). repeat split; auto. intros t T E. subst r.
    destruct (C28_account_sound keccak decode_node decode_account R t a q ac T (proof_ok_sized q V2) Ac) as [(blob & Ho & De)|F]; [right|left; exact F].
    exists blob, ac. split; [exact Ho|]. split; [exact De|]. intros t' T' E'. rewrite <- E' in N.
    destruct (C28_node_sound keccak decode_node R t' p h st T' (proof_ok_sized st V1) N) as [(s & A & _ & X)|F]; [left; eauto|right; exact F].
  - destruct (beqb (keccak c) h); discriminate.
  - destruct (beqb (keccak c) h) eqn:K; [|discriminate]. apply beqb_spec in K. cbn [negb] in H.
    unfold state_root in H. destruct (gr g) as [r| |] eqn:Rt; try discriminate. cbn [omap obind] in H.
    destruct (validate_account_state keccak decode_node decode_account (Some r) a q) as [ac| |] eqn:Ac; try discriminate. cbn [obind] in H.
    destruct (beqb (code_hash ac) h) eqn:Ch; [|discriminate]. apply beqb_spec in Ch.
    exists g, r, c. repeat split; auto. intros t T E. subst r.
    destruct (C28_account_sound keccak decode_node decode_account R t a q ac T (proof_ok_sized q (proj1 (proj2 V))) Ac) as [(blob & Ho & De)|F]; [right|left; exact F].
    exists blob, ac. repeat split; auto. congruence.
Qed.

(** The code runs with the check off.  Then canonical content is only known to be part of the
    state with some root, which the value itself brings along, *)
Theorem C30_actual_partial : forall get_state_root k b,
  validate get_state_root k b = Ok CanonicallyValid ->
  exists root, validate_with (fun _ => Ok root) false k b = Ok CanonicallyValid.
Proof.
  intros gr k b H. unfold StateContent_Model.validate, StateContent_Model.validate_with in *.
  destruct (state_decode k b) as [v| |]; try discriminate.
  assert (A : forall path p r, validate_trie_proof keccak decode_node None path p = Ok r ->
    forall q, validate_trie_proof keccak decode_node (Some (keccak (hd [] p))) q p = validate_trie_proof keccak decode_node None q p).
  { intros path p r V q. destruct p as [|x p]; [discriminate|]. cbn [validate_trie_proof hd]. unfold check_node_hash. rewrite beqb_refl. reflexivity. }
  destruct k as [p h|a p h|a h], v as [n|q g|st q g|c|c q g]; try discriminate;
      cbn [validate_account_trie_node validate_contract_storage_trie_node validate_contract_bytecode] in *.
  - unfold check_node_hash in H. destruct (beqb (keccak n) h); discriminate.
  - exists (keccak (hd [] q)). unfold state_root in *. cbn [omap obind] in *. unfold validate_node_trie_proof in *.
    destruct (validate_trie_proof keccak decode_node None p q) as [r| |] eqn:V; try discriminate. rewrite (A _ _ _ V), V. exact H.
  - unfold check_node_hash in H. destruct (beqb (keccak n) h); discriminate.
  - exists (keccak (hd [] q)). unfold state_root in *. cbn [omap obind] in *. unfold validate_account_state in *.
    destruct (validate_trie_proof keccak decode_node None (unpack_nibbles a) q) as [r| |] eqn:V; try discriminate. rewrite (A _ _ _ V), V. exact H.
  - destruct (beqb (keccak c) h); discriminate.
  - destruct (beqb (keccak c) h); [|discriminate]. cbn [negb] in *.
    exists (keccak (hd [] q)). unfold state_root in *. cbn [omap obind] in *. unfold validate_account_state in *.
    destruct (validate_trie_proof keccak decode_node None (unpack_nibbles a) q) as [r| |] eqn:V; try discriminate. rewrite (A _ _ _ V), V. exact H.
Qed.

(** and so the property fails: whoever likes can have any node of any trie of their own accepted as
    canonical for any block, whatever the header oracle knows of the block, and stored. *)
Theorem C30_any_node_refuted : reads_back keccak decode_node ->
  forall t path s block, trie t -> fits keccak t -> (length path <= 64)%nat -> at_path t path s -> 32 <= blen (enc s) \/ path = [] ->
  blen block = 32 ->
  exists b v, state_decode (AccountTrieNode path (keccak (enc s))) b = Ok v /\ names v block /\
    (forall get_state_root, validate get_state_root (AccountTrieNode path (keccak (enc s))) b = Ok CanonicallyValid) /\
    exists stored, stored_form (AccountTrieNode path (keccak (enc s))) b = Ok stored.
Proof.
  intros R t path s block T F L A H Lb.
  destruct (C28_node_complete keccak decode_node R t path s T F L A H) as (proof & V & Lp & Sz & _).
  assert (Dp : decode_proof (encode_var_list proof) = Ok proof /\ blen (encode_var_list proof) <= 66820).
  { assert (B : blen (encode_var_list proof) <= 66820).
    { rewrite encode_var_list_len. assert (C : blen (concat proof) <= 1024 * blen proof).
      { clear - Sz. induction Sz as [|x p H F IH]; cbn [concat]; [rewrite blen_nil; lia|]. rewrite blen_app, blen_cons. lia. }
      unfold blen at 1. unfold blen in C at 2. clear - C Lp. lia. }
    split; [|exact B]. unfold decode_proof. rewrite decode_encode_var_list; [|clear - B; lia|unfold blen; clear - Lp; lia]. cbn [obind].
    clear - Sz. induction Sz as [|x p H F IH]; [reflexivity|].
    cbn [map all_ok]. unfold decode_bytelist at 1. replace (1024 <? blen x) with false by lia. cbn [obind]. rewrite IH. reflexivity. }
  destruct Dp as [Dp Bp].
  set (v := AccountTrieNodeWithProof proof block). exists (state_encode v), v.
  assert (D : state_decode (AccountTrieNode path (keccak (enc s))) (state_encode v) = Ok v).
  { cbn [state_decode]. unfold v. rewrite account_enc by assumption. reflexivity. }
  assert (C : forall gr, validate gr (AccountTrieNode path (keccak (enc s))) (state_encode v) = Ok CanonicallyValid).
  { intros gr. unfold StateContent_Model.validate, StateContent_Model.validate_with. rewrite D. unfold v.
    cbn [validate_account_trie_node state_root obind].
    assert (V' : validate_node_trie_proof keccak decode_node None (keccak (enc s)) path proof = Ok tt).
    { unfold validate_node_trie_proof in *. destruct proof as [|x p]; [discriminate|]. cbn [validate_trie_proof obind] in *.
      unfold check_node_hash at 1 in V. destruct (beqb (keccak x) (root_hash keccak t)); [|discriminate]. exact V. }
    rewrite V'. reflexivity. }
  split; [exact D|]. split; [reflexivity|]. split; [exact C|]. eapply C29_canonical_stored. apply (C (fun _ => Err)).
Qed.
(** The same with bytecodes: any code, for any address and block. *)
Theorem C30_any_code_refuted : reads_back keccak decode_node ->
  forall address code blob a block, length address = 32%nat -> bytes_ok address -> blen code <= 32768 -> blen block = 32 ->
  blen (enc (NLeaf (unpack_nibbles address ++ [16]) blob)) <= 1024 -> decode_account blob = Ok a -> code_hash a = keccak code ->
  exists b v, state_decode (ContractBytecode address (keccak code)) b = Ok v /\ names v block /\
    (forall get_state_root, validate get_state_root (ContractBytecode address (keccak code)) b = Ok CanonicallyValid) /\
    exists stored, stored_form (ContractBytecode address (keccak code)) b = Ok stored.
Proof.
  intros R address code blob a block La Ba Lc Lb Lf Da Ch.
  set (leaf := NLeaf (unpack_nibbles address ++ [16]) blob) in *.
  assert (Tl : trie leaf).
  { unfold leaf. constructor. clear - Ba. induction address as [|x r IH]; [constructor|]. apply bytes_ok_cons in Ba as [Bx Br].
    cbn [unpack_nibbles flat_map]. apply Forall_app. split; [|apply IH, Br]. unfold unpack_pair, nibble. clear IH Br.
    repeat constructor; rewrite ?N.shiftr_div_pow2; change (2 ^ 4) with 16; try (apply N.div_lt_upper_bound; lia).
    change 15 with (N.ones 4). rewrite N.land_ones. change (2 ^ 4) with 16. apply N.mod_lt. lia. }
  set (q := [enc leaf]).
  assert (Dq : decode_proof (encode_var_list q) = Ok q /\ blen (encode_var_list q) <= 66820).
  { assert (B : blen (encode_var_list q) <= 66820).
    { rewrite encode_var_list_len. unfold q. cbn [concat]. rewrite app_nil_r, blen_cons, blen_nil. lia. }
    split; [|exact B]. unfold decode_proof. rewrite decode_encode_var_list; [|lia|]. 2: { unfold q. rewrite blen_cons, blen_nil. lia. }
    cbn [obind]. unfold q. cbn [map all_ok]. unfold decode_bytelist. replace (1024 <? blen (enc leaf)) with false by lia. reflexivity. }
  destruct Dq as [Dq Bq].
  set (v := BytecodeWithProof code q block). exists (state_encode v), v.
  assert (D : state_decode (ContractBytecode address (keccak code)) (state_encode v) = Ok v).
  { cbn [state_decode]. unfold v. rewrite bytecode_proof_enc by assumption. reflexivity. }
  assert (C : forall gr, validate gr (ContractBytecode address (keccak code)) (state_encode v) = Ok CanonicallyValid).
  { intros gr. unfold StateContent_Model.validate, StateContent_Model.validate_with. rewrite D. unfold v.
    cbn [validate_contract_bytecode state_root obind]. rewrite beqb_refl. cbn [negb].
    assert (Va : validate_account_state keccak decode_node decode_account None address q = Ok a).
    { unfold validate_account_state, q. cbn [validate_trie_proof obind follow fst snd]. rewrite R by assumption. cbn [obind].
      unfold leaf. cbn [seen traverse]. rewrite split_last_snoc. change (16 =? 16) with true. cbn [negb].
      destruct (unpack_nibbles address) as [|n r] eqn:U.
      { exfalso. apply (f_equal (@length N)) in U. rewrite unpack_len, La in U. discriminate. }
      cbn [is_nil]. rewrite beqb_refl. exact Da. }
    rewrite Va. cbn [obind]. rewrite Ch, beqb_refl. reflexivity. }
  split; [exact D|]. split; [reflexivity|]. split; [exact C|]. eapply C29_canonical_stored. apply (C (fun _ => Err)).
Qed.
End State.
Print Assumptions C29_put.
Print Assumptions C29_stored_valid.
Print Assumptions C29_canonical_stored.
Print Assumptions C29_valid_form.
Print Assumptions C29_read_back.
Print Assumptions C30_checked.
Print Assumptions C30_actual_partial.
Print Assumptions C30_any_node_refuted.
Print Assumptions C30_any_code_refuted.

(** The trie of [C28_toy] as a state trie: the node below the extension is canonical for the block
    whose header has its root and not for another block; with the check off, for every block; what
    is kept of it is the node alone. *)
Definition toy_branch : node := NBranch (toy_leaf (repeat 0 61) 7 :: repeat NEmpty 14 ++ [toy_leaf [3] 8]) None.
Definition toy_value : bytes :=
  state_encode (AccountTrieNodeWithProof
    [encode_raw toy_keccak toy_trie; encode_raw toy_keccak (NExt [1] toy_branch); encode_raw toy_keccak toy_branch] (repeat 5 32)).
Definition toy_key : state_key := AccountTrieNode [5; 1] (toy_keccak (encode_raw toy_keccak toy_branch)).
Definition toy_headers (block : bytes) : outcome bytes :=
  if beqb block (repeat 5 32) then Ok (root_hash toy_keccak toy_trie) else if beqb block (repeat 6 32) then Ok (repeat 0 32) else Err.
Definition no_account (b : bytes) : outcome account := Ok (mk_account 0 0 b b).
Example C30_toy :
  validate_with toy_keccak rlp_decode_node no_account toy_headers false toy_key toy_value = Ok CanonicallyValid /\
  validate_with toy_keccak rlp_decode_node no_account (fun _ => Ok (repeat 0 32)) false toy_key toy_value = Ok Invalid /\
  validate toy_keccak rlp_decode_node no_account (fun _ => Err) toy_key toy_value = Ok CanonicallyValid /\
  stored_form toy_keccak toy_key toy_value = Ok (state_encode (TrieNode (encode_raw toy_keccak toy_branch))).
Proof. repeat split; vm_compute; reflexivity. Qed.
