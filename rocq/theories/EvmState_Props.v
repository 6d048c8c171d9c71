(** Reading a state over the network: the properties. *)
From Verif Require Import Base ExecDb_Model ExecDb_Proofs Keys_Model Keys_Spec Trie_Model Trie_Spec Trie_Proofs Trie_Props StateContent_Model StateContent_Spec StateContent_Proofs StateContent_Props Walker_Spec Walker_Props EvmState_Model EvmState_Spec EvmState_Proofs.

Section Reads.
Context (keccak : bytes -> bytes) (decode_node : bytes -> outcome Trie_Model.node)
        (decode_account : bytes -> outcome account) (raw_ok : bytes -> bool) (net : N -> state_key -> outcome bytes).
Context (t : Trie_Model.node) (storage_of : bytes -> Trie_Model.node) (fuel : nat).
Notation enc := (encode_raw keccak).
Notation account_is := (account_is decode_account).
Notation slot_is := (slot_is keccak).
Notation right := (right keccak decode_account t storage_of).
Notation ask := (ask keccak decode_node decode_account raw_ok net fuel).
Notation ask_all := (ask_all keccak decode_node decode_account raw_ok net fuel).
Notation after := (after keccak decode_node decode_account raw_ok net fuel).
Notation get_balance := (get_balance keccak decode_node decode_account net fuel).
Notation get_storage_at := (get_storage_at keccak decode_node decode_account net fuel).
Notation get_code := (get_code keccak decode_node decode_account raw_ok net fuel).
Notation start := (open_session (root_hash keccak t)).
Context (K : forall x, hash32 (keccak x)) (Rb : reads_back keccak decode_node)
        (Pa : forall v, decode_account v <> Panic) (Pn : forall i k, net i k <> Panic) (Pr : forall c, raw_ok c = true)
        (W : world keccak decode_account t storage_of) (Lf : (64 < fuel)%nat).

(** ** Nothing wrong is ever read *)

Section Sound.
Context (Sv : forall i k b, net i k = Ok b -> served keccak decode_node decode_account k b)
        (F1 : no_forgery keccak net t) (F2 : forall h a, account_is t h (Some a) -> no_forgery keccak net (storage_of h)).
Lemma sound_genuine kf st : (forall q h, wanted (kf q h) = h) -> no_forgery keccak net st -> genuine keccak net kf st.
Proof.
  intros Hw F q cur x [A _] (i & b & N1 & D). pose proof (served_hash _ _ _ _ _ _ (Sv _ _ _ N1) D) as H. cbn beta iota in H. rewrite Hw in H. eapply F; eassumption.
Qed.
Let S1 : genuine keccak net AccountTrieNode t := sound_genuine AccountTrieNode t (fun _ _ => eq_refl) F1.
Let S2 h a (A : account_is t h (Some a)) : genuine keccak net (ContractStorageTrieNode h) (storage_of h) :=
  sound_genuine (ContractStorageTrieNode h) (storage_of h) (fun _ _ => eq_refl) (F2 h a A).
Lemma S3 h k c : came net (ContractBytecode h k) (Bytecode c) -> keccak c = k.
Proof. intros (i & b & N1 & D). exact (served_hash _ _ _ _ _ _ (Sv _ _ _ N1) D). Qed.

(** Whatever is asked, in whatever order, and whatever peers answer: every query ends, and a reply
    is what the state says, or an error. *)
Theorem C96_sound : forall qs, exists s rs, ask_all qs start = Some (s, rs) /\
  Forall2 (fun q r => match r with Ok a => right q a | Err => True | Panic => False end) qs rs.
Proof.
  intros qs. destruct (all_ok_run keccak decode_node decode_account raw_ok net t storage_of fuel K Rb Pa Pn Pr W Lf S1 S2 S3 qs start (inv_open keccak decode_account net t))
    as (s & rs & E & _ & _ & F). eauto.
Qed.
(** So for a single call of the RPC. *)
Theorem C96_rpc_sound : forall address slot,
  (exists s r, get_balance address start = Some (s, r) /\ r <> Panic /\
     forall x, r = Ok x -> exists a, account_is t (keccak address) a /\ x = match a with Some a => balance a | None => 0 end) /\
  (exists s r, get_storage_at address slot start = Some (s, r) /\ r <> Panic /\
     forall x, r = Ok x -> exists a, account_is t (keccak address) a /\ match a with Some _ => slot_is (storage_of (keccak address)) slot x | None => x = 0 end) /\
  (exists s r, get_code address start = Some (s, r) /\ r <> Panic /\
     forall c, r = Ok c -> exists a, account_is t (keccak address) a /\ match a with Some a => keccak c = code_hash a | None => c = [] end).
Proof.
  intros address slot. pose proof (inv_open keccak decode_account net t) as I0. split; [|split].
  - destruct (basic_ok keccak decode_node decode_account raw_ok net t storage_of fuel K Rb Pa Pn W Lf S1 address start I0) as (s & r & E & _ & _ & F & _).
    cbn [EvmState_Model.ask] in E. unfold EvmState_Model.get_balance. unfold rbind, rret in *. destruct (basic _ _ _ _ _ _ _) as [[s' [i| |]]|]; [| | |discriminate]; injection E as <- <-; cbn [fine] in F.
    + eexists _, _. split; [reflexivity|]. split; [discriminate|]. intros x [= <-]. destruct i as [i|]; cbn [EvmState_Spec.right] in F.
      * destruct F as (a & A & B & _). exists (Some a). auto.
      * exists None. auto.
    + eexists _, _. split; [reflexivity|]. split; discriminate.
    + destruct F.
  - destruct (storage_ok keccak decode_node decode_account raw_ok net t storage_of fuel K Rb Pa Pn Pr W Lf S1 S2 S3 address slot start I0) as (s & r & E & _ & _ & F & _).
    cbn [EvmState_Model.ask] in E. unfold EvmState_Model.get_storage_at. unfold rbind at 1, rret in E. destruct (storage _ _ _ _ _ _ _ _) as [[s' [x| |]]|]; [| | |discriminate]; injection E as <- <-; cbn [fine] in F.
    + eexists _, _. split; [reflexivity|]. split; [discriminate|]. intros ? [= <-]. destruct F as [[A ->]|(a & A & B)]; [exists None|exists (Some a)]; auto.
    + eexists _, _. split; [reflexivity|]. split; discriminate.
    + destruct F.
  - destruct (basic_ok keccak decode_node decode_account raw_ok net t storage_of fuel K Rb Pa Pn W Lf S1 address start I0) as (s & r & E & I1 & _ & F & _).
    cbn [EvmState_Model.ask] in E. unfold EvmState_Model.get_code. unfold rbind, rret in *. destruct (basic _ _ _ _ _ _ _) as [[s' [i| |]]|]; [| | |discriminate]; injection E as <- <-; cbn [fine] in F.
    + destruct i as [i|]; cbn [EvmState_Spec.right] in F.
      * destruct F as (a & A & _ & _ & Ec). destruct (beqb (i_code_hash i) (keccak [])) eqn:B.
        -- apply beqb_spec in B. eexists _, _. split; [reflexivity|]. split; [discriminate|]. intros ? [= <-]. exists (Some a). split; [exact A|congruence].
        -- destruct (code_ok' keccak decode_node decode_account raw_ok net t storage_of fuel Pn Pr S3 (i_code_hash i) s' I1) as (s2 & r2 & E2 & _ & _ & F2' & _).
           cbn [EvmState_Model.ask] in E2. unfold rbind at 1, rret in E2. destruct (code_by_hash _ _ _ _ _) as [[s3 [c| |]]|]; [| | |discriminate]; injection E2 as <- <-; cbn [fine] in F2'.
           ++ eexists _, _. split; [reflexivity|]. split; [discriminate|]. intros ? [= <-]. exists (Some a). split; [exact A|]. cbn in F2'. congruence.
           ++ eexists _, _. split; [reflexivity|]. split; discriminate.
           ++ destruct F2'.
      * eexists _, _. split; [reflexivity|]. split; [discriminate|]. intros ? [= <-]. exists None. auto.
    + eexists _, _. split; [reflexivity|]. split; discriminate.
    + destruct F.
Qed.
End Sound.

(** ** What the network has can be read *)

Section Complete.
Context (H : has_state keccak decode_account net t storage_of) (A0 : all_accounts decode_account t)
        (E0 : no_empty_leaf t) (E1 : forall h a, account_is t h (Some a) -> no_empty_leaf (storage_of h)).
Lemma has_account : present keccak net AccountTrieNode t.
Proof.
  intros q cur i O. exists (state_encode (TrieNode (enc cur))). split; [apply (hs_nodes _ _ _ _ _ H), O|].
  apply encode_node_back; [discriminate|]. destruct (w_trie _ _ _ _ W) as (_ & Ft & Bt). destruct O as [A _]. split; [exact (Ft _ _ A)|apply (Bt _ _ A)].
Qed.
Lemma has_slots h a : account_is t h (Some a) -> storage_root a <> keccak [128] -> present keccak net (ContractStorageTrieNode h) (storage_of h).
Proof.
  intros A Ne q cur i O. exists (state_encode (TrieNode (enc cur))). split; [exact (hs_storage _ _ _ _ _ H i h a q cur A Ne O)|].
  apply encode_node_back; [discriminate|]. destruct (w_storage _ _ _ _ W h a A) as (_ & (_ & Ft & Bt) & _). destruct O as [A' _]. split; [exact (Ft _ _ A')|apply (Bt _ _ A')].
Qed.
Context (Sv : forall i k b, net i k = Ok b -> served keccak decode_node decode_account k b)
        (F2 : forall h a, account_is t h (Some a) -> no_forgery keccak net (storage_of h)).
Let S1 : genuine keccak net AccountTrieNode t := present_genuine keccak net AccountTrieNode t has_account.
Let S2 h a (A : account_is t h (Some a)) : genuine keccak net (ContractStorageTrieNode h) (storage_of h) :=
  sound_genuine Sv (ContractStorageTrieNode h) (storage_of h) (fun _ _ => eq_refl) (F2 h a A).
Let S3' := S3 Sv.

Lemma account_known h : exists a, account_is t h a.
Proof.
  destruct (w_trie _ _ _ _ W) as (T & _). assert (G : (exists v, holds t (unpack_nibbles h) v) \/ forall v, ~ holds t (unpack_nibbles h) v).
  { clear - T. generalize (unpack_nibbles h). induction t as [|k v|p c IH|l v IH|g] using node_ind'; intros y; inversion T; subst.
    - right. intros v. apply holds_empty.
    - destruct (bytes_eq_dec y k0) as [->|Ny]; [left; exists v; apply holds_leaf; auto|]. right. intros u Hu. apply holds_leaf in Hu as [-> _]. congruence.
    - destruct (strip_prefix p y) as [r|] eqn:E.
      + apply strip_inv in E. subst y. destruct (IH ltac:(assumption) r) as [[v Hv]|Nv]; [left; exists v; apply holds_ext; eauto|].
        right. intros v Hv. apply holds_ext in Hv as (x & E & Hx). apply app_inv_head in E. subst x. exact (Nv v Hx).
      + right. intros v Hv. apply holds_ext in Hv as (x & -> & _). rewrite strip_app in E. discriminate.
    - destruct y as [|i y].
      + destruct v as [v|]; [left; exists v; apply holds_top; reflexivity|]. right. intros u Hu. apply holds_top in Hu. discriminate.
      + destruct (nth_error l (N.to_nat i)) as [c|] eqn:E.
        * match goal with Q : Forall trie l |- _ => rewrite Forall_forall in Q; rename Q into Fl end. rewrite Forall_forall in IH. pose proof (nth_error_In _ _ E) as Ic.
          destruct (IH c Ic (Fl c Ic) y) as [[u Hu]|Nu]; [left; exists u; apply holds_branch; eauto|].
          right. intros u Hu. apply holds_branch in Hu as (c' & E' & Hc). rewrite E in E'. injection E' as <-. exact (Nu u Hc).
        * right. intros u Hu. apply holds_branch in Hu as (c' & E' & Hc). congruence. }
  destruct G as [[v Hv]|Nv]; [|exists None; exact Nv]. destruct (A0 _ v Hv) as [a Da]. exists (Some a). exists v. auto.
Qed.

(** Every account, every slot of an account that has any storage, and the code of every account that
    was read before. *)
Theorem C96_complete : forall qs s, after (root_hash keccak t) qs s ->
  (forall address, exists s' r, ask (QBasic address) s = Some (s', Ok r) /\ right (QBasic address) r) /\
  (forall address index, (forall a, account_is t (keccak address) (Some a) -> storage_root a <> keccak [128]) ->
     exists s' r, ask (QStorage address index) s = Some (s', Ok r) /\ right (QStorage address index) r) /\
  (forall address a, account_is t (keccak address) (Some a) -> In (QBasic address) qs ->
     exists s' r, ask (QCode (code_hash a)) s = Some (s', Ok r) /\ right (QCode (code_hash a)) r).
Proof.
  intros qs s (rs & Ea). pose proof (inv_open keccak decode_account net t) as I0.
  destruct (all_ok_run keccak decode_node decode_account raw_ok net t storage_of fuel K Rb Pa Pn Pr W Lf S1 S2 S3' qs start I0) as (s' & rs' & E & I & _ & _).
  rewrite Ea in E. injection E as <- <-. split; [|split].
  - intros address. destruct (basic_ok keccak decode_node decode_account raw_ok net t storage_of fuel K Rb Pa Pn W Lf S1 address s I) as (s' & r & E & _ & _ & F & _ & P).
    specialize (P has_account E0 A0). destruct r as [r| |]; [eauto|congruence|destruct F].
  - intros address index Ne. destruct (storage_ok keccak decode_node decode_account raw_ok net t storage_of fuel K Rb Pa Pn Pr W Lf S1 S2 S3' address index s I) as (s' & r & E & _ & _ & F & _ & P).
    specialize (P has_account E0 A0). destruct r as [r| |]; [eauto| |destruct F]. destruct P; [|reflexivity].
    intros a A. split; [apply (has_slots _ a A), Ne, A|exact (E1 _ a A)].
  - intros address a A Iq.
    assert (Hc : code_hash a = keccak [] \/ exists ah, s_codes s (code_hash a) = Some ah).
    { destruct (bytes_eq_dec (code_hash a) (keccak [])) as [Ec|Nc]; [auto|right]. clear I. revert Ea Iq I0. generalize start. generalize rs. clear rs.
      induction qs as [|q qs IH]; intros rs0 s0 Ea Iq I0; [destruct Iq|]. cbn [EvmState_Model.ask_all] in Ea.
      destruct (ask_ok keccak decode_node decode_account raw_ok net t storage_of fuel K Rb Pa Pn Pr W Lf S1 S2 S3' q s0 I0) as (s1 & r & E & I1 & M & _). rewrite E in Ea.
      destruct (EvmState_Model.ask_all keccak decode_node decode_account raw_ok net fuel qs s1) as [[s2 rs2]|] eqn:E2; [|discriminate]. cbn [option_map fst snd] in Ea. injection Ea as <- <-.
      destruct Iq as [-> |Iq]; [|exact (IH rs2 s1 E2 Iq I1)].
      destruct (basic_ok keccak decode_node decode_account raw_ok net t storage_of fuel K Rb Pa Pn W Lf S1 address s0 I0) as (s1' & r' & E' & _ & _ & _ & Cd & P).
      rewrite E in E'. injection E' as <- <-. destruct (Cd a A Nc (P has_account E0 A0)) as [ah Hah]. exists ah.
      destruct (all_ok_run keccak decode_node decode_account raw_ok net t storage_of fuel K Rb Pa Pn Pr W Lf S1 S2 S3' qs s1 I1) as (s3 & rs3 & E3 & _ & M3 & _).
      rewrite E2 in E3. injection E3 as <- <-. apply M3, Hah. }
    destruct (code_ok' keccak decode_node decode_account raw_ok net t storage_of fuel Pn Pr S3' (code_hash a) s I) as (s' & r & E & _ & _ & F & Q1 & Q2).
    destruct r as [r| |]; [eauto| |destruct F]. destruct Hc as [Hc|Hc]; [specialize (Q1 Hc); discriminate|].
    destruct Q2; [exact (hs_codes _ _ _ _ _ H)|exact Hc|reflexivity].
Qed.
(** Balances and codes of all addresses. *)
Theorem C96_rpc : forall address a, account_is t (keccak address) a ->
  (exists s, get_balance address start = Some (s, Ok match a with Some a => balance a | None => 0 end)) /\
  (exists s c, get_code address start = Some (s, Ok c) /\ match a with Some a => keccak c = code_hash a /\ (code_hash a = keccak [] -> c = []) | None => c = [] end).
Proof.
  intros address a A.
  assert (Uq : forall b, account_is t (keccak address) b -> b = a).
  { intros b B. destruct (w_trie _ _ _ _ W) as (T & _). destruct a as [a|], b as [b|]; [|destruct A as (v & Hv & _); destruct (B v Hv)|destruct B as (v & Hv & _); destruct (A v Hv)|reflexivity].
    destruct A as (v & Hv & Dv), B as (w & Hw & Dw). rewrite (holds_unique t T _ w v Hw Hv) in Dw. congruence. }
  pose proof (inv_open keccak decode_account net t) as I0.
  destruct (C96_complete [] start (ex_intro _ [] eq_refl)) as (Cb & _ & _). destruct (Cb address) as (s & r & E & F). cbn [EvmState_Model.ask] in E.
  destruct (basic_ok keccak decode_node decode_account raw_ok net t storage_of fuel K Rb Pa Pn W Lf S1 address start I0) as (s1 & r1 & E' & I1 & _ & _ & Cd & _).
  cbn [EvmState_Model.ask] in E'. rewrite E in E'. injection E' as <- <-.
  unfold EvmState_Model.get_balance, EvmState_Model.get_code. unfold rbind, rret in *. destruct (basic _ _ _ _ _ _ _) as [[s' [i| |]]|]; try discriminate. injection E as -> <-. destruct i as [i|]; cbn [EvmState_Spec.right] in F.
  - destruct F as (b & B & Bb & _ & Bc). specialize (Uq _ B). subst a. split; [exists s; rewrite Bb; reflexivity|].
    destruct (beqb (i_code_hash i) (keccak [])) eqn:Bq.
    + apply beqb_spec in Bq. exists s, []. split; [reflexivity|]. split; [congruence|reflexivity].
    + apply beqb_false in Bq. rewrite Bc in *. destruct (code_ok' keccak decode_node decode_account raw_ok net t storage_of fuel Pn Pr S3' (code_hash b) s I1) as (s2 & r2 & E2 & _ & _ & F2' & _ & Q2).
      assert (Ne : r2 <> Err). { apply Q2; [exact (hs_codes _ _ _ _ _ H)|]. apply Cd; [exact B|exact Bq|discriminate]. }
      cbn [EvmState_Model.ask] in E2. unfold rbind at 1, rret in E2. destruct (code_by_hash _ _ _ _ _) as [[s3 [c| |]]|]; [| | |discriminate]; injection E2 as <- <-; [|congruence|destruct F2'].
      exists s3, c. split; [reflexivity|]. split; [exact F2'|congruence].
  - specialize (Uq _ F). subst a. split; [exists s; reflexivity|]. exists s, []. auto.
Qed.
(** The storage of an account with an empty storage trie cannot be read, although every slot is 0: the
    root of the empty trie is asked for, and no bridge sends it. *)
Theorem C96_empty_storage_refuted : forall address a index, account_is t (keccak address) (Some a) ->
  storage_root a = keccak [128] -> storage_of (keccak address) = NEmpty ->
  (forall i, net i (ContractStorageTrieNode (keccak address) [] (keccak [128])) = Err) ->
  slot_is (storage_of (keccak address)) index 0 /\
  exists s, get_storage_at address index start = Some (s, Err).
Proof.
  intros address a index A Er Es Nn. split; [rewrite Es; intros v; apply holds_empty|].
  pose proof (inv_open keccak decode_account net t) as I0. unfold EvmState_Model.get_storage_at, storage. unfold rbind at 1.
  destruct (account_state_ok keccak decode_node decode_account net t storage_of fuel Rb Pa Pn W Lf S1 (keccak address) start (K _) I0) as (s1 & r1 & E & I1 & _ & _ & V1 & _ & Pe).
  rewrite E. destruct (Pe has_account E0 A0) as [x ->]. specialize (V1 x eq_refl).
  destruct x as [b|]; [|destruct A as (v & Hv & _); destruct (V1 v Hv)].
  assert (b = a) as ->. { destruct (w_trie _ _ _ _ W) as (T & _). destruct A as (v & Hv & Dv), V1 as (w & Hw & Dw). rewrite (holds_unique t T _ w v Hw Hv) in Dw. congruence. }
  unfold contract_storage_at_slot, traverse_trie. unfold rbind at 1 2. destruct fuel as [|f]; [lia|]. cbn [traverse_loop].
  assert (Ss : strip_suffix (unpack_nibbles (keccak (b256 index))) (unpack_nibbles (keccak (b256 index))) = Some []) by apply (strip_suffix_app keccak decode_node []). rewrite Ss.
  change (try_from_unpacked []) with (Ok (A := bytes) []). cbn iota. rewrite Er. unfold fetch_trie_node, fetch_content. unfold rbind.
  destruct (s_cache s1 _) as [v|] eqn:Cc.
  - destruct I1 as (C1 & _). apply C1 in Cc. destruct Cc as (i & bb & Ni & _). rewrite Nn in Ni. discriminate.
  - rewrite Nn. cbn [obind]. eexists. reflexivity.
Qed.
End Complete.

(** A code whose account was not read before is never asked for, and the hashes of blocks are not there:
    a contract that wants them cannot be called. *)
Theorem C96_unread_refuted : forall h, h <> keccak [] -> (forall number s, exists e, EvmState_Model.block_hash number s = Some (s, e) /\ e = Err) /\
  ask (QCode h) start = Some (start, Err).
Proof.
  intros h N. split; [intros; eexists; split; reflexivity|]. cbn [EvmState_Model.ask]. unfold code_by_hash, rbind at 1.
  destruct (beqb h (keccak [])) eqn:B; [apply beqb_spec in B; congruence|]. reflexivity.
Qed.

(** One answer with a proof, which every node takes for canonical, stops a read: the reader wants the bare
    node. *)
Theorem C96_proof_answer_refuted : forall block : bytes, length block = 32%nat ->
  exists b, (forall get_state_root, validate keccak decode_node decode_account get_state_root (AccountTrieNode [] (root_hash keccak t)) b = Ok CanonicallyValid) /\
    ((forall i, net i (AccountTrieNode [] (root_hash keccak t)) = Ok b) -> forall address, exists s, get_balance address start = Some (s, Err)).
Proof.
  intros block Lb. destruct (w_trie _ _ _ _ W) as (T & Ft & _).
  destruct (C30_any_node_refuted keccak decode_node decode_account Rb t [] t block T Ft) as (b & v & D & Nm & V & _); [cbn; lia|constructor|right; reflexivity|unfold blen; lia|].
  exists b. split; [exact V|]. intros Hn address. unfold EvmState_Model.get_balance, basic, account_state. cbn [s_root open_session]. unfold traverse_trie. destruct fuel as [|f]; [lia|].
  cbn [traverse_loop]. assert (Ss : strip_suffix (unpack_nibbles (keccak address)) (unpack_nibbles (keccak address)) = Some []) by apply (strip_suffix_app keccak decode_node []).
  unfold rbind. rewrite Ss. change (try_from_unpacked []) with (Ok (A := bytes) []). cbn iota. unfold fetch_trie_node, fetch_content, rbind. cbn [s_cache open_session s_requests]. rewrite Hn. cbn [obind]. change (s_root start) with (keccak (enc t)). rewrite D.
  destruct v; try destruct Nm; eexists; reflexivity.
Qed.
End Reads.
Print Assumptions C96_sound.
Print Assumptions C96_rpc_sound.
Print Assumptions C96_complete.
Print Assumptions C96_rpc.
Print Assumptions C96_empty_storage_refuted.
Print Assumptions C96_proof_answer_refuted.
Print Assumptions C96_unread_refuted.

(** ** A state of two accounts *)

(** All nodes of a trie, with their paths. *)
Fixpoint subnodes (n : Trie_Model.node) : list (bytes * Trie_Model.node) :=
  ([], n) ::
  match n with
  | NExt p c => map (fun x => (p ++ fst x, snd x)) (subnodes c)
  | NBranch l _ =>
      (fix go i l := match l with [] => [] | c :: l' => map (fun x => (N.of_nat i :: fst x, snd x)) (subnodes c) ++ go (S i) l' end) 0%nat l
  | _ => []
  end.
Lemma sub_in n p s : at_path n p s -> In (p, s) (subnodes n).
Proof.
  induction 1 as [n|p c q s A IH|l v i c q s E A IH]; [destruct n; left; reflexivity| |].
  - right. apply (in_map (fun x => (p ++ fst x, snd x))) in IH. exact IH.
  - right. assert (G : forall j, In (N.of_nat (j + i) :: q, s) ((fix go i l := match l with [] => [] | c :: l' => map (fun x => (N.of_nat i :: fst x, snd x)) (subnodes c) ++ go (S i) l' end) j l)).
    { revert i E. induction l as [|d l IHl]; intros i E j; [destruct i; discriminate|]. apply in_or_app. destruct i as [|i].
      - left. injection E as ->. rewrite Nat.add_0_r. apply (in_map (fun x => (N.of_nat j :: fst x, snd x))) in IH. exact IH.
      - right. rewrite Nat.add_succ_r. apply (IHl i E (S j)). }
    exact (G 0%nat).
Qed.
Lemma at_all (f : bytes -> Trie_Model.node -> bool) n : forallb (fun x => f (fst x) (snd x)) (subnodes n) = true -> forall p s, at_path n p s -> f p s = true.
Proof. intros H p s A. rewrite forallb_forall in H. exact (H _ (sub_in _ _ _ A)). Qed.
Lemma holds_all (f : bytes -> bytes -> bool) n :
  forallb (fun x => match snd x with NLeaf k v => f (fst x ++ removelast k) v | NBranch _ (Some v) => f (fst x) v | _ => true end) (subnodes n) = true ->
  forall p v, holds n p v -> f p v = true.
Proof.
  intros H p v [(q & k & -> & A)|(l & A)]; apply sub_in in A; rewrite forallb_forall in H; specialize (H _ A); cbn [fst snd] in H; [|exact H].
  rewrite removelast_last in H. exact H.
Qed.

Module Toy.
Definition code : bytes := [1; 2; 3].
Definition store : Trie_Model.node := NLeaf (unpack_nibbles (toy_hash (b256 7)) ++ [16]) (rlp_uint 5).
Definition a1 : account := mk_account 1 100 (root_hash toy_hash store) (toy_hash code).
Definition a2 : account := mk_account 0 50 (toy_hash [128]) (toy_hash []).
Definition leaf (addr : bytes) (a : account) : Trie_Model.node := NLeaf (tl (unpack_nibbles (toy_hash addr)) ++ [16]) (encode_account a).
Definition t : Trie_Model.node := NBranch (leaf [1] a1 :: NEmpty :: leaf [33] a2 :: repeat NEmpty 13) None.
Definition storage_of (h : bytes) : Trie_Model.node := if beqb (unpack_nibbles h) (unpack_nibbles (toy_hash [1])) then store else NEmpty.
Definition entry (kf : bytes -> bytes -> state_key) (p : bytes) (n : Trie_Model.node) : state_key * bytes :=
  (kf p (toy_hash (encode_raw toy_hash n)), state_encode (TrieNode (encode_raw toy_hash n))).
Definition table : list (state_key * bytes) :=
  [entry AccountTrieNode [] t; entry AccountTrieNode [0] (leaf [1] a1); entry AccountTrieNode [2] (leaf [33] a2);
   entry (ContractStorageTrieNode (toy_hash [1])) [] store; (ContractBytecode (toy_hash [1]) (toy_hash code), state_encode (Bytecode code))].
Definition net (i : N) (k : state_key) : outcome bytes := match find (fun e => state_key_eqb (fst e) k) table with Some e => Ok (snd e) | None => Err end.
Lemma net_in i k b : net i k = Ok b -> In (k, b) table.
Proof.
  unfold net. destruct (find _ table) as [[k' b']|] eqn:E; [|discriminate]. intros [= <-]. apply find_some in E as [E1 E2]. apply (key_eqb toy_hash rlp_decode_node) in E2. cbn in E2. subst. exact E1.
Qed.

Lemma good n : forallb (fun x => (blen (encode_raw toy_hash (snd x)) <=? 1024) && (length (fst x) <=? 64)%nat && bytes_okb (encode_raw toy_hash (snd x))) (subnodes n) = true ->
  Trie_Spec.trie n -> good_trie toy_hash n.
Proof.
  intros H T. pose proof (at_all (fun p s => (blen (encode_raw toy_hash s) <=? 1024) && (length p <=? 64)%nat && bytes_okb (encode_raw toy_hash s)) n H) as G.
  split; [exact T|]. split; [intros p s A|intros p s A]; specialize (G p s A); apply andb_true_iff in G as [G G3]; apply andb_true_iff in G as [G1 G2].
  - lia.
  - split; [apply Nat.leb_le; exact G2|apply bytes_okb_spec, G3].
Qed.
Lemma nibbles_ok k : forallb (fun n => n <? 16) k = true -> Forall nibble k.
Proof. intros H. rewrite forallb_forall in H. apply Forall_forall. intros x I. apply H in I. unfold nibble. lia. Qed.
Lemma good_t : good_trie toy_hash t.
Proof.
  apply good; [vm_compute; reflexivity|]. constructor; [reflexivity| |discriminate].
  constructor; [constructor; apply nibbles_ok; reflexivity|]. constructor; [constructor|]. constructor; [constructor; apply nibbles_ok; reflexivity|].
  apply Forall_forall. intros x I. apply repeat_spec in I. subst x. constructor.
Qed.
Lemma good_store : good_trie toy_hash store.
Proof. apply good; [vm_compute; reflexivity|]. constructor. apply nibbles_ok. reflexivity. Qed.
Lemma good_empty : good_trie toy_hash NEmpty.
Proof. apply good; [vm_compute; reflexivity|]. constructor. Qed.
Definition is_a1 (p v : bytes) : bool := beqb p (unpack_nibbles (toy_hash [1])) && beqb v (encode_account a1).
Definition is_a2 (p v : bytes) : bool := beqb p (unpack_nibbles (toy_hash [33])) && beqb v (encode_account a2).
Lemma values p v : holds t p v -> (p = unpack_nibbles (toy_hash [1]) /\ v = encode_account a1) \/ (p = unpack_nibbles (toy_hash [33]) /\ v = encode_account a2).
Proof.
  intros H. pose proof (holds_all (fun p v => is_a1 p v || is_a2 p v) t ltac:(vm_compute; reflexivity) p v H) as G.
  unfold is_a1, is_a2 in G. rewrite orb_true_iff, !andb_true_iff, !beqb_spec in G. exact G.
Qed.
Lemma d1 : decode_account (encode_account a1) = Ok a1. Proof. vm_compute. reflexivity. Qed.
Lemma d2 : decode_account (encode_account a2) = Ok a2. Proof. vm_compute. reflexivity. Qed.
Lemma known h a : account_is decode_account t h (Some a) ->
  (unpack_nibbles h = unpack_nibbles (toy_hash [1]) /\ a = a1) \/ (unpack_nibbles h = unpack_nibbles (toy_hash [33]) /\ a = a2).
Proof.
  intros (v & H & D). apply values in H as [[E ->]|[E ->]]; [left; rewrite d1 in D|right; rewrite d2 in D]; injection D as <-; auto.
Qed.
Lemma is1 : account_is decode_account t (toy_hash [1]) (Some a1).
Proof.
  exists (encode_account a1). split; [|exact d1]. left. exists [0], (tl (unpack_nibbles (toy_hash [1]))). split; [reflexivity|].
  apply (at_branch _ _ 0 (leaf [1] a1) []); [reflexivity|constructor].
Qed.
Lemma is2 : account_is decode_account t (toy_hash [33]) (Some a2).
Proof.
  exists (encode_account a2). split; [|exact d2]. left. exists [2], (tl (unpack_nibbles (toy_hash [33]))). split; [reflexivity|].
  apply (at_branch _ _ 2 (leaf [33] a2) []); [reflexivity|constructor].
Qed.
Lemma is_world : world toy_hash decode_account t storage_of.
Proof.
  constructor; [exact good_t|]. intros h a A. unfold storage_of. apply known in A as [[-> ->]|[-> ->]].
  - rewrite beqb_refl. split; [reflexivity|]. split; [exact good_store|]. intros p v H.
    pose proof (holds_all (fun _ v => beqb v (rlp_uint 5)) store ltac:(vm_compute; reflexivity) p v H) as G. apply beqb_spec in G. subst v. exists 5. split; [lia|reflexivity].
  - change (beqb _ _) with false. split; [reflexivity|]. split; [exact good_empty|]. intros p v H. destruct (holds_empty _ _ H).
Qed.
Lemma all_served i k b : net i k = Ok b -> served toy_hash rlp_decode_node decode_account k b.
Proof.
  intros H. apply net_in in H. right. exists (fun _ => Err).
  cut (Forall (fun e => exists verdict, validate toy_hash rlp_decode_node decode_account (fun _ => Err) (fst e) (snd e) = Ok verdict /\ verdict <> Invalid) table).
  { intros F. rewrite Forall_forall in F. exact (F _ H). }
  clear. repeat (apply Forall_cons; [eexists; split; [vm_compute; reflexivity|discriminate]|]). constructor.
Qed.
Lemma no_forged n : In n [t; store; NEmpty] -> no_forgery toy_hash net n.
Proof.
  intros Hn i k b x p s H D A E. apply net_in in H.
  assert (B : forallb (fun n => forallb (fun e => match state_decode (fst e) (snd e) with
      Ok (TrieNode x) => forallb (fun s => negb (beqb (toy_hash x) (toy_hash (encode_raw toy_hash (snd s)))) || beqb x (encode_raw toy_hash (snd s))) (subnodes n) | _ => true end) table) [t; store; NEmpty] = true) by (vm_compute; reflexivity).
  rewrite forallb_forall in B. specialize (B _ Hn). rewrite forallb_forall in B. specialize (B _ H). cbn [fst snd] in B. rewrite D in B.
  rewrite forallb_forall in B. specialize (B _ (sub_in _ _ _ A)). cbn [snd] in B. rewrite E, beqb_refl in B. cbn [negb orb] in B. apply beqb_spec in B. exact B.
Qed.
Lemma path_inj a : forall b, unpack_nibbles a = unpack_nibbles b -> a = b.
Proof.
  induction a as [|x a IH]; intros [|y b] E; try discriminate; [reflexivity|]. cbn in E. injection E as E1 E2 E3. rewrite (IH b E3). f_equal.
  rewrite !N.shiftr_div_pow2 in E1. change 15 with (N.ones 4) in E2. rewrite !N.land_ones in E2. change (2 ^ 4) with 16 in *. lia.
Qed.
Lemma has : has_state toy_hash decode_account net t storage_of.
Proof.
  constructor.
  - intros i p s [A O]. change (net i) with (net 0).
    assert (B : forallb (fun x => (match fst x with [] => false | _ => true end && (blen (encode_raw toy_hash (snd x)) <? 32)) ||
      match net 0 (AccountTrieNode (fst x) (toy_hash (encode_raw toy_hash (snd x)))) with Ok b => beqb b (state_encode (TrieNode (encode_raw toy_hash (snd x)))) | _ => false end) (subnodes t) = true) by (vm_compute; reflexivity).
    rewrite forallb_forall in B. specialize (B _ (sub_in _ _ _ A)). cbn [fst snd] in B. apply orb_true_iff in B as [B|B].
    + apply andb_true_iff in B as [B1 B2]. destruct O as [-> |O]; [discriminate|lia].
    + destruct (net 0 _) as [b| |]; [apply beqb_spec in B; subst b; reflexivity|discriminate|discriminate].
  - intros h a A N. apply known in A as [[E ->]|[_ ->]]; [|destruct N; reflexivity]. apply path_inj in E. subst h. exists code. split; [split; [reflexivity|]|vm_compute; reflexivity].
    split; [vm_compute; discriminate|apply bytes_okb_spec; reflexivity].
  - intros i h a p s A N. apply known in A as [[E ->]|[_ ->]]; [|destruct N; reflexivity]. apply path_inj in E. subst h. intros [A _]. inversion A; subst. vm_compute. reflexivity.
Qed.
End Toy.
(** The state meets every premise; account 1 is read in full, account 33 has 0 in every slot and cannot
    say so. *)
Example C96_example :
  (world toy_hash decode_account Toy.t Toy.storage_of /\ has_state toy_hash decode_account Toy.net Toy.t Toy.storage_of /\
   all_accounts decode_account Toy.t /\ no_empty_leaf Toy.t /\
   (forall h a, account_is decode_account Toy.t h (Some a) -> no_empty_leaf (Toy.storage_of h) /\ no_forgery toy_hash Toy.net (Toy.storage_of h)) /\
   no_forgery toy_hash Toy.net Toy.t /\ forall i k b, Toy.net i k = Ok b -> served toy_hash rlp_decode_node decode_account k b) /\
  let start := open_session (root_hash toy_hash Toy.t) in
  let read {A} (r : option (session * outcome A)) := option_map snd r in
  read (get_balance toy_hash rlp_decode_node decode_account Toy.net 65 [1] start) = Some (Ok 100) /\
  read (get_balance toy_hash rlp_decode_node decode_account Toy.net 65 [33] start) = Some (Ok 50) /\
  read (get_balance toy_hash rlp_decode_node decode_account Toy.net 65 [49] start) = Some (Ok 0) /\
  read (get_code toy_hash rlp_decode_node decode_account (fun _ => true) Toy.net 65 [1] start) = Some (Ok [1; 2; 3]) /\
  read (get_storage_at toy_hash rlp_decode_node decode_account Toy.net 65 [1] 7 start) = Some (Ok 5) /\
  read (get_storage_at toy_hash rlp_decode_node decode_account Toy.net 65 [1] 8 start) = Some (Ok 0) /\
  read (get_storage_at toy_hash rlp_decode_node decode_account Toy.net 65 [33] 7 start) = Some Err.
Proof.
  split.
  - split; [exact Toy.is_world|]. split; [exact Toy.has|]. split; [|split; [|split; [|split]]].
    + intros p v H. apply Toy.values in H as [[_ ->]|[_ ->]]; eexists; [exact Toy.d1|exact Toy.d2].
    + intros q v A. pose proof (at_all (fun _ s => match s with NLeaf [16] _ => false | _ => true end) Toy.t ltac:(vm_compute; reflexivity) _ _ A) as G. discriminate.
    + intros h a _. unfold Toy.storage_of. destruct (beqb _ _); split; try (apply Toy.no_forged; cbn; auto).
      * intros q v A. pose proof (at_all (fun _ s => match s with NLeaf [16] _ => false | _ => true end) Toy.store ltac:(vm_compute; reflexivity) _ _ A) as G. discriminate.
      * intros q v A. inversion A.
    + apply Toy.no_forged. left. reflexivity.
    + exact Toy.all_served.
  - cbv zeta. vm_compute. repeat split; reflexivity.
Qed.
