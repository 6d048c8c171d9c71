(** Proofs about the light client. *)
From Verif Require Import Base Merkle_Model Merkle_Spec Merkle_Proofs Header_Model Header_Spec Header_Proofs LightClient_Model LightClient_Spec.

Lemma period_eq s : period s = period_of s.
Proof. unfold period, period_of. rewrite N.div_div by lia. reflexivity. Qed.
Lemma period_le a b : a <= b -> period a <= period b.
Proof. intros H. rewrite !period_eq. unfold period_of. apply N.div_le_mono; [lia|exact H]. Qed.
Lemma signers_bits l : get_bits l = signers l.
Proof.
  unfold get_bits, signers, blen. f_equal. induction l as [|[] l IH]; cbn [filter count_occ]; [reflexivity| |]; destruct (Bool.bool_dec _ _) as [E|E]; try congruence; cbn [length]; congruence.
Qed.

(** ** Fork versions *)
Lemma pick_ok g n : forall l, descending l ->
  (exists e, In (e, pick_version l g n) l /\ e <= n /\ forall e' v', In (e', v') l -> e' <= n -> e' <= e) \/
  (pick_version l g n = g /\ forall e' v', In (e', v') l -> n < e').
Proof.
  induction l as [|(e, v) l IH]; cbn [descending pick_version]; intros D.
  - right. split; [reflexivity|intros ? ? []].
  - destruct D as [D1 D2]. destruct (N.leb_spec e n) as [L|L].
    + left. exists e. split; [left; reflexivity|]. split; [exact L|]. intros e' v' [E|I] _; [injection E; intros; subst; lia|exact (D1 _ _ I)].
    + destruct (IH D2) as [(e0 & I & L0 & M)|(E & M)].
      * left. exists e0. split; [right; exact I|]. split; [exact L0|]. intros e' v' [E|I'] L'; [injection E; intros; subst; lia|exact (M _ _ I' L')].
      * right. split; [exact E|]. intros e' v' [E'|I']; [injection E'; intros; subst; exact L|exact (M _ _ I')].
Qed.
Lemma epoch_slot e slot : e <= slot / 32 <-> e * 32 <= slot.
Proof. pose proof (N.div_mod slot 32 ltac:(lia)). pose proof (N.mod_lt slot 32 ltac:(lia)). lia. Qed.
Lemma fork_ok cf slot : descending (fork_epochs cf) -> in_fork cf slot (fork_version cf slot).
Proof.
  intros D. unfold fork_version, in_fork. destruct (pick_ok (genesis_version cf) (slot / 32) _ D) as [(e & I & L & M)|(E & M)].
  - left. exists e. split; [exact I|]. split; [apply epoch_slot; exact L|]. intros e' v' I' L'. apply (M e' v' I'). apply epoch_slot. exact L'.
  - right. split; [exact E|]. intros e' v' I'. specialize (M e' v' I'). destruct (N.le_gt_cases (e' * 32) slot) as [Q|Q]; [apply epoch_slot in Q; lia|exact Q].
Qed.

Section Crypto.
Context (sha : bytes -> bytes) {key : Type} (parse_key : bytes -> option key) (aggregate_verify : list key -> bytes -> bytes -> bool).
Context (Hsha : forall x, len32 (sha x)).
Notation root_of_header := (root_of_header sha).
Notation root_of_committee := (root_of_committee sha).
Notation clash := (clash sha).

(** ** Roots *)
Lemma header_root_eq h : header_root sha h = root_of_header h.
Proof. unfold header_root, LightClient_Spec.root_of_header. apply container_ok. reflexivity. Qed.
Lemma container2 x y : container_root sha [x; y] = sha (x ++ y).
Proof. rewrite (container_ok sha [x; y] 1) by reflexivity. reflexivity. Qed.
Lemma key_root_eq k : length k = 48%nat -> pubkey_root sha k = root_of_key sha k.
Proof.
  intros L. unfold pubkey_root, pubkey_chunks, root_of_key. rewrite container2. unfold pad32. rewrite skipn_length, L. change (32 - (48 - 32))%nat with 16%nat.
  rewrite app_assoc, firstn_skipn. reflexivity.
Qed.
Lemma committee_root_eq c : committee_typed c -> committee_root sha c = root_of_committee c.
Proof.
  intros (L & F & A). unfold committee_root, LightClient_Spec.root_of_committee, root_of_keys. rewrite container2, key_root_eq by exact A. f_equal. f_equal.
  assert (E : map (pubkey_root sha) (pubkeys c) = map (root_of_key sha) (pubkeys c)).
  { apply map_ext_in. intros k I. apply key_root_eq. rewrite Forall_forall in F. exact (F k I). }
  rewrite E. apply container_ok. apply log2_up_range; [lia|]. rewrite map_length, L. cbn. lia.
Qed.
Lemma message_eq genesis version a : length version = 4%nat ->
  compute_committee_sign_root sha genesis (header_root sha a) version = message sha genesis version a.
Proof.
  intros L. unfold compute_committee_sign_root, compute_signing_root, compute_domain, compute_fork_data_root, message. rewrite !container2, header_root_eq.
  unfold pad32. rewrite L. change (32 - 4)%nat with 28%nat. rewrite <- (app_assoc version). reflexivity.
Qed.
Lemma header_leaves_len h : header_typed h -> Forall len32 (header_leaves h).
Proof. intros (_ & _ & A & B & C). repeat constructor; try assumption; apply le32_len. Qed.
Lemma header_root_len h : header_typed h -> len32 (root_of_header h).
Proof. intros H. apply root_len; [exact Hsha|]. apply header_leaves_len. exact H. Qed.

Lemma clash_app xs xs' ys ys' : clash xs ys -> clash (xs ++ xs') (ys ++ ys').
Proof. apply clash_incl; apply incl_appl, incl_refl. Qed.

Lemma sha_inj x y xs ys : sha x = sha y -> In x xs -> In y ys -> x = y \/ clash xs ys.
Proof.
  intros E I J. destruct (beqb x y) eqn:B; [left; apply (proj1 (beqb_spec x y)); exact B|]. right. exists x, y. split; [exact I|]. split; [exact J|]. split; [|exact E].
  apply beqb_false. exact B.
Qed.
Lemma tree_inj : forall d l1 l2, Forall len32 l1 -> Forall len32 l2 -> length l1 = length l2 -> (length l1 <= 2 ^ d)%nat ->
  merkle_root sha d l1 = merkle_root sha d l2 -> l1 = l2 \/ clash (hashed_by_tree sha d l1) (hashed_by_tree sha d l2).
Proof.
  induction d as [|d IH]; intros l1 l2 F1 F2 L B E.
  - left. cbn [Nat.pow] in B. destruct l1 as [|x [|? ?]], l2 as [|y [|? ?]]; cbn [length] in *; try lia; [reflexivity|]. cbn [merkle_root nth] in E. now rewrite E.
  - cbn [merkle_root hashed_by_tree] in *. match goal with |- _ \/ Header_Spec.clash _ ?X ?Y => destruct (sha_inj _ _ X Y E (in_eq _ _) (in_eq _ _)) as [Q|Q]; [|right; exact Q] end.
    apply app_split in Q; [|rewrite !(root_len sha Hsha) by (apply firstn_forall; assumption); reflexivity]. destruct Q as [Q1 Q2].
    destruct (IH (firstn (2 ^ d) l1) (firstn (2 ^ d) l2)) as [R1|C].
    + apply firstn_forall; exact F1. + apply firstn_forall; exact F2. + rewrite !firstn_length, L. reflexivity. + rewrite firstn_length. apply Nat.le_min_l. + exact Q1.
    + destruct (IH (skipn (2 ^ d) l1) (skipn (2 ^ d) l2)) as [R2|C].
      * apply skipn_forall; exact F1. * apply skipn_forall; exact F2. * rewrite !skipn_length, L. reflexivity.
      * rewrite skipn_length. rewrite Merkle_Proofs.pow2_S in B. lia.
      * exact Q2.
      * left. rewrite <- (firstn_skipn (2 ^ d) l1), <- (firstn_skipn (2 ^ d) l2), R1, R2. reflexivity.
      * right. apply (clash_incl sha) with (3 := C); apply incl_tl, incl_appr, incl_refl.
    + right. apply (clash_incl sha) with (3 := C); apply incl_tl, incl_appl, incl_refl.
Qed.
Lemma header_inj h1 h2 : header_typed h1 -> header_typed h2 -> root_of_header h1 = root_of_header h2 ->
  h1 = h2 \/ clash (hashed_by_header sha h1) (hashed_by_header sha h2).
Proof.
  intros T1 T2 E. destruct (tree_inj 3 _ _ (header_leaves_len _ T1) (header_leaves_len _ T2) eq_refl ltac:(cbn; lia) E) as [Q|Q]; [left|right; exact Q].
  destruct h1 as [s1 p1 a1 b1 c1], h2 as [s2 p2 a2 b2 c2]. destruct T1 as (A1 & B1 & _), T2 as (A2 & B2 & _). unfold header_leaves in Q. cbn [b_slot proposer parent_root state_root body_root] in *.
  assert (I : forall m n, m < 2 ^ 64 -> n < 2 ^ 64 -> le_bytes 32 m = le_bytes 32 n -> m = n).
  { clear. intros m n Hm Hn E. apply (f_equal le_num) in E. assert (P : 2 ^ 64 <= 256 ^ N.of_nat 32) by (vm_compute; discriminate).
    rewrite !le_num_le_bytes_id in E by lia. exact E. }
  pose proof (f_equal (fun l => nth 0 l []) Q) as E1. pose proof (f_equal (fun l => nth 1 l []) Q) as E2. pose proof (f_equal (fun l => nth 2 l []) Q) as E3.
  pose proof (f_equal (fun l => nth 3 l []) Q) as E4. pose proof (f_equal (fun l => nth 4 l []) Q) as E5. clear Q. cbn [nth] in *.
  rewrite (I _ _ A1 A2 E1), (I _ _ B1 B2 E2). congruence.
Qed.
Lemma keys_inj : forall l1 l2, length l1 = length l2 -> Forall (fun k => length k = 48%nat) l1 -> Forall (fun k => length k = 48%nat) l2 ->
  map (root_of_key sha) l1 = map (root_of_key sha) l2 -> l1 = l2 \/ clash (map (fun k => k ++ repeat 0 16) l1) (map (fun k => k ++ repeat 0 16) l2).
Proof.
  induction l1 as [|k1 l1 IH]; intros [|k2 l2] L F1 F2 E; try discriminate; [left; reflexivity|].
  injection E. intros E2 E1. injection L. intros L'. inversion F1 as [|? ? K1 G1]; inversion F2 as [|? ? K2 G2]; subst. cbn [map].
  destruct (sha_inj _ _ ((k1 ++ repeat 0 16) :: map (fun k => k ++ repeat 0 16) l1) ((k2 ++ repeat 0 16) :: map (fun k => k ++ repeat 0 16) l2) E1 (in_eq _ _) (in_eq _ _)) as [Q|Q]; [|right; exact Q].
  apply app_split in Q; [|congruence]. destruct Q as [-> _]. destruct (IH l2 L' G1 G2 E2) as [->|C]; [left; reflexivity|].
  right. apply (clash_incl sha) with (3 := C); apply incl_tl, incl_refl.
Qed.
Lemma committee_inj c1 c2 : committee_typed c1 -> committee_typed c2 -> root_of_committee c1 = root_of_committee c2 ->
  c1 = c2 \/ clash (hashed_by_committee sha c1) (hashed_by_committee sha c2).
Proof.
  intros (L1 & F1 & A1) (L2 & F2 & A2) E. unfold hashed_by_committee.
  match goal with |- _ \/ Header_Spec.clash _ ?X ?Y => destruct (sha_inj _ _ X Y E) as [Q|Q] end;
    [apply in_or_app; right; apply in_or_app; right; left; reflexivity|apply in_or_app; right; apply in_or_app; right; left; reflexivity| |right; exact Q].
  assert (KL : forall l, Forall len32 (map (root_of_key sha) l)). { intros l. apply Forall_forall. intros x I. apply in_map_iff in I. destruct I as (k & <- & _). apply Hsha. }
  apply app_split in Q; [|unfold root_of_keys; rewrite !(root_len sha Hsha) by apply KL; reflexivity]. destruct Q as [Q1 Q2].
  apply tree_inj in Q1; [|apply KL|apply KL|rewrite !map_length; congruence|rewrite map_length, L1; cbn; lia].
  destruct Q1 as [Q1|C]; [|right; apply (clash_incl sha) with (3 := C); apply incl_appr, incl_appl, incl_refl].
  destruct (keys_inj _ _ (eq_trans L1 (eq_sym L2)) F1 F2 Q1) as [Q|C]; [|right; apply (clash_incl sha) with (3 := C); apply incl_appl; cbn [map]; apply incl_tl, incl_refl].
  match goal with |- _ \/ Header_Spec.clash _ ?X ?Y => destruct (sha_inj _ _ X Y Q2) as [R|R] end; [left; reflexivity|left; reflexivity| |right; exact R].
  apply app_split in R; [|congruence]. left. destruct R as [R _]. destruct c1 as [k1 a1], c2 as [k2 a2]; cbn [pubkeys aggregate_pubkey] in *. congruence.
Qed.

(** ** Proofs *)
Lemma path_from : forall b r index i, path_root sha r b (N.shiftr index i) = root_from_branch sha r b index i.
Proof.
  induction b as [|h b IH]; intros r index i; cbn [path_root root_from_branch]; [reflexivity|].
  assert (O : N.odd (N.shiftr index i) = N.testbit index i). { rewrite <- N.bit0_odd, N.shiftr_spec', N.add_0_l. reflexivity. }
  rewrite O. rewrite N.div2_spec, N.shiftr_shiftr. rewrite IH. destruct (N.testbit index i); reflexivity.
Qed.
Lemma proven_iff a leaf b d index : is_proof_valid sha a leaf b d index = true <-> proven sha a leaf b d index.
Proof.
  unfold is_proof_valid, verify_merkle_proof, proven. rewrite <- (N.shiftr_0_r index) at 2. rewrite path_from. rewrite Bool.andb_true_iff, Nat.eqb_eq, beqb_spec. reflexivity.
Qed.

Lemma participating_ok : forall bs keys ps, participating_keys parse_key keys bs = Ok ps ->
  Forall2 (fun k p => parse_key k = Some p) (map fst (filter snd (combine keys bs))) ps.
Proof.
  induction bs as [|b bs IH]; intros keys ps E.
  - injection E as <-. destruct keys; constructor.
  - cbn [participating_keys] in E. destruct b.
    + destruct keys as [|k keys]; [discriminate|]. destruct (parse_key k) as [p|] eqn:P; [|discriminate]. destruct (participating_keys parse_key keys bs) as [qs| |] eqn:Q; try discriminate.
      injection E as <-. cbn [combine filter snd map fst]. constructor; [exact P|]. apply IH. exact Q.
    + apply IH in E. destruct keys as [|k keys]; cbn [tl combine filter snd] in *; [destruct bs; exact E|exact E].
Qed.
Lemma participating_complete : forall bs keys ps, (length bs <= length keys)%nat ->
  Forall2 (fun k p => parse_key k = Some p) (map fst (filter snd (combine keys bs))) ps -> participating_keys parse_key keys bs = Ok ps.
Proof.
  induction bs as [|b bs IH]; intros keys ps L F.
  - destruct keys; cbn in F; inversion F; reflexivity.
  - destruct keys as [|k keys]; [cbn in L; lia|]. cbn [length] in L. cbn [participating_keys combine filter snd map fst] in *. destruct b; cbn [map fst tl] in *.
    + inversion F as [|? p ? ps' P F']; subst. rewrite P. rewrite (IH keys ps' ltac:(lia) F'). reflexivity.
    + apply IH; [lia|exact F].
Qed.

(** ** Verification *)
Lemma ensure_ok b k : ensure b k = Ok tt <-> b = true /\ k = Ok tt.
Proof. unfold ensure. destruct b; intuition congruence. Qed.
Lemma version_len cf slot : config_typed cf -> length (fork_version cf slot) = 4%nat.
Proof.
  intros (_ & G & F). unfold fork_version. induction F as [|(e, v) l Hv F IH]; cbn [pick_version]; [exact G|]. destruct (e <=? slot / 32); [exact Hv|exact IH].
Qed.
Notation verify := (verify sha parse_key aggregate_verify).
Notation signed_by := (signed_by sha parse_key aggregate_verify).
Lemma verify_inv cf s now u : config_typed cf -> update_typed u -> verify cf s now u = Ok tt ->
  0 < signers (bits_of u) /\ sig_slot_of u <= now /\ b_slot (attested_of u) < sig_slot_of u /\
  (forall f fb, finality_of u = Some (f, fb) -> b_slot f <= b_slot (attested_of u) /\ proven sha (attested_of u) (root_of_header f) fb 7 41) /\
  (forall a c cb f fb bs sig slot, u = FullUpdate a c cb f fb bs sig slot -> proven sha a (root_of_committee c) cb 6 23) /\
  (period (sig_slot_of u) = period (b_slot (finalized s)) \/ (period (sig_slot_of u) = period (b_slot (finalized s)) + 1 /\ next_known s <> None)) /\
  (b_slot (finalized s) < b_slot (attested_of u) \/ (next_known s = None /\ committee_of u <> None /\ period (b_slot (attested_of u)) = period (b_slot (finalized s)))) /\
  exists c, (if period (sig_slot_of u) =? period (b_slot (finalized s)) then Some (current_committee s) else next_known s) = Some c /\
    signed_by c (bits_of u) (genesis_root cf) (fork_version cf (sig_slot_of u)) (attested_of u) (sig_of u).
Proof.
  intros TC TU V. unfold LightClient_Model.verify, verify_generic_update in V. 
  apply ensure_ok in V as [V1 V]. apply ensure_ok in V as [V2 V]. apply ensure_ok in V as [V3 V]. apply ensure_ok in V as [V4 V]. apply ensure_ok in V as [V5 V]. apply ensure_ok in V as [V6 V].
  assert (G : attested (to_generic u) = attested_of u /\ bits (to_generic u) = bits_of u /\ signature (to_generic u) = sig_of u /\ signature_slot (to_generic u) = sig_slot_of u /\
    next_committee (to_generic u) = committee_of u) by (destruct u; repeat split; reflexivity).
  destruct G as (G1 & G2 & G3 & G4 & G5). rewrite G1, G2, G3, G4, G5 in *.
  apply N.ltb_lt in V1. rewrite signers_bits in V1. apply andb_prop in V2 as [V2 V2c]. apply andb_prop in V2 as [V2a V2b]. apply N.leb_le in V2a, V2c. apply N.ltb_lt in V2b.
  split; [exact V1|]. split; [exact V2a|]. split; [exact V2b|]. split; [|split; [|split; [|split]]].
  - intros f fb E. assert (E' : final (to_generic u) = Some f /\ final_branch (to_generic u) = Some fb) by (destruct u; inversion E; subst; split; reflexivity).
    destruct E' as [E1 E2]. rewrite E1, E2 in *. split; [exact V2c|]. unfold is_finality_proof_valid in V5. rewrite proven_iff, header_root_eq in V5. exact V5.
  - intros a c cb f fb bs sig slot ->. cbn [to_generic next_branch committee_of attested_of] in V6. unfold is_next_committee_proof_valid in V6. rewrite proven_iff, committee_root_eq in V6 by apply TU. exact V6.
  - destruct (next_known s); cbn [is_some] in V3; [apply orb_prop in V3 as [V3|V3]; apply N.eqb_eq in V3; [left; exact V3|right; split; [exact V3|discriminate]]|apply N.eqb_eq in V3; left; exact V3].
  - apply orb_prop in V4 as [V4|V4]; [left; apply N.ltb_lt; exact V4|right]. apply andb_prop in V4 as [V4 V4c]. apply andb_prop in V4 as [V4a V4b]. apply N.eqb_eq in V4c.
    destruct (next_known s); [discriminate|]. destruct (committee_of u); [|discriminate]. split; [reflexivity|]. split; [discriminate|exact V4c].
  - destruct (if _ =? _ then _ else _) as [c|]; [|discriminate]. exists c. split; [reflexivity|].
    destruct (participating_keys parse_key (pubkeys c) (bits_of u)) as [ps| |] eqn:P; try discriminate. cbn [obind] in V. apply ensure_ok in V as [V _]. unfold verify_sync_committee_signature in V.
    rewrite message_eq in V by (apply version_len; exact TC). exists ps. split; [apply participating_ok; exact P|exact V].
Qed.

(** ** Runs *)
Notation process := (process sha parse_key aggregate_verify).
Notation advance := (advance sha parse_key aggregate_verify).
Notation sync := (sync sha parse_key aggregate_verify).
Notation apply_u := (fun c u => apply_generic_update sha c (to_generic u)).
Inductive reach (cf : config) (P : N -> update -> Prop) : client -> client -> Prop :=
| reach_refl c : reach cf P c c
| reach_step c c1 now u : reach cf P c c1 -> P now u -> verify cf (lc_store c1) now u = Ok tt -> reach cf P c (apply_u c1 u).
Lemma reach_trans cf P a b c : reach cf P a b -> reach cf P b c -> reach cf P a c.
Proof. intros R1 R2. induction R2 as [|b c1 now u R2 IH Pu V]; [exact R1|]. econstructor; [exact (IH R1)|exact Pu|exact V]. Qed.
Lemma reach_mono cf (P Q : N -> update -> Prop) a b : (forall n u, P n u -> Q n u) -> reach cf P a b -> reach cf Q a b.
Proof. intros H R. induction R as [|b c1 now u R2 IH Pu V]; [constructor|]. econstructor; [exact IH|apply H; exact Pu|exact V]. Qed.
Lemma process_reach cf (P : N -> update -> Prop) c x : P (fst x) (snd x) -> reach cf P c (fst (process cf c x)).
Proof.
  intros H. unfold LightClient_Model.process. destruct (LightClient_Model.verify _ _ _ _ _ _ _) as [[]| |] eqn:V; try apply reach_refl. cbn [fst].
  apply reach_step with (now := fst x); [apply reach_refl|exact H|exact V].
Qed.
Lemma and_then_reach cf P c r k : reach cf P c (fst r) -> (snd r = Ok tt -> reach cf P (fst r) (fst (k (fst r)))) -> reach cf P c (fst (and_then r k)).
Proof. intros R K. unfold and_then. destruct (snd r) as [[]| |]; try exact R. exact (reach_trans _ _ _ _ _ R (K eq_refl)). Qed.
Lemma process_all_reach cf (P : N -> update -> Prop) : forall l c, (forall n u, In (n, u) l -> P n u) -> reach cf P c (fst (process_all sha parse_key aggregate_verify cf c l)).
Proof.
  induction l as [|(n, u) l IH]; intros c H; cbn [process_all]; [constructor|]. apply and_then_reach.
  - apply process_reach. apply H. left. reflexivity.
  - intros _. apply IH. intros m v I. apply H. right. exact I.
Qed.
Lemma latest_reach cf c f : reach cf (fetched_in f) c (fst (latest_updates sha parse_key aggregate_verify cf c f)).
Proof.
  unfold latest_updates. apply and_then_reach.
  - destruct (f_finality f) as [(n, u)|] eqn:E; [apply process_reach; right; left; exact E|constructor].
  - intros _. destruct (f_optimistic f) as [(n, u)|] eqn:E; [apply process_reach; right; right; exact E|constructor].
Qed.
Lemma advance_reach cf c f : reach cf (fetched_in f) c (fst (advance cf c f)).
Proof.
  unfold LightClient_Model.advance. apply and_then_reach; [apply latest_reach|]. intros _. destruct (next_known _); [constructor|].
  destruct (f_updates f _) as [[|(n, u) [|]]|] eqn:E; try constructor.
  pose proof (process_reach cf (fetched_in f) (fst (latest_updates sha parse_key aggregate_verify cf c f)) (n, u)) as R.
  destruct (LightClient_Model.process _ _ _ _ _ _) as [c' [[]| |]]; try constructor. apply R. left. eexists. eexists. split; [exact E|left; reflexivity].
Qed.
Lemma fetch_all_in fetch : forall ps l n u, fetch_all fetch ps = Some l -> In (n, u) l -> exists p l', fetch p = Some l' /\ In (n, u) l'.
Proof.
  induction ps as [|p ps IH]; intros l n u E I; cbn [fetch_all] in E; [injection E as <-; destruct I|].
  destruct (fetch p) as [l1|] eqn:F; [|discriminate]. destruct (fetch_all fetch ps) as [l2|] eqn:G; [|discriminate]. injection E as <-. apply in_app_or in I as [I|I].
  - exists p, l1. split; assumption.
  - exact (IH l2 n u eq_refl I).
Qed.
Definition boot_store (b : bootstrap_data) : store :=
  {| finalized := bs_header b; current_committee := bs_committee b; next_known := None; optimistic := bs_header b; previous_max := 0; current_max := 0 |}.
Lemma bootstrap_inv cf c now b c1 r : bootstrap sha cf c now b = (c1, r) -> (r <> Ok tt /\ c1 = c) \/
  (r = Ok tt /\ header_root sha (bs_header b) = initial_checkpoint c /\ is_current_committee_proof_valid sha (bs_header b) (bs_committee b) (bs_branch b) = true /\
   lc_store c1 = boot_store b /\ initial_checkpoint c1 = initial_checkpoint c /\ last_checkpoint c1 = last_checkpoint c).
Proof.
  unfold bootstrap. destruct (_ && _); [intros E; injection E as <- <-; left; split; [discriminate|reflexivity]|].
  destruct (beqb _ _) eqn:B; cbn [negb]; [|intros E; injection E as <- <-; left; split; [discriminate|reflexivity]].
  destruct (is_current_committee_proof_valid _ _ _ _) eqn:Q; cbn [negb]; [|intros E; injection E as <- <-; left; split; [discriminate|reflexivity]].
  intros E; injection E as <- <-. right. apply (proj1 (beqb_spec _ _)) in B. repeat split; auto.
Qed.
Lemma sync_reach cf c f : (fst (sync cf c f) = c /\ snd (sync cf c f) <> Ok tt) \/
  exists now b cb, f_bootstrap f = Some (now, b) /\ bootstrap sha cf c now b = (cb, Ok tt) /\ reach cf (fetched_in f) cb (fst (sync cf c f)).
Proof.
  unfold LightClient_Model.sync. destruct (f_bootstrap f) as [(now, b)|] eqn:FB; [|left; split; [reflexivity|discriminate]].
  destruct (bootstrap sha cf c now b) as [cb r] eqn:B. destruct (bootstrap_inv _ _ _ _ _ _ B) as [(Nr & ->)|(-> & _)].
  - left. destruct r as [[]| |]; [now destruct Nr| |]; (split; [reflexivity|discriminate]).
  - right. exists now, b, cb. split; [reflexivity|]. split; [exact B|]. unfold and_then at 1. cbn [snd fst].
    destruct (fetch_all _ _) as [l|] eqn:E; [|constructor]. apply and_then_reach.
    + apply process_all_reach. intros n u I. left. exact (fetch_all_in _ _ _ _ _ E I).
    + intros _. apply latest_reach.
Qed.
Notation lc_run := (lc_run sha parse_key aggregate_verify).
Lemma run_reach cf : forall gs c, reach cf (fun n u => exists g, In g gs /\ fetched_in g n u) c (lc_run cf c (map Advance gs)).
Proof.
  unfold LightClient_Model.lc_run. induction gs as [|g gs IH]; intros c; cbn [map fold_left]; [constructor|]. cbn [lc_step].
  apply reach_trans with (fst (advance cf c g)).
  - eapply reach_mono; [|apply advance_reach]. intros n u H. exists g. split; [left; reflexivity|exact H].
  - eapply reach_mono; [|apply IH]. intros n u (g' & I & H). exists g'. split; [right; exact I|exact H].
Qed.

(** ** The effect of an update *)
Definition opt_step (s : store) (u : update) : bheader :=
  if (N.max (N.max (current_max s) (signers (bits_of u))) (previous_max s) / 2 <? signers (bits_of u)) && (b_slot (optimistic s) <? b_slot (attested_of u))
  then attested_of u else optimistic s.
Lemma apply_effect c u : let s := lc_store c in let s' := lc_store (apply_u c u) in
  initial_checkpoint (apply_u c u) = initial_checkpoint c /\
  ((finalized s' = finalized s /\ current_committee s' = current_committee s /\ next_known s' = next_known s /\ optimistic s' = opt_step s u) \/
   (exists f fb, finality_of u = Some (f, fb) /\ supermajority (bits_of u) /\
     (b_slot (finalized s) < b_slot f \/ (next_known s = None /\ committee_of u <> None /\ period (b_slot f) = period (b_slot (attested_of u)))) /\
     finalized s' = (if b_slot (finalized s) <? b_slot f then f else finalized s) /\
     optimistic s' = (if (b_slot (finalized s) <? b_slot f) && (b_slot (opt_step s u) <? b_slot f) then f else opt_step s u) /\
     match next_known s with
     | None => current_committee s' = current_committee s /\ next_known s' = committee_of u
     | Some nc => if period (b_slot f) =? period (b_slot (finalized s)) + 1 then current_committee s' = nc /\ next_known s' = committee_of u
                  else current_committee s' = current_committee s /\ next_known s' = next_known s
     end)).
Proof.
  cbn zeta. unfold apply_generic_update, opt_step, safety_threshold.
  assert (G : attested (to_generic u) = attested_of u /\ bits (to_generic u) = bits_of u /\
    next_committee (to_generic u) = committee_of u) by (destruct u; repeat split; reflexivity).
  destruct G as (G1 & G2 & G5). rewrite G1, G2, G5. cbn [current_max previous_max finalized optimistic next_known current_committee]. rewrite signers_bits.
  set (n := signers (bits_of u)). set (s := lc_store c). set (a := attested_of u).
  set (cond := (_ <? n) && (_ <? b_slot a)).
  set (s1 := {| finalized := finalized s; current_committee := current_committee s; next_known := next_known s; optimistic := optimistic s;
               previous_max := previous_max s; current_max := N.max (current_max s) n |}).
  set (s2 := if cond then _ else s1). set (o := if cond then a else optimistic s).
  assert (S2 : finalized s2 = finalized s /\ current_committee s2 = current_committee s /\ next_known s2 = next_known s /\ optimistic s2 = o) by (unfold s2, o; destruct cond; repeat split; reflexivity).
  clearbody s2. clear s1. destruct S2 as (S2a & S2b & S2c & S2d). rewrite S2a, S2b, S2c, S2d.
  destruct (finality_of u) as [[f fb]|] eqn:EF.
  - assert (E' : final (to_generic u) = Some f /\ final_branch (to_generic u) = Some fb /\ (has_sync_update (to_generic u) = is_some (committee_of u))) by (destruct u; inversion EF; subst; repeat split; reflexivity).
    destruct E' as (E1 & E2 & E3). unfold has_finality_update. rewrite E1, E2, E3. cbn [is_some andb].
    destruct (N.leb_spec (512 * 2) (n * 3)) as [M|M]; cbn [andb].
    + destruct (N.ltb_spec (b_slot (finalized s)) (b_slot f)) as [L|L]; pose proof L as Lb; [apply N.ltb_lt in Lb|apply N.ltb_ge in Lb]; cbn [orb andb].
      * destruct (next_known s) as [nc|] eqn:K.
        { destruct (N.eqb_spec (period (b_slot f)) (period (b_slot (finalized s)) + 1)) as [P|P]; pose proof P as Pb; [apply N.eqb_eq in Pb|apply N.eqb_neq in Pb].
          - cbn [lc_store initial_checkpoint finalized current_committee next_known optimistic]. rewrite (proj2 (N.ltb_lt _ _) L). cbn [lc_store initial_checkpoint finalized current_committee next_known optimistic].
            split; [reflexivity|]. right. exists f, fb. rewrite ?Lb, ?Pb, ?EF; cbn [andb]. split; [reflexivity|]. split; [unfold supermajority; fold n; lia|]. split; [left; exact L|]. split; [reflexivity|]. split; [reflexivity|]. split; reflexivity.
          - rewrite S2a, S2b, S2c, S2d. rewrite (proj2 (N.ltb_lt _ _) L). cbn [lc_store initial_checkpoint finalized current_committee next_known optimistic].
            split; [reflexivity|]. right. exists f, fb. rewrite ?Lb, ?Pb, ?EF; cbn [andb]. split; [reflexivity|]. split; [unfold supermajority; fold n; lia|]. split; [left; exact L|]. split; [reflexivity|]. split; [reflexivity|]. split; reflexivity. }
        { cbn [lc_store initial_checkpoint finalized current_committee next_known optimistic]. rewrite (proj2 (N.ltb_lt _ _) L). cbn [lc_store initial_checkpoint finalized current_committee next_known optimistic].
          split; [reflexivity|]. right. exists f, fb. rewrite ?Lb, ?Pb, ?EF; cbn [andb]. split; [reflexivity|]. split; [unfold supermajority; fold n; lia|]. split; [left; exact L|]. split; [reflexivity|]. split; [reflexivity|]. split; reflexivity. }
      * destruct (next_known s) as [nc|] eqn:K; cbn [is_some negb andb].
        { cbn [lc_store initial_checkpoint]. split; [reflexivity|]. left. repeat split; assumption. }
        { destruct (committee_of u) as [cm|] eqn:CM; cbn [is_some andb]; [|cbn [lc_store initial_checkpoint]; split; [reflexivity|]; left; repeat split; assumption].
          destruct (N.eqb_spec (period (b_slot f)) (period (b_slot a))) as [P|P]; [|cbn [lc_store initial_checkpoint]; split; [reflexivity|]; left; repeat split; assumption].
          cbn [lc_store initial_checkpoint finalized current_committee next_known optimistic]. rewrite (proj2 (N.ltb_ge _ _) L). cbn [lc_store initial_checkpoint finalized current_committee next_known optimistic].
          split; [reflexivity|]. right. exists f, fb. rewrite ?Lb, ?Pb, ?EF; cbn [andb]. split; [reflexivity|]. split; [unfold supermajority; fold n; lia|]. split; [right; split; [reflexivity|]; split; [discriminate|exact P]|]. split; [reflexivity|]. split; [reflexivity|]. split; reflexivity. }
    + cbn [lc_store initial_checkpoint]. split; [reflexivity|]. left. repeat split; assumption.
  - assert (E' : final (to_generic u) = None /\ has_finality_update (to_generic u) = false) by (destruct u; inversion EF; subst; split; reflexivity).
    destruct E' as (E1 & E2). rewrite E1, E2. rewrite (proj2 (N.ltb_ge (b_slot (finalized s)) 0) (N.le_0_l _)). rewrite ?Bool.andb_false_r; cbn [andb orb]; rewrite ?Bool.andb_false_r; cbn [andb orb]; rewrite ?Bool.andb_false_r.
    cbn [lc_store initial_checkpoint]. split; [reflexivity|]. left. repeat split; assumption.
Qed.
Lemma opt_step_cases s u : opt_step s u = optimistic s \/ (opt_step s u = attested_of u /\ b_slot (optimistic s) < b_slot (attested_of u)).
Proof. unfold opt_step. destruct (_ <? signers _); cbn [andb]; [|left; reflexivity]. destruct (N.ltb_spec (b_slot (optimistic s)) (b_slot (attested_of u))); [right; split; [reflexivity|assumption]|left; reflexivity]. Qed.
Lemma opt_step_le s u : b_slot (optimistic s) <= b_slot (opt_step s u).
Proof. destruct (opt_step_cases s u) as [->|(-> & L)]; lia. Qed.

Lemma apply_last c u : last_checkpoint (apply_u c u) = last_checkpoint c \/
  (last_checkpoint (apply_u c u) = Some (root_of_header (finalized (lc_store (apply_u c u)))) /\ b_slot (finalized (lc_store (apply_u c u))) mod 32 = 0).
Proof.
  unfold apply_generic_update. destruct (_ && (_ || _)); [|left; reflexivity]. destruct (final (to_generic u)) as [f|]; [|left; reflexivity].
  match goal with |- context [if b_slot (finalized ?s) <? b_slot f then _ else _] => destruct (b_slot (finalized s) <? b_slot f) end; [|left; reflexivity].
  cbn [last_checkpoint lc_store finalized]. destruct (N.eqb_spec (b_slot f mod 32) 0) as [E|E]; [right|left; reflexivity]. rewrite header_root_eq. split; [reflexivity|exact E].
Qed.

(** ** Slots never go back *)
Lemma apply_monotone c u : b_slot (finalized (lc_store c)) <= b_slot (finalized (lc_store (apply_u c u))) /\
  b_slot (optimistic (lc_store c)) <= b_slot (optimistic (lc_store (apply_u c u))) /\
  (b_slot (finalized (lc_store c)) <= b_slot (optimistic (lc_store c)) -> b_slot (finalized (lc_store (apply_u c u))) <= b_slot (optimistic (lc_store (apply_u c u)))).
Proof.
  destruct (apply_effect c u) as (_ & [(E1 & _ & _ & E4)|(f & fb & _ & _ & _ & E1 & E4 & _)]); cbn beta in *; rewrite E1, E4; clear E1 E4; pose proof (opt_step_le (lc_store c) u) as L.
  - split; [lia|]. split; [exact L|lia].
  - destruct (N.ltb_spec (b_slot (finalized (lc_store c))) (b_slot f)); cbn [andb]; [destruct (N.ltb_spec (b_slot (opt_step (lc_store c) u)) (b_slot f))|]; split; try lia; split; lia.
Qed.
Lemma reach_monotone cf P c c' : reach cf P c c' -> b_slot (finalized (lc_store c)) <= b_slot (finalized (lc_store c')) /\
  b_slot (optimistic (lc_store c)) <= b_slot (optimistic (lc_store c')) /\
  (b_slot (finalized (lc_store c)) <= b_slot (optimistic (lc_store c)) -> b_slot (finalized (lc_store c')) <= b_slot (optimistic (lc_store c'))).
Proof.
  induction 1 as [|c c1 now u R (I1 & I2 & I3) Pu V]; [split; [lia|]; split; [lia|auto]|].
  destruct (apply_monotone c1 u) as (M1 & M2 & M3). cbn beta in *. split; [lia|]. split; [lia|auto].
Qed.

(** ** Trust *)
Section Trust.
Context (cf : config) (checkpoint : bytes) (boots : bootstrap_data -> Prop) (seen : N -> update -> Prop).
Context (TC : config_typed cf) (Desc : descending (fork_epochs cf)) (TU : forall now u, seen now u -> update_typed u).
Notation trusted_committee := (trusted_committee sha parse_key aggregate_verify cf checkpoint boots seen).
Notation endorsed := (endorsed sha parse_key aggregate_verify cf checkpoint boots seen).
Notation trusted_header := (trusted_header sha parse_key aggregate_verify cf checkpoint boots seen).
Definition good (s : store) : Prop :=
  trusted_committee (period (b_slot (finalized s))) (current_committee s) /\
  (forall c, next_known s = Some c -> trusted_committee (period (b_slot (finalized s)) + 1) c) /\
  trusted_header (finalized s) /\
  (trusted_header (optimistic s) \/ exists now u, endorsed now u /\ optimistic s = attested_of u).
Lemma endorsed_ok s now u : good s -> seen now u -> verify cf s now u = Ok tt -> endorsed now u.
Proof.
  intros (G1 & G2 & _) Sn V. destruct (verify_inv cf s now u TC (TU _ _ Sn) V) as (A1 & A2 & A3 & _ & _ & A6 & _ & (c & C & Sg)).
  split; [exact Sn|]. split; [exact A1|]. split; [exact A2|]. split; [exact A3|]. exists c, (fork_version cf (sig_slot_of u)).
  split; [|split; [apply fork_ok; exact Desc|exact Sg]]. rewrite <- period_eq.
  destruct (N.eqb_spec (period (sig_slot_of u)) (period (b_slot (finalized s)))) as [E|E]; [injection C as <-; rewrite E; exact G1|].
  destruct A6 as [A6|(A6 & _)]; [contradiction|]. rewrite A6. apply G2. exact C.
Qed.
Lemma step_good c now u : good (lc_store c) -> seen now u -> verify cf (lc_store c) now u = Ok tt -> good (lc_store (apply_u c u)).
Proof.
  intros G Sn V. pose proof (endorsed_ok _ _ _ G Sn V) as En.
  destruct (verify_inv cf _ now u TC (TU _ _ Sn) V) as (A1 & A2 & A3 & A4 & A5 & A6 & A7 & _).
  destruct (apply_effect c u) as (_ & Ef). cbn beta zeta in *. set (s := lc_store c) in *. set (s' := lc_store (apply_u c u)) in *. clearbody s'.
  destruct G as (G1 & G2 & G3 & G4).
  assert (G5 : trusted_header (opt_step s u) \/ exists now u', endorsed now u' /\ opt_step s u = attested_of u').
  { destruct (opt_step_cases s u) as [->|(-> & _)]; [exact G4|]. right. exists now, u. split; [exact En|reflexivity]. }
  destruct Ef as [(E1 & E2 & E3 & E4)|(f & fb & F1 & F2 & F3 & E1 & E4 & E5)].
  { unfold good. rewrite E1, E2, E3, E4. repeat split; assumption. }
  destruct (A4 f fb F1) as (Lf & Pf).
  assert (Tf : trusted_header f) by (right; exists now, u, fb; repeat (split; [assumption|]); exact Pf).
  assert (Pn : forall nc, committee_of u = Some nc -> trusted_committee (period (b_slot (attested_of u)) + 1) nc).
  { intros nc Ec. destruct u as [a cm cb f' fb' bs sg slot| |]; try discriminate. injection Ec as <-. cbn [attested_of sig_slot_of bits_of sig_of] in *.
    destruct En as (_ & _ & _ & _ & bc & v & E6 & E7 & E8). rewrite period_eq. eapply by_update; try eassumption. eapply A5. reflexivity. }
  assert (Per : period (b_slot (attested_of u)) <= period (sig_slot_of u)) by (apply period_le; lia).
  assert (Perf : period (b_slot f) <= period (b_slot (attested_of u))) by (apply period_le; exact Lf).
  assert (Fin : trusted_header (finalized s') /\ (trusted_header (optimistic s') \/ exists now u', endorsed now u' /\ optimistic s' = attested_of u')).
  { rewrite E1, E4. destruct (b_slot (finalized s) <? b_slot f); cbn [andb]; [destruct (_ <? _)|]; split; auto. }
  unfold good. split; [|split; [|exact Fin]]; clear Fin E4 G4 G5.
  - destruct (N.ltb_spec (b_slot (finalized s)) (b_slot f)) as [L|L]; rewrite E1.
    + assert (Ps : period (b_slot (finalized s)) <= period (b_slot f)) by (apply period_le; lia).
      destruct (next_known s) as [nc|] eqn:K.
      * destruct (N.eqb_spec (period (b_slot f)) (period (b_slot (finalized s)) + 1)) as [P|P]; destruct E5 as (E5 & _); rewrite E5.
        -- rewrite P. apply G2. reflexivity.
        -- replace (period (b_slot f)) with (period (b_slot (finalized s))) by (destruct A6 as [A6|(A6 & _)]; lia). exact G1.
      * destruct E5 as (E5 & _). rewrite E5. replace (period (b_slot f)) with (period (b_slot (finalized s))) by (destruct A6 as [A6|(A6 & A6')]; [lia|congruence]). exact G1.
    + assert (Ps : period (b_slot f) <= period (b_slot (finalized s))) by (apply period_le; lia).
      destruct F3 as [F3|(F3 & _)]; [lia|]. rewrite F3 in E5. destruct E5 as (E5 & _). rewrite E5. exact G1.
  - intros nc' K'. destruct (N.ltb_spec (b_slot (finalized s)) (b_slot f)) as [L|L]; rewrite E1.
    + assert (Ps : period (b_slot (finalized s)) <= period (b_slot f)) by (apply period_le; lia).
      destruct (next_known s) as [nc|] eqn:K.
      * destruct (N.eqb_spec (period (b_slot f)) (period (b_slot (finalized s)) + 1)) as [P|P]; destruct E5 as (_ & E5); rewrite E5 in K'.
        -- replace (period (b_slot f)) with (period (b_slot (attested_of u))) by (destruct A6 as [A6|(A6 & _)]; lia). apply Pn. exact K'.
        -- replace (period (b_slot f)) with (period (b_slot (finalized s))) by (destruct A6 as [A6|(A6 & _)]; lia). apply G2. exact K'.
      * destruct E5 as (_ & E5). rewrite E5 in K'. replace (period (b_slot f)) with (period (b_slot (attested_of u))) by (destruct A6 as [A6|(A6 & A6')]; [lia|congruence]). apply Pn. exact K'.
    + destruct F3 as [F3|(F3 & F3' & F3'')]; [lia|]. rewrite F3 in E5. destruct E5 as (_ & E5). rewrite E5 in K'.
      replace (period (b_slot (finalized s))) with (period (b_slot (attested_of u))); [apply Pn; exact K'|].
      destruct A7 as [A7|(_ & _ & A7)]; [|exact A7]. assert (Q : period (b_slot (finalized s)) <= period (b_slot (attested_of u))) by (apply period_le; lia).
      destruct A6 as [A6|(A6 & A6')]; [lia|congruence].
Qed.
Lemma reach_good c c' : reach cf seen c c' -> good (lc_store c) -> good (lc_store c').
Proof. induction 1 as [|c c1 now u R IH Pu V]; intros G; [exact G|]. apply step_good with now; [exact (IH G)|exact Pu|exact V]. Qed.
Definition good_last (c : client) : Prop := forall r, last_checkpoint c = Some r -> exists h, trusted_header h /\ b_slot h mod 32 = 0 /\ r = root_of_header h.
Lemma reach_last c c' : reach cf seen c c' -> good (lc_store c) -> good_last c -> good_last c'.
Proof.
  induction 1 as [|c c1 now u R IH Pu V]; intros G L; [exact L|]. intros r E. destruct (apply_last c1 u) as [Q|(Q & M)]; [rewrite Q in E; exact (IH G L r E)|].
  rewrite Q in E. injection E as <-. eexists. split; [|split; [exact M|reflexivity]]. pose proof (step_good c1 now u (reach_good _ _ R G) Pu V) as (_ & _ & T & _). exact T.
Qed.
Lemma boot_good b : boots b -> committee_typed (bs_committee b) -> header_root sha (bs_header b) = checkpoint ->
  is_current_committee_proof_valid sha (bs_header b) (bs_committee b) (bs_branch b) = true -> good (boot_store b).
Proof.
  intros B T H P. unfold is_current_committee_proof_valid in P. rewrite proven_iff, committee_root_eq in P by exact T. rewrite header_root_eq in H.
  assert (Th : trusted_header (bs_header b)) by (left; exists b; auto).
  split; [|split; [intros c E; discriminate|split; [exact Th|left; exact Th]]]. cbn [boot_store finalized current_committee]. rewrite period_eq. apply by_checkpoint; assumption.
Qed.
End Trust.

(** ** The chain *)
Section Chain.
Context (ch : beacon_chain) (OK : chain_ok sha ch) (cf : config) (Hon : honest sha parse_key aggregate_verify ch cf).
Context (checkpoint : bytes) (h0 : bheader) (H0 : canonical ch h0) (Hc : root_of_header h0 = checkpoint).
Context (boots : bootstrap_data -> Prop) (seen : N -> update -> Prop).
Context (TU : forall now u, seen now u -> update_typed u).
Context (TB : forall b, boots b -> header_typed (bs_header b) /\ committee_typed (bs_committee b) /\ Forall len32 (bs_branch b)).
Notation trusted_committee := (trusted_committee sha parse_key aggregate_verify cf checkpoint boots seen).
Notation endorsed := (endorsed sha parse_key aggregate_verify cf checkpoint boots seen).
Notation trusted_header := (trusted_header sha parse_key aggregate_verify cf checkpoint boots seen).
Definition broken : Prop := (exists now u, seen now u /\ broken_by sha ch u) \/ (exists b, boots b /\ broken_by_bootstrap sha ch h0 b).
Lemma committee_sound a c cb idx c0 : canonical ch a -> committee_typed c -> committee_typed c0 -> Forall len32 cb -> idx < 64 ->
  nth_error (fields ch a) (N.to_nat idx) = Some (root_of_committee c0) -> proven sha a (root_of_committee c) cb 6 idx ->
  c = c0 \/ clash (hashed_by_committee sha c ++ hashed_by_proof sha (root_of_committee c) cb idx) (hashed_by_state sha ch a ++ hashed_by_committee sha c0).
Proof.
  intros Ca Tc T0 Fb Li Nf P. destruct (OK a Ca) as (Ta & Ff & _ & _ & Es & _).
  apply proven_iff in P. unfold is_proof_valid in P. rewrite Es in P.
  apply last_level in P; [|exact Hsha|exact Ff|apply Hsha|exact Fb]. change (2 ^ N.of_nat 6) with 64 in P. rewrite N.mod_small in P by exact Li. rewrite (leaf_at_nth _ _ _ Nf) in P.
  destruct P as [P|C].
  - destruct (committee_inj c c0 Tc T0 P) as [Q|C]; [left; exact Q|right]. apply (clash_incl sha) with (3 := C); [apply incl_appl, incl_refl|apply incl_appr, incl_refl].
  - right. apply (clash_incl sha) with (3 := C); [apply incl_appr, incl_refl|]. apply incl_appl. unfold hashed_by_state. apply incl_appl, incl_refl.
Qed.
Lemma finality_sound a f fb : canonical ch a -> header_typed f -> Forall len32 fb -> proven sha a (root_of_header f) fb 7 41 ->
  f = finalized_block ch a \/ clash (hashed_by_header sha f ++ hashed_by_proof sha (root_of_header f) fb 41) (hashed_by_state sha ch a ++ hashed_by_header sha (finalized_block ch a)).
Proof.
  intros Ca Tf Fb P. destruct (OK a Ca) as (Ta & Ff & _ & Le & Es & E20 & _ & _ & Cf & _). destruct (OK _ Cf) as (Tf' & _).
  apply proven_iff in P. unfold is_proof_valid in P. rewrite Es in P. change 7%nat with (1 + 6)%nat in P.
  apply sound_step in P; [|exact Hsha|exact Ff|apply header_root_len; exact Tf|exact Fb].
  destruct P as [C|(b1 & b2 & Eb & P & Fb1 & Inc)].
  { right. apply (clash_incl sha) with (3 := C); [apply incl_appr, incl_refl|]. apply incl_appl. unfold hashed_by_state. apply incl_appl, incl_refl. }
  change (N.shiftr 41 (N.of_nat 1) mod 2 ^ N.of_nat 6) with 20 in P. rewrite (leaf_at_nth _ 20 _ E20) in P.
  rewrite <- (root1 sha _ _ Le) in P. apply last_level in P; [|exact Hsha|constructor; [exact Le|constructor; [apply header_root_len; exact Tf'|constructor]]|apply header_root_len; exact Tf|exact Fb1].
  change (41 mod 2 ^ N.of_nat 1) with 1 in P. destruct P as [P|C].
  - change (leaf_at [finalized_epoch ch a; root_of_header (finalized_block ch a)] 1) with (root_of_header (finalized_block ch a)) in P.
    destruct (header_inj f _ Tf Tf' P) as [Q|C]; [left; exact Q|right]. apply (clash_incl sha) with (3 := C); [apply incl_appl, incl_refl|apply incl_appr, incl_refl].
  - right. apply (clash_incl sha) with (3 := C); [apply incl_appr; exact Inc|]. rewrite hashed1. apply incl_appl. unfold hashed_by_state. apply incl_appr, incl_refl.
Qed.
Lemma boot_header b : boots b -> root_of_header (bs_header b) = checkpoint -> bs_header b = h0 \/ broken.
Proof.
  intros B E. destruct (TB b B) as (T1 & T2 & T3). destruct (OK h0 H0) as (T0 & _). destruct (header_inj (bs_header b) h0 T1 T0 ltac:(congruence)) as [Q|C]; [left; exact Q|].
  right. right. exists b. split; [exact B|]. unfold broken_by_bootstrap. apply (clash_incl sha) with (3 := C); apply incl_appl, incl_refl.
Qed.
Lemma committee_canonical p c : trusted_committee p c -> c = committee_at ch p \/ broken.
Proof.
  induction 1 as [b B E P|now a c cb f fb bs sig slot by_c v Sn L1 L2 M T IH Fk Sg P].
  - destruct (boot_header b B E) as [Q|Q]; [|right; exact Q]. destruct (TB b B) as (T1 & T2 & T3). destruct (OK h0 H0) as (T0 & _ & _ & _ & _ & _ & N22 & _ & _ & Ct).
    rewrite Q in *. destruct (committee_sound h0 (bs_committee b) (bs_branch b) 22 (committee_at ch (period_of (b_slot h0))) H0 T2 (Ct _) T3 ltac:(lia) N22 P) as [R|C]; [left; exact R|].
    right. right. exists b. split; [exact B|]. unfold broken_by_bootstrap. rewrite Q. apply (clash_incl sha) with (3 := C); [apply incl_appr, incl_refl|].
    apply incl_appr, incl_refl.
  - destruct IH as [->|Br]; [|right; exact Br]. destruct (TU _ _ Sn) as (Ta & Tc & Fcb & Tf & Ffb & Lb). pose proof (Hon a bs sig slot v Ta Lb M Fk Sg) as Ca.
    destruct (OK a Ca) as (_ & _ & _ & _ & _ & _ & _ & N23 & _ & Ct).
    destruct (committee_sound a c cb 23 _ Ca Tc (Ct _) Fcb ltac:(lia) N23 P) as [R|C]; [left; exact R|].
    right. left. exists now, (FullUpdate a c cb f fb bs sig slot). split; [exact Sn|]. split; [exact Ca|]. apply (clash_incl sha) with (3 := C).
    + apply incl_appr, incl_appr, incl_refl.
    + apply incl_app; [apply incl_appl, incl_refl|apply incl_appr, incl_appr, incl_refl].
Qed.
Lemma header_canonical h : trusted_header h -> canonical ch h \/ broken.
Proof.
  intros [(b & B & E & ->)|(now & u & fb & (Sn & _ & _ & _ & c & v & T & Fk & Sg) & M & F & L & P)].
  - destruct (boot_header b B E) as [->|Q]; [left; exact H0|right; exact Q].
  - destruct (committee_canonical _ _ T) as [->|Br]; [|right; exact Br]. assert (Ta : header_typed (attested_of u)) by (pose proof (TU _ _ Sn) as Tu; destruct u; apply Tu). assert (Lb : length (bits_of u) = 512%nat) by (pose proof (TU _ _ Sn) as Tu; destruct u; apply Tu). pose proof (Hon _ _ _ _ _ Ta Lb M Fk Sg) as Ca.
    assert (Tf : header_typed h /\ Forall len32 fb).
    { pose proof (TU _ _ Sn) as Tu. destruct u; inversion F; subst; destruct Tu as (? & ? & ? & ?); tauto. }
    destruct Tf as [Tf Ffb]. destruct (finality_sound _ h fb Ca Tf Ffb P) as [->|C].
    + left. destruct (OK _ Ca) as (_ & _ & _ & _ & _ & _ & _ & _ & Cf & _). exact Cf.
    + right. left. exists now, u. split; [exact Sn|]. split; [exact Ca|]. destruct u; inversion F; subst; cbn [attested_of] in *; apply (clash_incl sha) with (3 := C).
      * apply incl_app; [apply incl_appl, incl_refl|apply incl_appr, incl_appl, incl_refl].
      * apply incl_app; [apply incl_appl, incl_refl|apply incl_appr, incl_appl, incl_refl].
      * apply incl_refl.
      * apply incl_refl.
Qed.
End Chain.

(** ** Catching up *)
Section Honest.
Context (ch : beacon_chain) (TCm : forall p, committee_typed (committee_at ch p)) (cf : config) (TC : config_typed cf) (Desc : descending (fork_epochs cf)).
Notation in_step := (in_step ch).
Notation sound_update := (sound_update sha parse_key aggregate_verify ch cf).
Notation serves := (serves sha parse_key aggregate_verify ch cf).
Lemma verify_complete s now u : in_step s -> sound_update now u -> checks s (period_of (sig_slot_of u)) ->
  (b_slot (finalized s) < b_slot (attested_of u) \/ (next_known s = None /\ committee_of u <> None /\ period_of (b_slot (attested_of u)) = period_of (b_slot (finalized s)))) ->
  verify cf s now u = Ok tt.
Proof.
  intros (Is1 & Is2) (TU & S1 & S2 & S3 & S4 & S5 & S6) Ck Nw. unfold LightClient_Model.verify, verify_generic_update.
  assert (G : attested (to_generic u) = attested_of u /\ bits (to_generic u) = bits_of u /\ signature (to_generic u) = sig_of u /\ signature_slot (to_generic u) = sig_slot_of u /\
    next_committee (to_generic u) = committee_of u) by (destruct u; repeat split; reflexivity).
  destruct G as (G1 & G2 & G3 & G4 & G5). rewrite G1, G2, G3, G4, G5. rewrite signers_bits. rewrite !period_eq.
  assert (Fl : (match final (to_generic u) with Some f => b_slot f | None => 0 end) <= b_slot (attested_of u)).
  { destruct u; cbn [to_generic final]; try lia; apply (S4 _ _ eq_refl). }
  apply ensure_ok. split; [apply N.ltb_lt; exact S1|]. apply ensure_ok. split; [rewrite !Bool.andb_true_iff, N.leb_le, N.leb_le, N.ltb_lt; auto|].
  apply ensure_ok. split.
  { destruct Ck as [->|(-> & Kn)]; [destruct (next_known s); rewrite N.eqb_refl; reflexivity|]. destruct (next_known s); [|contradiction]. cbn [is_some]. rewrite N.eqb_refl. apply Bool.orb_true_r. }
  apply ensure_ok. split.
  { destruct Nw as [L|(Kn & Cm & Pe)]; [rewrite (proj2 (N.ltb_lt _ _) L); reflexivity|]. rewrite Kn, Pe, N.eqb_refl. destruct (committee_of u); [apply Bool.orb_true_r|contradiction]. }
  apply ensure_ok. split.
  { destruct u; cbn [to_generic final final_branch attested_of]; try reflexivity; unfold is_finality_proof_valid; apply proven_iff; rewrite header_root_eq; apply (S4 _ _ eq_refl). }
  apply ensure_ok. split.
  { destruct u; cbn [to_generic next_branch committee_of attested_of]; try reflexivity; unfold is_next_committee_proof_valid; apply proven_iff. rewrite committee_root_eq by apply TU. apply (S5 _ _ _ _ _ _ _ _ eq_refl). }
  assert (Sel : (if period_of (sig_slot_of u) =? period_of (b_slot (finalized s)) then Some (current_committee s) else next_known s) = Some (committee_at ch (period_of (sig_slot_of u)))).
  { destruct (N.eqb_spec (period_of (sig_slot_of u)) (period_of (b_slot (finalized s)))) as [E|E]; [rewrite Is1, E; reflexivity|]. destruct Ck as [Ck|(Ck & Kn)]; [contradiction|].
    destruct Is2 as [Is2|Is2]; [contradiction|]. rewrite Is2, Ck. reflexivity. }
  rewrite Sel. destruct (S6 _ (fork_ok cf (sig_slot_of u) Desc)) as (keys & Pk & Av).
  rewrite (participating_complete (bits_of u) _ keys); [| |exact Pk].
  - cbn [obind]. apply ensure_ok. split; [|reflexivity]. unfold verify_sync_committee_signature. rewrite message_eq by (apply version_len; exact TC). exact Av.
  - destruct (TCm (period_of (sig_slot_of u))) as (L & _). rewrite L. assert (B : length (bits_of u) = 512%nat) by (destruct u; apply TU). rewrite B. lia.
Qed.
(** A client in step stays in step, and an update by two thirds is taken over. *)
Lemma step_in_step c now u : in_step (lc_store c) -> sound_update now u -> verify cf (lc_store c) now u = Ok tt -> in_step (lc_store (apply_u c u)).
Proof.
  intros I Su V. destruct (verify_inv cf _ now u TC (proj1 Su) V) as (A1 & A2 & A3 & A4 & A5 & A6 & A7 & _). destruct Su as (TU & S1 & S2 & S3 & S4 & S5 & S6).
  destruct (apply_effect c u) as (_ & Ef). cbn beta zeta in *. set (s := lc_store c) in *. set (s' := lc_store (apply_u c u)) in *. clearbody s'.
  unfold LightClient_Spec.in_step in *. rewrite <- !period_eq in *. destruct I as (I1 & I2).
  destruct Ef as [(E1 & E2 & E3 & E4)|(f & fb & F1 & F2 & F3 & E1 & E4 & E5)].
  { rewrite E1, E2, E3. split; assumption. }
  destruct (A4 f fb F1) as (Lf & _).
  assert (Pn : forall nc, committee_of u = Some nc -> nc = committee_at ch (period (b_slot (attested_of u)) + 1)).
  { intros nc Ec. rewrite period_eq. destruct u; try discriminate. injection Ec as <-. apply (S5 _ _ _ _ _ _ _ _ eq_refl). }
  assert (Per : period (b_slot (attested_of u)) <= period (sig_slot_of u)) by (apply period_le; lia).
  assert (Perf : period (b_slot f) <= period (b_slot (attested_of u))) by (apply period_le; exact Lf).
  destruct (N.ltb_spec (b_slot (finalized s)) (b_slot f)) as [L|L]; rewrite E1.
  - assert (Ps : period (b_slot (finalized s)) <= period (b_slot f)) by (apply period_le; lia).
    destruct (next_known s) as [nc|] eqn:K.
    + destruct (N.eqb_spec (period (b_slot f)) (period (b_slot (finalized s)) + 1)) as [P|P]; destruct E5 as (E5 & E6); rewrite E5, E6.
      * assert (Q : period (b_slot (attested_of u)) = period (b_slot f)) by (destruct A6 as [A6|(A6 & _)]; lia). rewrite <- Q, Q at 1. rewrite P. destruct I2 as [I2|I2]; [discriminate|].
        split; [congruence|]. destruct (committee_of u) as [cm|]; [right|left; reflexivity]. rewrite (Pn cm eq_refl). f_equal. f_equal. lia.
      * assert (Q : period (b_slot f) = period (b_slot (finalized s))) by (destruct A6 as [A6|(A6 & _)]; lia). rewrite Q. split; [exact I1|exact I2].
    + destruct E5 as (E5 & E6). rewrite E5, E6. assert (Q : period (b_slot f) = period (b_slot (finalized s)) /\ period (b_slot (attested_of u)) = period (b_slot (finalized s))) by (destruct A6 as [A6|(A6 & A6')]; [lia|congruence]).
      destruct Q as (Q1 & Q2). rewrite Q1. split; [exact I1|]. destruct (committee_of u) as [cm|]; [right|left; reflexivity]. rewrite (Pn cm eq_refl). f_equal. f_equal. lia.
  - destruct F3 as [F3|(F3 & F3' & F3'')]; [lia|]. rewrite F3 in E5. destruct E5 as (E5 & E6). rewrite E5, E6. split; [exact I1|].
    destruct (committee_of u) as [cm|]; [right|left; reflexivity]. rewrite (Pn cm eq_refl). f_equal. f_equal.
    destruct A7 as [A7|(_ & _ & A7)]; [|lia]. assert (Q : period (b_slot (finalized s)) <= period (b_slot (attested_of u))) by (apply period_le; lia).
    destruct A6 as [A6|(A6 & A6')]; [lia|congruence].
Qed.
Lemma step_taken c u f fb : supermajority (bits_of u) -> finality_of u = Some (f, fb) ->
  b_slot f <= b_slot (finalized (lc_store (apply_u c u))) /\
  (finalized (lc_store (apply_u c u)) = finalized (lc_store c) \/ finalized (lc_store (apply_u c u)) = f).
Proof.
  intros M F. destruct (apply_effect c u) as (_ & Ef). cbn beta zeta in *. set (s' := lc_store (apply_u c u)) in *.
  assert (D : b_slot f <= b_slot (finalized (lc_store c)) \/ b_slot (finalized (lc_store c)) < b_slot f) by lia.
  destruct Ef as [(E1 & _)|(f' & fb' & F1 & _ & _ & E1 & _)].
  - rewrite E1. split; [|left; reflexivity]. destruct D as [D|D]; [exact D|exfalso].
    (* an update by two thirds with a newer header is always applied *)
    unfold s' in E1. clear s'. unfold apply_generic_update in E1.
    assert (G : final (to_generic u) = Some f /\ bits (to_generic u) = bits_of u) by (destruct u; inversion F; subst; split; reflexivity). destruct G as (G1 & G2).
    rewrite G1, G2, signers_bits in E1. cbn [current_max previous_max finalized optimistic next_known current_committee] in E1.
    set (s1 := if (safety_threshold _ <? _) && _ then _ else _) in E1. assert (S1 : finalized s1 = finalized (lc_store c)) by (unfold s1; destruct (_ && _); reflexivity). clearbody s1. rewrite S1 in E1.
    rewrite (proj2 (N.ltb_lt _ _) D) in E1. unfold supermajority in M. rewrite (proj2 (N.leb_le (512 * 2) (signers (bits_of u) * 3))) in E1 by lia. cbn [andb orb] in E1.
    destruct (next_known s1); [destruct (_ =? _ + 1)|]; cbn [finalized lc_store] in E1; rewrite ?S1, (proj2 (N.ltb_lt _ _) D) in E1; cbn [finalized lc_store] in E1; rewrite E1 in D; lia.
  - rewrite F in F1. injection F1 as <- <-. rewrite E1. destruct (N.ltb_spec (b_slot (finalized (lc_store c))) (b_slot f)); split; auto; lia.
Qed.
Lemma process_ok c now u : in_step (lc_store c) -> sound_update now u -> checks (lc_store c) (period_of (sig_slot_of u)) ->
  (b_slot (finalized (lc_store c)) < b_slot (attested_of u) \/ (next_known (lc_store c) = None /\ committee_of u <> None /\ period_of (b_slot (attested_of u)) = period_of (b_slot (finalized (lc_store c))))) ->
  process cf c (now, u) = (apply_u c u, Ok tt) /\ in_step (lc_store (apply_u c u)).
Proof.
  intros I Su Ck Nw. pose proof (verify_complete _ now u I Su Ck Nw) as V. split; [|apply step_in_step with now; assumption].
  unfold LightClient_Model.process. cbn [fst snd]. rewrite V. reflexivity.
Qed.
Lemma serve_step c p now u : in_step (lc_store c) -> serves p now u ->
  (p = period_of (b_slot (finalized (lc_store c))) /\ next_known (lc_store c) = None) \/ (p = period_of (b_slot (finalized (lc_store c))) + 1 /\ next_known (lc_store c) <> None) ->
  exists c', process cf c (now, u) = (c', Ok tt) /\ in_step (lc_store c') /\ period_of (b_slot (finalized (lc_store c'))) = p /\ next_known (lc_store c') <> None.
Proof.
  intros I (Su & M & P1 & P2 & a & cm & cb & f & fb & bs & sig & slot & -> & P3) Q.
  destruct (process_ok c now _ I Su) as (E & I').
  { unfold checks. rewrite P1. destruct Q as [(Q & _)|Q]; [left; exact Q|right; exact Q]. }
  { destruct Q as [(Q & Kn)|(Q & _)]; [right; split; [exact Kn|]; split; [discriminate|]; congruence|]. left.
    destruct (N.lt_ge_cases (b_slot (finalized (lc_store c))) (b_slot (attested_of (FullUpdate a cm cb f fb bs sig slot)))) as [L|L]; [exact L|exfalso].
    apply period_le in L. rewrite !period_eq in L. lia. }
  exists (apply_u c (FullUpdate a cm cb f fb bs sig slot)). split; [exact E|]. split; [exact I'|].
  destruct (step_taken c _ f fb M eq_refl) as (T1 & T2). clear E I'.
  destruct (apply_effect c (FullUpdate a cm cb f fb bs sig slot)) as (_ & Ef). cbn beta zeta in *.
  set (s' := lc_store (apply_u c (FullUpdate a cm cb f fb bs sig slot))) in *.
  assert (Pf : period_of (b_slot (finalized s')) = p).
  { destruct Q as [(Q & Kn)|(Q & Kn)].
    - destruct T2 as [-> | ->]; [symmetry; exact Q|exact P3].
    - apply period_le in T1. rewrite !period_eq in T1. destruct T2 as [T2|T2]; [rewrite T2 in T1; lia|rewrite T2; exact P3]. }
  split; [exact Pf|].
  destruct Ef as [(E1 & E2 & E3 & E4)|(f' & fb' & F1 & F2 & F3 & E1 & E4 & E5)].
  - rewrite E3. destruct Q as [(Q & Kn)|(Q & Kn)]; [|exact Kn]. exfalso. clear T1 T2 Pf.
    (* the first committee is always taken over *)
    unfold s' in E3. clear s' E1 E2 E4. unfold apply_generic_update in E3. cbn [to_generic bits attested final next_committee] in E3. rewrite signers_bits in E3.
    cbn [current_max previous_max finalized optimistic next_known current_committee] in E3.
    set (s1 := if (safety_threshold _ <? _) && _ then _ else _) in E3. assert (S1 : next_known s1 = None) by (unfold s1; destruct (_ && _); exact Kn). clearbody s1. rewrite S1 in E3.
    unfold has_sync_update, has_finality_update in E3. cbn [next_committee next_branch final final_branch is_some andb negb] in E3.
    cbn [attested_of] in P2. rewrite !period_eq, P2, P3, N.eqb_refl, Bool.orb_true_r in E3. unfold supermajority in M. cbn [bits_of] in M.
    rewrite (proj2 (N.leb_le (512 * 2) (signers bs * 3))) in E3 by lia. cbn [andb finalized] in E3.
    destruct (_ <? _) in E3; cbn [lc_store next_known] in E3; rewrite Kn in E3; discriminate.
  - injection F1 as <- <-. destruct Q as [(Q & Kn)|(Q & Kn)].
    + rewrite Kn in E5. destruct E5 as (_ & E5). rewrite E5. discriminate.
    + destruct (next_known (lc_store c)) as [nc|]; [|contradiction]. rewrite !period_eq, P3, Q, N.eqb_refl in E5. destruct E5 as (_ & E5). rewrite E5. discriminate.
Qed.
(** The loop of [sync] over the periods. *)
Lemma loop_ok : forall l p c, in_step (lc_store c) ->
  (forall k now u, nth_error l k = Some (now, u) -> serves (p + N.of_nat k) now u) ->
  (p = period_of (b_slot (finalized (lc_store c))) /\ next_known (lc_store c) = None) \/ (p = period_of (b_slot (finalized (lc_store c))) + 1 /\ next_known (lc_store c) <> None) ->
  exists c', process_all sha parse_key aggregate_verify cf c l = (c', Ok tt) /\ in_step (lc_store c') /\
    (l = [] -> c' = c) /\ (l <> [] -> period_of (b_slot (finalized (lc_store c'))) + 1 = p + blen l /\ next_known (lc_store c') <> None).
Proof.
  induction l as [|(now, u) l IH]; intros p c I H Q; cbn [process_all].
  - exists c. split; [reflexivity|]. split; [exact I|]. split; [reflexivity|intros X; now destruct X].
  - pose proof (H 0%nat now u eq_refl) as H0. change (N.of_nat 0) with 0 in H0. rewrite N.add_0_r in H0.
    destruct (serve_step c p now u I H0 Q) as (c1 & E & I1 & P1 & K1). rewrite E. unfold and_then at 1. cbn [snd fst].
    destruct (IH (p + 1) c1 I1) as (c' & E' & I' & N' & P').
    + intros k n v Ek. specialize (H (S k) n v Ek). rewrite Nat2N.inj_succ in H. replace (p + 1 + N.of_nat k) with (p + N.succ (N.of_nat k)) by lia. exact H.
    + right. split; [rewrite P1; reflexivity|exact K1].
    + exists c'. split; [exact E'|]. split; [exact I'|]. split; [discriminate|]. intros _. rewrite blen_cons. destruct l as [|y l].
      * rewrite (N' eq_refl) in *. rewrite P1. split; [unfold blen; cbn; lia|exact K1].
      * destruct (P' ltac:(discriminate)) as (P2 & K2). split; [lia|exact K2].
Qed.
End Honest.

(** ** Falling behind *)
Lemma verify_late cf s now u : ~ checks s (period_of (sig_slot_of u)) -> verify cf s now u <> Ok tt /\ verify cf s now u <> Panic.
Proof.
  intros Nc. assert (E : verify cf s now u = Err).
  { unfold LightClient_Model.verify, verify_generic_update, ensure.
    assert (G : signature_slot (to_generic u) = sig_slot_of u) by (destruct u; reflexivity). rewrite G, !period_eq.
    destruct (0 <? _); [|reflexivity]. destruct (_ && _ && _); [|reflexivity].
    replace (if is_some (next_known s) then _ else _) with false; [reflexivity|]. symmetry. apply Bool.not_true_iff_false. intros X. apply Nc. unfold checks.
    destruct (next_known s); cbn [is_some] in X; [|left; apply N.eqb_eq; exact X]. apply orb_prop in X as [X|X]; apply N.eqb_eq in X; [left; exact X|right; split; [exact X|discriminate]]. }
  rewrite E. split; discriminate.
Qed.
Lemma late_advance cf c f : (forall now u, f_finality f = Some (now, u) \/ f_optimistic f = Some (now, u) -> ~ checks (lc_store c) (period_of (sig_slot_of u))) ->
  advance cf c f = (c, Err).
Proof.
  intros H. assert (PE : forall x, f_finality f = Some x \/ f_optimistic f = Some x -> process cf c x = (c, Err)).
  { intros (now, u) Hx. unfold LightClient_Model.process. destruct (verify_late cf (lc_store c) now u (H now u Hx)) as (V1 & V2). cbn [fst snd].
    destruct (LightClient_Model.verify _ _ _ _ _ _ _) as [[]| |]; congruence. }
  unfold LightClient_Model.advance, latest_updates. destruct (f_finality f) as [x|] eqn:EF.
  - rewrite (PE x) by (left; reflexivity). reflexivity.
  - unfold and_then at 2. cbn [snd fst]. destruct (f_optimistic f) as [x|]; [rewrite (PE x) by (right; reflexivity)|]; reflexivity.
Qed.
Lemma late_run cf c : forall gs, (forall g now u, In g gs -> f_finality g = Some (now, u) \/ f_optimistic g = Some (now, u) -> ~ checks (lc_store c) (period_of (sig_slot_of u))) ->
  lc_run cf c (map Advance gs) = c.
Proof.
  unfold LightClient_Model.lc_run. induction gs as [|g gs IH]; intros H; cbn [map fold_left]; [reflexivity|]. cbn [lc_step].
  rewrite late_advance by (intros now u X; apply (H g now u); [left; reflexivity|exact X]). cbn [fst]. apply IH. intros g' now u I X. apply (H g' now u); [right; exact I|exact X].
Qed.
End Crypto.
