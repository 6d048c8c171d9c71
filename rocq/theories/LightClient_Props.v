(** C48, C49, C69, C70: the light client of the beacon chain.

    [sha] gives 32 bytes.  [sync] returning [Ok] is the moment the client is started; from then on it only advances. *)
From Verif Require Import Base Merkle_Spec Header_Spec LightClient_Model LightClient_Spec LightClient_Proofs.

Section Props.
Context (sha : bytes -> bytes) {key : Type} (parse_key : bytes -> option key) (aggregate_verify : list key -> bytes -> bytes -> bool).
Notation sync := (sync sha parse_key aggregate_verify).
Notation advance := (advance sha parse_key aggregate_verify).
Notation process := (process sha parse_key aggregate_verify).
Notation run cf c gs := (lc_run sha parse_key aggregate_verify cf c (map Advance gs)).
Notation finalized_slot c := (b_slot (finalized (lc_store c))).
Notation optimistic_slot c := (b_slot (optimistic (lc_store c))).

(** The updates and the bootstrap are of the Rust types. *)
Definition typed_inputs (f : fetched) (gs : list fetched) : Prop :=
  (forall now u, fetched_by f gs now u -> update_typed u) /\
  (forall b, booted_by f b -> header_typed (bs_header b) /\ committee_typed (bs_committee b) /\ Forall len32 (bs_branch b)).

(** The slots of the finalised and of the optimistic header never go back. *)
Theorem C48_monotone : forall cf c0 f c1 gs gs', sync cf c0 f = (c1, Ok tt) ->
  let c2 := run cf c1 gs in let c3 := run cf c2 gs' in
  finalized_slot c2 <= finalized_slot c3 /\ optimistic_slot c2 <= optimistic_slot c3 /\ finalized_slot c3 <= optimistic_slot c3.
Proof.
  intros cf c0 f c1 gs gs' S c2 c3. destruct (sync_reach sha parse_key aggregate_verify cf c0 f) as [(_ & X)|(now & b & cb & FB & B & R)]; [rewrite S in X; now destruct X|]. rewrite S in R. cbn [fst] in R.
  assert (Rb : b_slot (finalized (lc_store cb)) <= b_slot (optimistic (lc_store cb))).
  { destruct (bootstrap_inv _ _ _ _ _ _ _ B) as [(Q & _)|(_ & _ & _ & -> & _)]; [now destruct Q|]. apply N.le_refl. }
  destruct (reach_monotone _ _ _ _ _ _ _ R) as (_ & _ & M1). destruct (reach_monotone _ _ _ _ _ _ _ (run_reach sha parse_key aggregate_verify cf gs c1)) as (_ & _ & M2).
  destruct (reach_monotone _ _ _ _ _ _ _ (run_reach sha parse_key aggregate_verify cf gs' c2)) as (M3 & M4 & M5).
  split; [exact M3|]. split; [exact M4|]. apply M5. apply M2. apply M1. exact Rb.
Qed.

Context (Hsha : forall x, len32 (sha x)).
Notation trusted_committee cf cp f gs := (trusted_committee sha parse_key aggregate_verify cf cp (booted_by f) (fetched_by f gs)).
Notation trusted_header cf cp f gs := (trusted_header sha parse_key aggregate_verify cf cp (booted_by f) (fetched_by f gs)).
Notation endorsed cf cp f gs := (endorsed sha parse_key aggregate_verify cf cp (booted_by f) (fetched_by f gs)).

Lemma all_good cf c0 f c1 gs : config_typed cf -> descending (fork_epochs cf) -> typed_inputs f gs -> sync cf c0 f = (c1, Ok tt) ->
  good sha parse_key aggregate_verify cf (initial_checkpoint c0) (booted_by f) (fetched_by f gs) (lc_store (run cf c1 gs)) /\
  (last_checkpoint c0 = None -> good_last sha parse_key aggregate_verify cf (initial_checkpoint c0) (booted_by f) (fetched_by f gs) (run cf c1 gs)).
Proof.
  intros TC D (TU & TB) S. destruct (sync_reach sha parse_key aggregate_verify cf c0 f) as [(_ & X)|(now & b & cb & FB & B & R)]; [rewrite S in X; now destruct X|]. rewrite S in R. cbn [fst] in R.
  assert (Bb : booted_by f b) by (exists now; exact FB). destruct (TB b Bb) as (T1 & T2 & T3).
  assert (R' : reach sha parse_key aggregate_verify cf (fetched_by f gs) cb (run cf c1 gs)).
  { apply reach_trans with c1; [eapply reach_mono; [|exact R]; intros n u H; left; exact H|]. eapply reach_mono; [|apply run_reach]. intros n u H. right. exact H. }
  destruct (bootstrap_inv _ _ _ _ _ _ _ B) as [(Q & _)|(_ & H1 & H2 & H3 & H4 & H5)]; [now destruct Q|].
  pose proof (boot_good sha parse_key aggregate_verify cf (initial_checkpoint c0) (booted_by f) (fetched_by f gs) b Bb T2 H1 H2) as G. rewrite <- H3 in G. split.
  - exact (reach_good sha parse_key aggregate_verify Hsha cf _ _ _ TC D TU _ _ R' G).
  - intros L. apply (reach_last sha parse_key aggregate_verify Hsha cf _ _ _ TC D TU _ _ R' G). intros r E. congruence.
Qed.

(** The finalised header is that of the checkpoint, or was finalised in the state of a header signed by two thirds of
    the committee of the period; the optimistic header is such a header, or was signed by some of that committee.  The
    committees used are traced back to the checkpoint. *)
Theorem C48_justified : forall cf c0 f c1 gs, config_typed cf -> descending (fork_epochs cf) -> typed_inputs f gs -> sync cf c0 f = (c1, Ok tt) ->
  let s := lc_store (run cf c1 gs) in let cp := initial_checkpoint c0 in
  trusted_header cf cp f gs (finalized s) /\
  (trusted_header cf cp f gs (optimistic s) \/ exists now u, endorsed cf cp f gs now u /\ optimistic s = attested_of u).
Proof. intros cf c0 f c1 gs TC D T S. destruct (all_good cf c0 f c1 gs TC D T S) as ((_ & _ & G3 & G4) & _). split; [exact G3|exact G4]. Qed.
(** The checkpoint the client saves for its next start is the root of such a finalised header, at the start of an epoch. *)
Theorem C48_saved_checkpoint : forall cf c0 f c1 gs r, config_typed cf -> descending (fork_epochs cf) -> typed_inputs f gs -> sync cf c0 f = (c1, Ok tt) ->
  last_checkpoint c0 = None -> last_checkpoint (run cf c1 gs) = Some r ->
  exists h, trusted_header cf (initial_checkpoint c0) f gs h /\ b_slot h mod 32 = 0 /\ r = root_of_header sha h.
Proof. intros cf c0 f c1 gs r TC D T S L E. destruct (all_good cf c0 f c1 gs TC D T S) as (_ & G). exact (G L r E). Qed.
(** If the checkpoint is a block of the chain, and two thirds of a committee sign only blocks of the chain, then the
    finalised header is a block of the chain, unless an input contains a hash collision. *)
Theorem C48_safety : forall ch cf c0 h0 f c1 gs, chain_ok sha ch -> honest sha parse_key aggregate_verify ch cf ->
  config_typed cf -> descending (fork_epochs cf) -> typed_inputs f gs ->
  canonical ch h0 -> initial_checkpoint c0 = root_of_header sha h0 -> sync cf c0 f = (c1, Ok tt) ->
  canonical ch (finalized (lc_store (run cf c1 gs))) \/
  (exists now u, fetched_by f gs now u /\ broken_by sha ch u) \/ (exists b, booted_by f b /\ broken_by_bootstrap sha ch h0 b).
Proof.
  intros ch cf c0 h0 f c1 gs OK Hon TC D T H0 Hc S. destruct (C48_justified cf c0 f c1 gs TC D T S) as (G & _).
  exact (header_canonical sha parse_key aggregate_verify Hsha ch OK cf Hon _ h0 H0 (eq_sym Hc) _ _ (proj1 T) (proj2 T) _ G).
Qed.

(** An update changes the optimistic header to its attested header only if it is newer and more members signed than half
    of the most seen in this period and the one before. *)
Theorem C70_rule : forall cf c now u, let s := lc_store c in let s' := lc_store (fst (process cf c (now, u))) in
  optimistic s' = optimistic s \/
  (optimistic s' = attested_of u /\ b_slot (optimistic s) < b_slot (attested_of u) /\ N.max (current_max s) (previous_max s) / 2 < signers (bits_of u)) \/
  (optimistic s' = finalized s' /\ b_slot (optimistic s) < b_slot (finalized s')).
Proof.
  intros cf c now u s s'. subst s'. unfold LightClient_Model.process. cbn [fst snd]. destruct (LightClient_Model.verify _ _ _ _ _ _ _) as [[]| |]; cbn [fst]; try (left; reflexivity).
  assert (O : opt_step s u = optimistic s \/ (opt_step s u = attested_of u /\ b_slot (optimistic s) < b_slot (attested_of u) /\ N.max (current_max s) (previous_max s) / 2 < signers (bits_of u))).
  { unfold opt_step. destruct (N.ltb_spec (N.max (N.max (current_max s) (signers (bits_of u))) (previous_max s) / 2) (signers (bits_of u))) as [L|L]; cbn [andb]; [|left; reflexivity].
    destruct (N.ltb_spec (b_slot (optimistic s)) (b_slot (attested_of u))) as [L'|L']; [right|left; reflexivity]. split; [reflexivity|]. split; [exact L'|].
    eapply N.le_lt_trans; [|exact L]. apply N.div_le_mono; lia. }
  pose proof (opt_step_le s u) as Le.
  destruct (apply_effect sha c u) as (_ & [(E1 & _ & _ & E4)|(f & fb & _ & _ & _ & E1 & E4 & _)]); cbn beta zeta in *; fold s in E1, E4; rewrite E1, E4; clear E1 E4.
  - destruct O as [O|O]; [left; exact O|right; left; exact O].
  - destruct (N.ltb_spec (b_slot (finalized s)) (b_slot f)); cbn [andb]; [|destruct O as [O|O]; [left; exact O|right; left; exact O]].
    destruct (N.ltb_spec (b_slot (opt_step s u)) (b_slot f)); [right; right; split; [reflexivity|lia]|destruct O as [O|O]; [left; exact O|right; left; exact O]].
Qed.
(** That is weaker than it sounds: right after the bootstrap the signature of one member of the committee makes any header
    the head of the chain. *)
Theorem C70_single_signer_refuted : forall cf c b now u, lc_store c = boot_store b -> signers (bits_of u) = 1 -> b_slot (bs_header b) < b_slot (attested_of u) ->
  verify sha parse_key aggregate_verify cf (lc_store c) now u = Ok tt ->
  optimistic (lc_store (fst (process cf c (now, u)))) = attested_of u.
Proof.
  intros cf c b now u Sb N1 L V. unfold LightClient_Model.process. cbn [fst snd]. rewrite V. cbn [fst].
  assert (O : opt_step (lc_store c) u = attested_of u). { unfold opt_step. rewrite Sb, N1. cbn [boot_store current_max previous_max optimistic]. rewrite (proj2 (N.ltb_lt _ _) L). reflexivity. }
  destruct (apply_effect sha c u) as (_ & [(_ & _ & _ & E4)|(f & fb & _ & M & _)]); cbn beta zeta in *; [rewrite E4; exact O|]. unfold supermajority in M. rewrite N1 in M. lia.
Qed.

(** The committees in use are vouched for, for the period of the finalised header and the next one. *)
Theorem C49_provenance : forall cf c0 f c1 gs, config_typed cf -> descending (fork_epochs cf) -> typed_inputs f gs -> sync cf c0 f = (c1, Ok tt) ->
  let s := lc_store (run cf c1 gs) in let cp := initial_checkpoint c0 in
  trusted_committee cf cp f gs (period_of (b_slot (finalized s))) (current_committee s) /\
  forall c, next_known s = Some c -> trusted_committee cf cp f gs (period_of (b_slot (finalized s)) + 1) c.
Proof. intros cf c0 f c1 gs TC D T S. destruct (all_good cf c0 f c1 gs TC D T S) as ((G1 & G2 & _) & _). rewrite period_eq in *. split; [exact G1|exact G2]. Qed.
(** They are the committees of the chain. *)
Theorem C49_canonical : forall ch cf c0 h0 f c1 gs, chain_ok sha ch -> honest sha parse_key aggregate_verify ch cf ->
  config_typed cf -> descending (fork_epochs cf) -> typed_inputs f gs ->
  canonical ch h0 -> initial_checkpoint c0 = root_of_header sha h0 -> sync cf c0 f = (c1, Ok tt) ->
  in_step ch (lc_store (run cf c1 gs)) \/
  (exists now u, fetched_by f gs now u /\ broken_by sha ch u) \/ (exists b, booted_by f b /\ broken_by_bootstrap sha ch h0 b).
Proof.
  intros ch cf c0 h0 f c1 gs OK Hon TC D T H0 Hc S. destruct (C49_provenance cf c0 f c1 gs TC D T S) as (G1 & G2).
  pose proof (committee_canonical sha parse_key aggregate_verify Hsha ch OK cf Hon _ h0 H0 (eq_sym Hc) _ _ (proj1 T) (proj2 T)) as CC.
  destruct (CC _ _ G1) as [E1|Br]; [|right; exact Br]. unfold in_step. destruct (next_known (lc_store (run cf c1 gs))) as [c|].
  - destruct (CC _ _ (G2 c eq_refl)) as [E2|Br]; [|right; exact Br]. left. split; [exact E1|right; rewrite E2; reflexivity].
  - left. split; [exact E1|left; reflexivity].
Qed.

(** From a checkpoint any number of periods ago, and one honest update for every period since, the client starts, and
    reaches the finalised header that the peers report. *)
Theorem C69_catch_up : forall ch cf c0 f now0 b, (forall p, committee_typed (committee_at ch p)) -> config_typed cf -> descending (fork_epochs cf) ->
  (* an honest bootstrap for the checkpoint *)
  f_bootstrap f = Some (now0, b) -> strict_age cf = false -> root_of_header sha (bs_header b) = initial_checkpoint c0 ->
  bs_committee b = committee_at ch (period_of (b_slot (bs_header b))) -> proven sha (bs_header b) (root_of_committee sha (bs_committee b)) (bs_branch b) 6 22 ->
  (* an honest update for every period until now *)
  (forall p, period_of (b_slot (bs_header b)) <= p < period_of (f_now f) -> exists now u, f_updates f p = Some [(now, u)] /\ serves sha parse_key aggregate_verify ch cf p now u) ->
  (* honest finality and optimistic updates of this period *)
  period_of (b_slot (bs_header b)) <= period_of (f_now f) ->
  forall nf uf ff fbf no uo, f_finality f = Some (nf, uf) -> f_optimistic f = Some (no, uo) ->
  (forall now u, (now, u) = (nf, uf) \/ (now, u) = (no, uo) ->
     sound_update sha parse_key aggregate_verify ch cf now u /\ period_of (sig_slot_of u) = period_of (f_now f) /\
     period_of (b_slot (attested_of u)) = period_of (f_now f) /\ b_slot (bs_header b) < b_slot (attested_of u)) ->
  finality_of uf = Some (ff, fbf) -> supermajority (bits_of uf) -> b_slot ff < b_slot (attested_of uo) ->
  exists c1, sync cf c0 f = (c1, Ok tt) /\ in_step ch (lc_store c1) /\ b_slot ff <= finalized_slot c1.
Proof.
  intros ch cf c0 f now0 b TCm TC D FB Sa Hc Bc Bp Hu Hp nf uf ff fbf no uo Ef Eo Hfo Fu M Lo.
  destruct (Hfo nf uf (or_introl eq_refl)) as (Sf & Pf1 & Pf2 & Lf). destruct (Hfo no uo (or_intror eq_refl)) as (So & Po1 & Po2 & Lo2). clear Hfo.
  unfold LightClient_Model.sync. rewrite FB.
  assert (B : exists cb, bootstrap sha cf c0 now0 b = (cb, Ok tt) /\ lc_store cb = boot_store b).
  { unfold bootstrap. rewrite Sa, Bool.andb_false_r, header_root_eq, Hc, beqb_refl. cbn [negb]. unfold is_current_committee_proof_valid.
    assert (Tb : committee_typed (bs_committee b)) by (rewrite Bc; apply TCm).
    rewrite (proj2 (proven_iff sha (bs_header b) _ (bs_branch b) 6 22)) by (rewrite committee_root_eq; [exact Bp|exact Tb]). cbn [negb]. eexists. split; reflexivity. }
  destruct B as (cb & B & Sb). rewrite B. unfold and_then at 1. cbn [snd fst]. rewrite Sb. cbn [boot_store finalized]. rewrite !period_eq.
  set (p0 := period_of (b_slot (bs_header b))) in *. set (pn := period_of (f_now f)) in *.
  assert (I0 : in_step ch (lc_store cb)) by (rewrite Sb; split; [exact Bc|left; reflexivity]).
  assert (FA : forall n p, p0 <= p -> p + N.of_nat n <= pn -> exists l, fetch_all (f_updates f) (map (fun i => p + N.of_nat i) (seq 0 n)) = Some l /\ length l = n /\
    forall k now u, nth_error l k = Some (now, u) -> serves sha parse_key aggregate_verify ch cf (p + N.of_nat k) now u).
  { induction n as [|n IH]; intros p Lp Hn; [exists []; split; [reflexivity|]; split; [reflexivity|intros [|k]; discriminate]|].
    cbn [seq map fetch_all]. change (N.of_nat 0) with 0. rewrite N.add_0_r. destruct (Hu p ltac:(lia)) as (now & u & E & Sv). rewrite E.
    rewrite <- seq_shift, map_map. destruct (IH (p + 1) ltac:(lia) ltac:(lia)) as (l & El & Ll & Hl).
    assert (Em : map (fun i => p + N.of_nat (S i)) (seq 0 n) = map (fun i => p + 1 + N.of_nat i) (seq 0 n)) by (apply map_ext; intros i; lia).
    rewrite Em, El. exists ((now, u) :: l). split; [reflexivity|]. split; [cbn [length]; congruence|]. intros [|k] now' u' Ek.
    - injection Ek as <- <-. change (N.of_nat 0) with 0. rewrite N.add_0_r. exact Sv.
    - specialize (Hl k now' u' Ek). replace (p + N.of_nat (S k)) with (p + 1 + N.of_nat k) by lia. exact Hl. }
  destruct (FA (N.to_nat (pn - p0)) p0 ltac:(lia) ltac:(lia)) as (l & El & Ll & Hl). rewrite El. clear FA.
  destruct (loop_ok sha parse_key aggregate_verify Hsha ch TCm cf TC D l p0 cb I0 Hl) as (c2 & E2 & I2 & Z2 & P2); [left; rewrite Sb; split; reflexivity|].
  rewrite E2. unfold and_then at 1. cbn [snd fst]. unfold latest_updates. rewrite Ef, Eo.
  assert (K2 : (period_of (b_slot (finalized (lc_store c2))) = pn \/ (period_of (b_slot (finalized (lc_store c2))) + 1 = pn /\ next_known (lc_store c2) <> None)) /\
    b_slot (finalized (lc_store c2)) < b_slot (attested_of uf) /\ b_slot (finalized (lc_store c2)) < b_slot (attested_of uo)).
  { destruct l as [|x l].
    - rewrite (Z2 eq_refl), Sb. cbn [boot_store finalized next_known]. cbn [length] in Ll. assert (pn = p0) by lia. split; [left; fold p0; lia|]. split; assumption.
    - destruct (P2 ltac:(discriminate)) as (P3 & K3). unfold blen in P3. rewrite Ll, N2Nat.id in P3. assert (Q : period_of (b_slot (finalized (lc_store c2))) + 1 = pn) by lia.
      split; [right; split; [exact Q|exact K3]|]. split.
      + destruct (N.lt_ge_cases (b_slot (finalized (lc_store c2))) (b_slot (attested_of uf))) as [L|L]; [exact L|]. apply period_le in L. rewrite !period_eq in L. lia.
      + destruct (N.lt_ge_cases (b_slot (finalized (lc_store c2))) (b_slot (attested_of uo))) as [L|L]; [exact L|]. apply period_le in L. rewrite !period_eq in L. lia. }
  destruct K2 as (K2 & La & Lb).
  assert (Ck : forall s, period_of (b_slot (finalized s)) = pn \/ (period_of (b_slot (finalized s)) + 1 = pn /\ next_known s <> None) -> checks s pn).
  { intros s [X|(X & Y)]; [left; symmetry; exact X|right; split; [symmetry; exact X|exact Y]]. }
  destruct (process_ok sha parse_key aggregate_verify Hsha ch TCm cf TC D c2 nf uf I2 Sf) as (E3 & I3); [rewrite Pf1; apply Ck; exact K2|left; exact La|].
  rewrite E3. unfold and_then at 1. cbn [snd fst]. set (c3 := apply_generic_update sha c2 (to_generic uf)) in *.
  destruct (step_taken sha c2 uf ff fbf M Fu) as (T1 & T2). fold c3 in T1, T2.
  assert (K3 : (period_of (b_slot (finalized (lc_store c3))) = pn \/ (period_of (b_slot (finalized (lc_store c3))) + 1 = pn /\ next_known (lc_store c3) <> None)) /\ b_slot (finalized (lc_store c3)) < b_slot (attested_of uo)).
  { split; [|destruct T2 as [-> | ->]; assumption].
    destruct (apply_effect sha c2 uf) as (_ & [(E1' & _ & E3' & _)|(f' & fb' & F1 & _ & F3 & E1' & _ & E5)]); cbn beta zeta in *.
    - fold c3 in E1', E3'. rewrite E1', E3'. exact K2.
    - fold c3 in E1', E5. rewrite Fu in F1. injection F1 as <- <-. destruct (Sf) as (_ & _ & _ & _ & S4 & _). destruct (S4 _ _ Fu) as (Lff & _). apply period_le in Lff. rewrite !period_eq in Lff.
      destruct (N.ltb_spec (b_slot (finalized (lc_store c2))) (b_slot ff)) as [L|L].
      + pose proof (period_le _ _ (N.lt_le_incl _ _ L)) as Lp. rewrite !period_eq in Lp, E5. rewrite E1'. destruct K2 as [K2|(K2 & Kn)]; [left; lia|].
        destruct (next_known (lc_store c2)) as [nc|]; [|now destruct Kn].
        destruct (N.eqb_spec (period_of (b_slot ff)) (period_of (b_slot (finalized (lc_store c2))) + 1)) as [X|X]; [left; lia|]. destruct E5 as (_ & E5). right. rewrite E5. split; [lia|discriminate].
      + rewrite E1'. destruct K2 as [K2|(K2 & Kn)]; [left; exact K2|]. destruct F3 as [F3|(F3 & _)]; [lia|contradiction]. }
  destruct K3 as (K3 & Lc).
  destruct (process_ok sha parse_key aggregate_verify Hsha ch TCm cf TC D c3 no uo I3 So) as (E4 & I4); [rewrite Po1; apply Ck; exact K3|left; exact Lc|].
  exists (apply_generic_update sha c3 (to_generic uo)). split; [exact E4|]. split; [exact I4|]. destruct (apply_monotone sha c3 uo) as (M1 & _). cbn beta in M1. lia.
Qed.
(** A client in step, with a clock no further than the committees it knows, keeps following honest peers. *)
Theorem C69_follows : forall ch cf c f nf uf ff fbf no uo, (forall p, committee_typed (committee_at ch p)) -> config_typed cf -> descending (fork_epochs cf) ->
  in_step ch (lc_store c) -> f_finality f = Some (nf, uf) -> f_optimistic f = Some (no, uo) ->
  sound_update sha parse_key aggregate_verify ch cf nf uf -> sound_update sha parse_key aggregate_verify ch cf no uo ->
  period_of (sig_slot_of uf) = period_of (sig_slot_of uo) -> checks (lc_store c) (period_of (sig_slot_of uo)) ->
  finality_of uf = Some (ff, fbf) -> supermajority (bits_of uf) ->
  finalized_slot c < b_slot (attested_of uf) -> finalized_slot c < b_slot (attested_of uo) -> b_slot ff < b_slot (attested_of uo) ->
  (* the committee update that is fetched if the next committee is not known *)
  (forall p, period_of (finalized_slot c) <= p <= period_of (sig_slot_of uo) -> exists now u, f_updates f p = Some [(now, u)] /\ serves sha parse_key aggregate_verify ch cf p now u) ->
  exists c', advance cf c f = (c', Ok tt) /\ in_step ch (lc_store c') /\ b_slot ff <= finalized_slot c' /\ next_known (lc_store c') <> None.
Proof.
  intros ch cf c f nf uf ff fbf no uo TCm TC D I Ef Eo Sf So Pe Ck Fu M L1 L2 L3 Hu.
  unfold LightClient_Model.advance, latest_updates. rewrite Ef, Eo.
  destruct (process_ok sha parse_key aggregate_verify Hsha ch TCm cf TC D c nf uf I Sf) as (E3 & I3); [rewrite Pe; exact Ck|left; exact L1|].
  rewrite E3. unfold and_then at 2. cbn [snd fst]. set (c3 := apply_generic_update sha c (to_generic uf)) in *.
  destruct (step_taken sha c uf ff fbf M Fu) as (T1 & T2). fold c3 in T1, T2.
  assert (Lf : b_slot ff <= b_slot (attested_of uf)) by (destruct Sf as (_ & _ & _ & _ & S4 & _); exact (proj1 (S4 _ _ Fu))).
  assert (Ls : b_slot (attested_of uf) < sig_slot_of uf) by apply Sf.
  assert (Pf : period_of (b_slot ff) <= period_of (sig_slot_of uo)) by (rewrite <- Pe, <- !period_eq; apply period_le; lia).
  assert (K3 : checks (lc_store c3) (period_of (sig_slot_of uo)) /\ b_slot (finalized (lc_store c3)) < b_slot (attested_of uo)).
  { split; [|destruct T2 as [-> | ->]; assumption].
    destruct (apply_effect sha c uf) as (_ & [(E1' & _ & E3' & _)|(f' & fb' & F1 & _ & F3 & E1' & _ & E5)]); cbn beta zeta in *; unfold checks in *.
    - fold c3 in E1', E3'. rewrite E1', E3'. exact Ck.
    - fold c3 in E1', E5. rewrite Fu in F1. injection F1 as <- <-.
      destruct (N.ltb_spec (b_slot (finalized (lc_store c))) (b_slot ff)) as [L|L].
      + pose proof (period_le _ _ (N.lt_le_incl _ _ L)) as Lp. rewrite !period_eq in Lp, E5. rewrite E1'. destruct Ck as [K2|(K2 & Kn)]; [left; lia|].
        destruct (next_known (lc_store c)) as [nc|]; [|now destruct Kn].
        destruct (N.eqb_spec (period_of (b_slot ff)) (period_of (b_slot (finalized (lc_store c))) + 1)) as [X|X]; [left; lia|]. destruct E5 as (_ & E5). right. rewrite E5. split; [lia|discriminate].
      + rewrite E1'. destruct Ck as [K2|(K2 & Kn)]; [left; exact K2|]. destruct F3 as [F3|(F3 & _)]; [lia|contradiction]. }
  destruct K3 as (K3 & Lc).
  destruct (process_ok sha parse_key aggregate_verify Hsha ch TCm cf TC D c3 no uo I3 So) as (E4 & I4); [exact K3|left; exact Lc|].
  rewrite E4. unfold and_then at 1. cbn [snd fst]. set (c4 := apply_generic_update sha c3 (to_generic uo)) in *.
  destruct (apply_monotone sha c3 uo) as (M1 & _). cbn beta in M1. fold c4 in M1.
  destruct (next_known (lc_store c4)) as [nc|] eqn:K4; [exists c4; split; [reflexivity|]; split; [exact I4|]; split; [lia|congruence]|].
  assert (Rg : period_of (finalized_slot c) <= period (finalized_slot c4) <= period_of (sig_slot_of uo)).
  { rewrite <- !period_eq. destruct (apply_monotone sha c uf) as (M0 & _). cbn beta in M0. fold c3 in M0. split; [apply period_le; lia|].
    assert (F3 : period (finalized_slot c3) <= period (sig_slot_of uo)) by (rewrite !period_eq; destruct K3 as [K3|(K3 & _)]; lia).
    assert (So2 : forall f' fb', finality_of uo = Some (f', fb') -> b_slot f' <= b_slot (attested_of uo)) by (intros f' fb' Q; destruct So as (_ & _ & _ & _ & S4 & _); exact (proj1 (S4 _ _ Q))).
    assert (So3 : b_slot (attested_of uo) < sig_slot_of uo) by apply So.
    destruct (apply_effect sha c3 uo) as (_ & [(E1' & _)|(f' & fb' & F1 & _ & _ & E1' & _)]); cbn beta zeta in *; fold c4 in E1'; rewrite E1'; [exact F3|].
    destruct (_ <? _); [|exact F3]. apply period_le. specialize (So2 _ _ F1). lia. }
  destruct (Hu (period (b_slot (finalized (lc_store c4)))) Rg) as (now & u & Eu & Sv). rewrite Eu.
  destruct (serve_step sha parse_key aggregate_verify Hsha ch TCm cf TC D c4 _ now u I4 Sv) as (c5 & E5 & I5 & P5 & K5); [left; rewrite period_eq; split; [reflexivity|exact K4]|].
  rewrite E5. exists c5. split; [reflexivity|]. split; [exact I5|]. split; [|exact K5].
  pose proof (process_reach sha parse_key aggregate_verify cf (fun _ _ => True) c4 (now, u) Logic.I) as R. rewrite E5 in R. cbn [fst] in R.
  destruct (reach_monotone _ _ _ _ _ _ _ R) as (M2 & _). lia.
Qed.
(** But a client that falls behind, so that what its peers report is signed in a period it has no committee for, never
    follows again, whatever updates of the missing periods could be fetched: each advance fails and changes nothing. *)
Theorem C69_behind_refuted : forall cf c gs,
  (forall g now u, In g gs -> f_finality g = Some (now, u) \/ f_optimistic g = Some (now, u) -> ~ checks (lc_store c) (period_of (sig_slot_of u))) ->
  run cf c gs = c /\ forall g, In g gs -> advance cf c g = (c, Err).
Proof.
  intros cf c gs H. split; [apply late_run; exact H|]. intros g I. apply late_advance. intros now u X. exact (H g now u I X).
Qed.
End Props.
Print Assumptions C48_monotone.
Print Assumptions C48_justified.
Print Assumptions C48_saved_checkpoint.
Print Assumptions C48_safety.
Print Assumptions C70_rule.
Print Assumptions C70_single_signer_refuted.
Print Assumptions C49_provenance.
Print Assumptions C49_canonical.
Print Assumptions C69_catch_up.
Print Assumptions C69_follows.
Print Assumptions C69_behind_refuted.

(** ** A chain on which the hypotheses hold
    "SHA-256" keeps the first 32 bytes.  The blocks of the chain are those whose slot is a multiple of 64; two thirds of
    a committee sign only those, fewer sign anything. *)
Definition toy_sha (x : bytes) : bytes := firstn 32 (x ++ repeat 0 32).
Definition toy_parse (k : bytes) : option bytes := Some k.
Definition toy_verify (keys : list bytes) (msg _ : bytes) : bool := (blen keys <? 342) || (le_num msg mod 64 =? 0).
Definition z32 : bytes := repeat 0 32.
Definition hdr (n : N) : bheader := {| b_slot := n; proposer := 0; parent_root := z32; state_root := z32; body_root := z32 |}.
Definition cm (p : N) : committee := {| pubkeys := repeat (le_bytes 48 p) 512; aggregate_pubkey := repeat 0 48 |}.
Definition toy_chain : beacon_chain :=
  {| canonical := fun a => header_typed a /\ b_slot a mod 64 = 0;
     fields := fun a => state_root a :: repeat z32 21 ++ [root_of_committee toy_sha (cm (period_of (b_slot a))); root_of_committee toy_sha (cm (period_of (b_slot a) + 1))];
     finalized_epoch := fun _ => z32;
     finalized_block := fun a => hdr (b_slot a - 64);
     committee_at := cm |}.
Definition toy_config : config := {| genesis_root := z32; genesis_time := 0; fork_epochs := [(600, [2; 0; 0; 0]); (100, [1; 0; 0; 0])]; genesis_version := repeat 0 4; strict_age := false; max_age := 0 |}.
Definition some_bits (n : nat) : list bool := repeat true n ++ repeat false (512 - n).

Lemma toy_len x : len32 (toy_sha x).
Proof. unfold toy_sha, len32. rewrite firstn_length, app_length, repeat_length. lia. Qed.
Lemma toy_left x y : len32 x -> toy_sha (x ++ y) = x.
Proof. intros L. unfold toy_sha. rewrite <- app_assoc, firstn_app, L, Nat.sub_diag, firstn_O, app_nil_r. rewrite <- L. apply firstn_all. Qed.
Lemma toy_root x : forall d l, len32 x -> merkle_root toy_sha d (x :: l) = x.
Proof.
  induction d as [|d IH]; intros l L; cbn [merkle_root nth]; [reflexivity|]. destruct (2 ^ d)%nat as [|n] eqn:E; [exfalso; apply (Nat.pow_nonzero 2 d); [discriminate|exact E]|].
  cbn [firstn]. rewrite IH by exact L. apply toy_left. exact L.
Qed.
Lemma z32_len : len32 z32. Proof. reflexivity. Qed.
Lemma hdr_typed n : n < 2 ^ 64 -> header_typed (hdr n).
Proof. intros L. split; [exact L|]. split; [reflexivity|]. repeat split. Qed.
Lemma forall_repeat {A} (P : A -> Prop) x n : P x -> Forall P (repeat x n).
Proof. intros H. induction n; constructor; assumption. Qed.
Lemma cm_typed p : committee_typed (cm p).
Proof. split; [apply repeat_length|]. split; [apply forall_repeat; apply le_bytes_length|reflexivity]. Qed.
Lemma le32 n : len32 (le_bytes 32 n). Proof. apply le_bytes_length. Qed.
Lemma toy_header h : root_of_header toy_sha h = le_bytes 32 (b_slot h).
Proof. apply toy_root. apply le32. Qed.
Lemma toy_message g v a : message toy_sha g v a = le_bytes 32 (b_slot a).
Proof. unfold message. rewrite toy_header. apply toy_left. apply le32. Qed.
Lemma toy_slot n : n < 2 ^ 64 -> le_num (le_bytes 32 n) = n.
Proof. intros L. apply le_num_le_bytes_id. assert (P : 2 ^ 64 <= 256 ^ N.of_nat 32) by (vm_compute; discriminate). lia. Qed.
Lemma forall2_same {A} (l l' : list A) : Forall2 (fun k p => Some k = Some p) l l' -> l = l'.
Proof. induction 1 as [|x y l l' E F IH]; [reflexivity|]. injection E as <-. now rewrite IH. Qed.
Lemma forall2_id {A} (l : list A) : Forall2 (fun k p => Some k = Some p) l l.
Proof. induction l; constructor; auto. Qed.
Lemma selected_len : forall (bs : list bool) (ks : list bytes), (length bs <= length ks)%nat -> N.of_nat (length (map fst (filter snd (combine ks bs)))) = signers bs.
Proof.
  unfold signers. induction bs as [|b bs IH]; intros [|k ks] L; cbn [length combine filter snd map count_occ] in *; try lia; try reflexivity.
  destruct (Bool.bool_dec b true) as [->|Nb]; [cbn [map length]; rewrite Nat2N.inj_succ, IH by lia; rewrite Nat2N.inj_succ; reflexivity|].
  destruct b; [now destruct Nb|]. apply IH. lia.
Qed.
Lemma toy_ok : chain_ok toy_sha toy_chain.
Proof.
  intros a (T & M). cbn [canonical fields finalized_epoch finalized_block committee_at toy_chain]. split; [exact T|].
  split; [constructor; [apply T|]; apply Forall_app; split; [apply forall_repeat; reflexivity|constructor; [apply toy_len|constructor; [apply toy_len|constructor]]]|].
  split; [cbn [length]; rewrite app_length, repeat_length; cbn [length]; lia|]. split; [reflexivity|]. split; [symmetry; apply toy_root; apply T|].
  split; [cbn [nth_error repeat app]; f_equal; symmetry; apply toy_left; reflexivity|]. split; [reflexivity|]. split; [reflexivity|].
  split; [|intros p; apply cm_typed]. split; [apply hdr_typed; destruct T as (T & _); lia|]. cbn [hdr b_slot]. clear T.
  destruct (N.le_gt_cases (b_slot a) 64) as [L|L]; [replace (b_slot a - 64) with 0 by lia; reflexivity|].
  apply N.mod_divide in M; [|lia]. destruct M as (q & M). replace (b_slot a - 64) with ((q - 1) * 64) by lia. apply N.mod_mul. lia.
Qed.
Lemma toy_honest : honest toy_sha toy_parse toy_verify toy_chain toy_config.
Proof.
  intros a bs sig slot v T L M _ (keys & F & V). split; [exact T|]. apply forall2_same in F. subst keys. rewrite toy_message in V.
  unfold toy_verify in V. apply orb_prop in V as [V|V].
  - exfalso. apply N.ltb_lt in V. unfold blen, selected in V. cbn [committee_at toy_chain] in V. rewrite selected_len in V by (cbn [cm pubkeys]; rewrite repeat_length, L; apply Nat.le_refl).
    unfold supermajority in M. lia.
  - apply N.eqb_eq in V. rewrite toy_slot in V by apply T. exact V.
Qed.
(** Updates signed by [n] members for slot [a], with slot [f] finalised. *)
Definition mk_full (n : nat) (a f : N) : update := FullUpdate (hdr a) (cm (period_of a + 1)) (repeat z32 6) (hdr f) (repeat z32 7) (some_bits n) [] (a + 1).
Definition mk_final (n : nat) (a f : N) : update := FinalityUpdate (hdr a) (hdr f) (repeat z32 7) (some_bits n) [] (a + 1).
Definition mk_opt (n : nat) (a : N) : update := OptimisticUpdate (hdr a) (some_bits n) [] (a + 1).
Lemma bits_len n : (n <= 512)%nat -> length (some_bits n) = 512%nat.
Proof. intros L. unfold some_bits. rewrite app_length, !repeat_length. lia. Qed.
Lemma zero_next x : len32 x -> proven toy_sha (hdr 0) x (repeat z32 6) 6 23.
Proof. intros L. split; [reflexivity|]. cbn [repeat path_root]. 
  repeat match goal with |- context [N.odd ?n] => let b := eval vm_compute in (N.odd n) in change (N.odd n) with b end. cbn iota. rewrite !toy_left; try reflexivity; rewrite ?toy_left; try reflexivity; exact L. Qed.
Lemma zero_cur x : len32 x -> proven toy_sha (hdr 0) x (repeat z32 6) 6 22.
Proof. intros L. split; [reflexivity|]. cbn [repeat path_root]. 
  repeat match goal with |- context [N.odd ?n] => let b := eval vm_compute in (N.odd n) in change (N.odd n) with b end. cbn iota. rewrite !toy_left; try reflexivity; rewrite ?toy_left; try reflexivity; exact L. Qed.
Lemma zero_fin x : len32 x -> proven toy_sha (hdr 0) x (repeat z32 7) 7 41.
Proof. intros L. split; [reflexivity|]. cbn [repeat path_root]. 
  repeat match goal with |- context [N.odd ?n] => let b := eval vm_compute in (N.odd n) in change (N.odd n) with b end. cbn iota. rewrite !toy_left; try reflexivity; rewrite ?toy_left; try reflexivity; exact L. Qed.
Lemma toy_signed n a v p : (n <= 512)%nat -> a < 2 ^ 64 -> a mod 64 = 0 \/ signers (some_bits n) < 342 ->
  signed_by toy_sha toy_parse toy_verify (cm p) (some_bits n) z32 v (hdr a) [].
Proof.
  intros L La D. exists (selected (cm p) (some_bits n)). split; [apply forall2_id|]. rewrite toy_message. unfold toy_verify, blen, selected. cbn [cm pubkeys hdr b_slot].
  rewrite selected_len by (rewrite repeat_length, bits_len by exact L; lia). rewrite toy_slot by exact La. destruct D as [->|D]; [apply Bool.orb_true_r|]. rewrite (proj2 (N.ltb_lt _ _) D). reflexivity.
Qed.
Lemma full_sound n a f now : (n <= 512)%nat -> 0 < signers (some_bits n) -> a + 1 < 2 ^ 64 -> a + 1 <= now -> f <= a -> period_of (a + 1) = period_of a -> a mod 64 = 0 \/ signers (some_bits n) < 342 ->
  sound_update toy_sha toy_parse toy_verify toy_chain toy_config now (mk_full n a f).
Proof.
  intros L P La Ln Lf Pe D. split.
  { split; [apply hdr_typed; lia|]. split; [apply cm_typed|]. split; [apply forall_repeat; reflexivity|]. split; [apply hdr_typed; lia|]. split; [apply forall_repeat; reflexivity|apply bits_len; exact L]. }
  split; [exact P|]. split; [exact Ln|]. split; [cbn; lia|]. split.
  { intros f' fb' E. injection E as <- <-. split; [exact Lf|]. apply zero_fin. rewrite toy_header. apply le32. }
  split. { intros a' c cb f' fb' bs sg sl E. injection E as <- <- <- <- <- <- <- <-. split; [apply zero_next; apply toy_len|reflexivity]. }
  intros v _. cbn [committee_at toy_chain bits_of sig_of attested_of mk_full genesis_root toy_config]. apply toy_signed; [exact L|lia|exact D].
Qed.
Lemma final_sound n a f now : (n <= 512)%nat -> 0 < signers (some_bits n) -> a + 1 < 2 ^ 64 -> a + 1 <= now -> f <= a -> a mod 64 = 0 \/ signers (some_bits n) < 342 ->
  sound_update toy_sha toy_parse toy_verify toy_chain toy_config now (mk_final n a f).
Proof.
  intros L P La Ln Lf D. split.
  { split; [apply hdr_typed; lia|]. split; [apply hdr_typed; lia|]. split; [apply forall_repeat; reflexivity|apply bits_len; exact L]. }
  split; [exact P|]. split; [exact Ln|]. split; [cbn; lia|]. split.
  { intros f' fb' E. injection E as <- <-. split; [exact Lf|]. apply zero_fin. rewrite toy_header. apply le32. }
  split; [intros a' c cb f' fb' bs sg sl E; discriminate|].
  intros v _. cbn [committee_at toy_chain bits_of sig_of attested_of mk_final genesis_root toy_config]. apply toy_signed; [exact L|lia|exact D].
Qed.
Lemma opt_sound n a now : (n <= 512)%nat -> 0 < signers (some_bits n) -> a + 1 < 2 ^ 64 -> a + 1 <= now -> a mod 64 = 0 \/ signers (some_bits n) < 342 ->
  sound_update toy_sha toy_parse toy_verify toy_chain toy_config now (mk_opt n a).
Proof.
  intros L P La Ln D. split; [split; [apply hdr_typed; lia|apply bits_len; exact L]|].
  split; [exact P|]. split; [exact Ln|]. split; [cbn; lia|]. split; [intros f' fb' E; discriminate|].
  split; [intros a' c cb f' fb' bs sg sl E; discriminate|].
  intros v _. cbn [committee_at toy_chain bits_of sig_of attested_of mk_opt genesis_root toy_config]. apply toy_signed; [exact L|lia|exact D].
Qed.
(** A checkpoint in period 0, while it is now period 2. *)
Definition toy_boot : bootstrap_data := {| bs_header := hdr 6400; bs_committee := cm 0; bs_branch := repeat z32 6 |}.
Definition no_store : store := {| finalized := hdr 0; current_committee := {| pubkeys := []; aggregate_pubkey := [] |}; next_known := None; optimistic := hdr 0; previous_max := 0; current_max := 0 |}.
Definition toy_client : client := {| lc_store := no_store; initial_checkpoint := le_bytes 32 6400; last_checkpoint := None |}.
Definition toy_updates (p : N) : option (list (N * update)) :=
  if p =? 0 then Some [(20000, mk_full 400 6464 6400)] else if p =? 1 then Some [(20000, mk_full 400 8320 8256)]
  else if p =? 2 then Some [(21000, mk_full 512 20032 19968)] else None.
Definition toy_fetch : fetched :=
  {| f_bootstrap := Some (20000, toy_boot); f_now := 20000; f_updates := toy_updates; f_finality := Some (20000, mk_final 512 19968 19904); f_optimistic := Some (20000, mk_opt 342 19968) |}.
Definition toy_next : fetched :=
  {| f_bootstrap := None; f_now := 20100; f_updates := toy_updates; f_finality := Some (20100, mk_final 512 20032 19968); f_optimistic := Some (20100, mk_opt 342 20032) |}.
Lemma toy_descending : descending (fork_epochs toy_config).
Proof. split; [|split; [|exact Logic.I]]; [|intros ? ? []]. intros e' v' [E|[]]. injection E as <- <-. lia. Qed.
Lemma toy_typed : config_typed toy_config.
Proof. split; [reflexivity|]. split; [reflexivity|]. repeat constructor. Qed.
Lemma some_pos n : (0 < n)%nat -> 0 < signers (some_bits n).
Proof. unfold signers, some_bits. rewrite count_occ_app. destruct n; [lia|]. cbn [repeat count_occ]. destruct (Bool.bool_dec true true) as [_|X]; [lia|now destruct X]. Qed.

Example C69_catch_up_case : exists c1, sync toy_sha toy_parse toy_verify toy_config toy_client toy_fetch = (c1, Ok tt) /\ in_step toy_chain (lc_store c1) /\ 19904 <= b_slot (finalized (lc_store c1)).
Proof.
  apply (C69_catch_up toy_sha toy_parse toy_verify toy_len toy_chain toy_config toy_client toy_fetch 20000 toy_boot) with (nf := 20000) (uf := mk_final 512 19968 19904) (ff := hdr 19904) (fbf := repeat z32 7) (no := 20000) (uo := mk_opt 342 19968).
  - exact cm_typed.
  - exact toy_typed.
  - exact toy_descending.
  - reflexivity.
  - reflexivity.
  - apply toy_header.
  - reflexivity.
  - apply zero_cur. apply toy_len.
  - change (period_of (b_slot (bs_header toy_boot))) with 0. change (period_of (f_now toy_fetch)) with 2. intros p Hp. assert (E : p = 0 \/ p = 1) by lia. destruct E as [-> | ->].
    + exists 20000, (mk_full 400 6464 6400). split; [reflexivity|]. split; [apply full_sound; first [reflexivity | lia | (apply some_pos; lia) | (left; reflexivity)]|]. split; [vm_compute; discriminate|]. split; [reflexivity|]. split; [reflexivity|].
      do 8 eexists. split; [reflexivity|reflexivity].
    + exists 20000, (mk_full 400 8320 8256). split; [reflexivity|]. split; [apply full_sound; first [reflexivity | lia | (apply some_pos; lia) | (left; reflexivity)]|]. split; [vm_compute; discriminate|]. split; [reflexivity|]. split; [reflexivity|].
      do 8 eexists. split; [reflexivity|reflexivity].
  - vm_compute. discriminate.
  - reflexivity.
  - reflexivity.
  - intros now u [E|E]; injection E as -> ->.
    + split; [apply final_sound; first [lia | (apply some_pos; lia) | (left; reflexivity)]|]. repeat split; reflexivity.
    + split; [apply opt_sound; first [lia | (apply some_pos; lia) | (left; reflexivity)]|]. repeat split; reflexivity.
  - reflexivity.
  - vm_compute. discriminate.
  - reflexivity.
Qed.
Lemma toy_inputs : typed_inputs toy_fetch [toy_next].
Proof.
  assert (Tu : forall f, f_updates f = toy_updates -> forall p l now u, f_updates f p = Some l -> In (now, u) l -> update_typed u).
  { intros f Ef p l now u E I. rewrite Ef in E. unfold toy_updates in E.
    destruct (p =? 0); [|destruct (p =? 1); [|destruct (p =? 2); [|discriminate]]]; injection E as <-; destruct I as [E|[]]; injection E as <- <-;
      (split; [apply hdr_typed; reflexivity|]; split; [apply cm_typed|]; split; [apply forall_repeat; reflexivity|]; split; [apply hdr_typed; reflexivity|]; split; [apply forall_repeat; reflexivity|reflexivity]). }
  split.
  - intros now u [[(p & l & E & I)|[E|E]]|(g & [<-|[]] & [(p & l & E & I)|[E|E]])].
    + exact (Tu toy_fetch eq_refl p l now u E I).
    + injection E as <- <-. split; [apply hdr_typed; reflexivity|]. split; [apply hdr_typed; reflexivity|]. split; [apply forall_repeat; reflexivity|reflexivity].
    + injection E as <- <-. split; [apply hdr_typed; reflexivity|reflexivity].
    + exact (Tu toy_next eq_refl p l now u E I).
    + injection E as <- <-. split; [apply hdr_typed; reflexivity|]. split; [apply hdr_typed; reflexivity|]. split; [apply forall_repeat; reflexivity|reflexivity].
    + injection E as <- <-. split; [apply hdr_typed; reflexivity|reflexivity].
  - intros b (now & E). injection E as <- <-. split; [apply hdr_typed; reflexivity|]. split; [apply cm_typed|apply forall_repeat; reflexivity].
Qed.
(** The hypotheses of C48 and C49 hold for this client and the advance after it; its finalised header moved to slot 19968. *)
Example C48_safety_case : exists c1, sync toy_sha toy_parse toy_verify toy_config toy_client toy_fetch = (c1, Ok tt) /\
  b_slot (finalized (lc_store (lc_run toy_sha toy_parse toy_verify toy_config c1 [Advance toy_next]))) = 19968 /\
  is_some (next_known (lc_store (lc_run toy_sha toy_parse toy_verify toy_config c1 [Advance toy_next]))) = true /\
  (canonical toy_chain (finalized (lc_store (lc_run toy_sha toy_parse toy_verify toy_config c1 (map Advance [toy_next])))) \/
   (exists now u, fetched_by toy_fetch [toy_next] now u /\ broken_by toy_sha toy_chain u) \/ (exists b, booted_by toy_fetch b /\ broken_by_bootstrap toy_sha toy_chain (hdr 6400) b)).
Proof.
  destruct C69_catch_up_case as (c1 & E & _ & _). exists c1. split; [exact E|].
  assert (C : c1 = fst (sync toy_sha toy_parse toy_verify toy_config toy_client toy_fetch)) by (rewrite E; reflexivity).
  split; [rewrite C; vm_compute; reflexivity|]. split; [rewrite C; vm_compute; reflexivity|].
  apply (C48_safety toy_sha toy_parse toy_verify toy_len toy_chain toy_config toy_client (hdr 6400) toy_fetch c1 [toy_next]).
  - exact toy_ok.
  - exact toy_honest.
  - exact toy_typed.
  - exact toy_descending.
  - exact toy_inputs.
  - split; [apply hdr_typed; reflexivity|reflexivity].
  - symmetry. apply toy_header.
  - exact E.
Qed.
(** One signer right after the bootstrap: slot 6499 is not a block of the chain. *)
Example C70_single_signer_refuted_case : exists c, lc_store c = boot_store toy_boot /\
  optimistic (lc_store (fst (process toy_sha toy_parse toy_verify toy_config c (20000, mk_opt 1 6499)))) = hdr 6499 /\ ~ canonical toy_chain (hdr 6499).
Proof.
  exists {| lc_store := boot_store toy_boot; initial_checkpoint := []; last_checkpoint := None |}. split; [reflexivity|]. split.
  - apply (C70_single_signer_refuted toy_sha toy_parse toy_verify toy_config _ toy_boot 20000 (mk_opt 1 6499)); vm_compute; reflexivity.
  - intros (_ & M). vm_compute in M. discriminate.
Qed.
(** The client started in period 2 and was then suspended until period 4. *)
Definition toy_late : fetched :=
  {| f_bootstrap := None; f_now := 33000; f_updates := fun p => if p =? 3 then Some [(33000, mk_full 512 24640 24576)] else toy_updates p;
     f_finality := Some (33000, mk_final 512 32960 32896); f_optimistic := Some (33000, mk_opt 512 32960) |}.
Example C69_behind_case : exists c1, sync toy_sha toy_parse toy_verify toy_config toy_client toy_fetch = (c1, Ok tt) /\
  lc_run toy_sha toy_parse toy_verify toy_config c1 (map Advance [toy_late; toy_late]) = c1.
Proof.
  destruct C69_catch_up_case as (c1 & E & _ & _). exists c1. split; [exact E|].
  assert (C : c1 = fst (sync toy_sha toy_parse toy_verify toy_config toy_client toy_fetch)) by (rewrite E; reflexivity).
  assert (F : period_of (b_slot (finalized (lc_store c1))) = 2) by (rewrite C; vm_compute; reflexivity). clear C E.
  apply (C69_behind_refuted toy_sha toy_parse toy_verify toy_config c1 [toy_late; toy_late]). intros g now u I X. unfold checks. rewrite F.
  assert (Pu : period_of (sig_slot_of u) = 4) by (destruct I as [<-|[<-|[]]]; destruct X as [X|X]; injection X as <- <-; reflexivity).
  rewrite Pu. intros [Q|(Q & _)]; discriminate.
Qed.
