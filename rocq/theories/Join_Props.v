(** C112: joining the network. *)
From Verif Require Import Base.
From Verif Require Import Sort_Model Distance_Model Distance_Spec Distance_Proofs Hex_Model Hex_Proofs KBucket_Model KBucket_Spec KBucket_Proofs KBucket_Props OverlayApi_Props Join_Model Join_Spec.

Section Join.
Context (local limit : N) (Hlocal : local < 2 ^ 256) (Hlimit : 0 < limit).

Lemma random_distance idx d : idx <= 255 -> drawn idx d -> log_distance local (random_id local idx d) (idx + 1) /\ random_id local idx d < 2 ^ 256.
Proof.
  intros Hi (L & B & C). destruct (random_node_id_log2 idx (be_bytes 32 local) (fst d) (snd d) Hi (id32_be_bytes local) L B C) as [I D].
  assert (E : be_num (be_bytes 32 local) = local) by (apply be_num_be_bytes_id; change (256 ^ N.of_nat 32) with (2 ^ 256); exact Hlocal).
  pose proof (distance_bound _ _ (id32_be_bytes local) I) as DB.
  rewrite distance_lxor in D, DB by (auto using id32_be_bytes). rewrite E in D, DB. fold (random_id local idx d) in D, DB.
  assert (R : random_id local idx d < 2 ^ 256) by (apply id32_bound, I). split; [|exact R].
  apply (proj2 (log2_spec _ DB)) in D. unfold log_distance. lia.
Qed.
Lemma closest_some t target : (exists e, connected_peer t e) <-> closest target limit t <> [].
Proof.
  assert (P : forall s, In s (sort_by (nearer target) (connected t)) <-> In s t /\ s_connected s = true /\ s_pending s = false).
  { intros s. rewrite sort_by_In. apply connected_in. }
  unfold closest. destruct (N.to_nat limit) as [|n] eqn:E; [lia|]. destruct (sort_by (nearer target) (connected t)) as [|s l] eqn:Q.
  - cbn. split; [|congruence]. intros (e & s & I & C & Pn & _). destruct (proj2 (P s)). auto.
  - cbn. split; [discriminate|]. intros _. exists (n_enr (s_node s)), s. destruct (proj1 (P s) (or_introl eq_refl)) as (I & C & Pn). auto.
Qed.

(** At the start: every bootnode that the table takes has an entry that is not connected yet and is queued to be pinged. *)
Theorem C112_bootnodes : forall boot draw e, NoDup (map (fun x => enr_id (fst x)) boot) ->
  In (e, Accepted) boot -> enr_id e <> local ->
  let st := fst (initialize_routing_table local limit {| tbl := []; queue := [] |} boot draw) in
  (exists s, In s (tbl st) /\ n_enr (s_node s) = e /\ s_connected s = false /\ s_pending s = false) /\ In (enr_id e) (queue st).
Proof.
  intros boot draw e ND I Ne. cbn [initialize_routing_table fst].
  assert (G : forall l st, NoDup (map (fun x => enr_id (fst x)) l) -> (forall s, In s (tbl st) -> ~ In (s_id s) (map (fun x => enr_id (fst x)) l)) ->
    let st' := add_bootnodes local st l in
    (forall s, In s (tbl st) -> In s (tbl st')) /\ (forall i, In i (queue st) -> In i (queue st')) /\
    (In (e, Accepted) l -> (exists s, In s (tbl st') /\ n_enr (s_node s) = e /\ s_connected s = false /\ s_pending s = false) /\ In (enr_id e) (queue st'))).
  { induction l as [|[x f] l IH]; intros st N D; [cbn; tauto|]. cbn [map fst] in N. inversion N as [|? ? N1 N2]; subst.
    set (st1 := add_bootnode local st x false f).
    assert (Lx : lookup (enr_id x) (tbl st) = None).
    { destruct (lookup (enr_id x) (tbl st)) as [s|] eqn:L; [|reflexivity]. apply lookup_some in L. destruct L as [Ls Li]. destruct (D s Ls). left. now symmetry. }
    assert (S1 : (forall s, In s (tbl st1) -> In s (tbl st) \/ s_id s = enr_id x) /\ (forall s, In s (tbl st) -> In s (tbl st1)) /\
                 (forall i, In i (queue st) -> In i (queue st1)) /\
                 (x = e -> f = Accepted -> (exists s, In s (tbl st1) /\ n_enr (s_node s) = e /\ s_connected s = false /\ s_pending s = false) /\ In (enr_id e) (queue st1))).
    { unfold st1, add_bootnode, insert_or_update. cbn [new_node n_enr]. destruct (N.eqb_spec (enr_id x) local) as [El|Nl].
      - cbn. split; [auto|]. split; [auto|]. split; [auto|]. intros ->. contradiction.
      - rewrite Lx. destruct f as [|dd|]; cbn [tbl queue].
        + split; [intros s J; apply in_app_or in J; destruct J as [J|[<-|[]]]; auto|]. split; [intros s J; apply in_or_app; now left|].
          split; [intros i J; apply enqueue_in; now right|]. intros -> _. split; [|apply enqueue_in; now left].
          exists {| s_node := new_node e; s_connected := false; s_incoming := false; s_pending := false |}.
          split; [apply in_or_app; right; now left|]. cbn. auto.
        + split; [intros s J; apply in_app_or in J; destruct J as [J|[<-|[]]]; auto|]. split; [intros s J; apply in_or_app; now left|].
          split; [intros i J; apply enqueue_in; now right|]. discriminate.
        + split; [auto|]. split; [auto|]. split; [auto|]. discriminate. }
    destruct S1 as (A & B & C & E).
    destruct (IH st1 N2) as (X & Y & Z).
    { intros s J. destruct (A s J) as [J'|J']; [intros K; apply (D s J'); now right|rewrite J'; exact N1]. }
    unfold add_bootnodes in *. cbn [fold_left fst snd]. fold st1. split; [auto|]. split; [auto|].
    intros [J|J]; [|auto]. injection J as -> ->. destruct (E eq_refl eq_refl) as [(s & Js & R) Q]. split; [exists s; auto|auto]. }
  apply (G boot {| tbl := []; queue := [] |} ND); [intros s []|exact I].
Qed.
(** The lookups for which a node is meant to look at its start: for its own id, and for one random id at each logarithmic
    distance from 239 to 255. *)
Theorem C112_targets : forall draw, (forall i, i < 256 -> drawn i (draw i)) ->
  exists ts, initial_targets local draw = local :: ts /\ blen ts = 17 /\
  forall i t, nth_error ts i = Some t -> log_distance local t (239 + N.of_nat i) /\ t < 2 ^ 256.
Proof.
  intros draw D. eexists. split; [reflexivity|]. split; [unfold blen; rewrite map_length, seq_length; reflexivity|].
  intros i t H. assert (B : (i < 17)%nat) by (apply nth_error_Some_bound in H || (assert (X : nth_error (map (fun i => random_id local (N.of_nat i) (draw (N.of_nat i))) (seq (255 - expected_non_empty) expected_non_empty)) i <> None) by congruence;
    apply nth_error_Some in X; rewrite map_length, seq_length in X; exact X)).
  erewrite map_nth_error in H; [|apply nth_error_nth' with (d := 0%nat); rewrite seq_length; exact B]. rewrite seq_nth in H by exact B. injection H as <-.
  unfold expected_non_empty. replace (239 + N.of_nat i) with (N.of_nat (255 - 17 + i) + 1) by lia. apply random_distance; [lia|]. apply D. lia.
Qed.
(** ... so not one of them is in the farther half of all ids, where half of the nodes are. *)
Theorem C112_far_half_refuted : forall draw t, (forall i, i < 256 -> drawn i (draw i)) -> In t (initial_targets local draw) ->
  ~ log_distance local t 256.
Proof.
  intros draw t D I L. destruct (C112_targets draw D) as (ts & E & B & T). rewrite E in I. unfold log_distance in L. destruct I as [<-|I].
  - rewrite N.lxor_nilpotent in L. change (2 ^ (256 - 1)) with (2 ^ 255) in L. destruct L as [[L _] _]. pose proof (N.pow_nonzero 2 255). lia.
  - apply In_nth_error in I. destruct I as (i & I). destruct (T i t I) as [(L1 & L2) _].
    assert (Bi : (i < 17)%nat). { assert (nth_error ts i <> None) as X by congruence. apply nth_error_Some in X. unfold blen in B. lia. }
    assert (2 ^ (239 + N.of_nat i) <= 2 ^ (256 - 1)) by (apply N.pow_le_mono_r; lia). lia.
Qed.
(** And no lookup is started at all: the bootnodes are not connected yet, and only connected nodes are asked. *)
Theorem C112_no_lookup_refuted : forall boot draw, snd (initialize_routing_table local limit {| tbl := []; queue := [] |} boot draw) = [].
Proof.
  intros boot draw. cbn [initialize_routing_table snd].
  assert (G : forall l st, (forall s, In s (tbl st) -> s_connected s = false) -> forall s, In s (tbl (add_bootnodes local st l)) -> s_connected s = false).
  { induction l as [|[x f] l IH]; intros st D; [exact D|]. apply (IH (add_bootnode local st x false f)). intros s. unfold add_bootnode, insert_or_update.
    destruct (_ =? local); [cbn; auto|]. destruct (lookup _ (tbl st)) as [s0|].
    - destruct f as [|dd|]; cbn [tbl]; [| |unfold remove; intros I; apply filter_In in I; apply D, I];
        (unfold replace; intros I; apply in_map_iff in I; destruct I as (y & E & I); destruct (s_id y =? _); [subst s; reflexivity|subst s; auto]).
    - destruct f; cbn [tbl]; [| |auto]; intros I; apply in_app_or in I; destruct I as [I|[<-|[]]]; auto. }
  set (t := tbl (add_bootnodes local _ boot)).
  assert (C : forall target, closest target limit t = []).
  { intros target. destruct (closest target limit t) eqn:E; [reflexivity|]. assert (closest target limit t <> []) as X by congruence.
    apply closest_some in X. destruct X as (x & s & I & Cs & _). rewrite (G boot {| tbl := []; queue := [] |} (fun s i => match i with end) s I) in Cs. discriminate. }
  induction (initial_targets local draw) as [|x l IH]; [reflexivity|]. cbn [flat_map]. rewrite IH. unfold start_lookup. now rewrite C.
Qed.

(** From then on a lookup is started each time the table is refreshed, exactly if some peer is connected: for a random node at
    the logarithmic distance that was drawn, 240 to 256, starting with the nearest peers. *)
Theorem C112_refresh : forall st h bucket d, reach local st h -> 239 <= bucket < 256 -> drawn bucket d ->
  (bucket_refresh_lookup local limit st bucket d = [] <-> ~ exists e, connected_peer (tbl st) e) /\
  forall target l, In (target, l) (bucket_refresh_lookup local limit st bucket d) ->
    bucket_refresh_lookup local limit st bucket d = [(target, l)] /\ log_distance local target (bucket + 1) /\ target < 2 ^ 256 /\
    l <> [] /\ NoDup (map enr_id l) /\ ~ In local (map enr_id l) /\ nearest_peers (tbl st) target limit l.
Proof.
  intros st h bucket d R B D. unfold bucket_refresh_lookup. destruct (N.ltb_spec bucket 256) as [_|]; [|lia]. unfold start_lookup.
  pose proof (closest_some (tbl st) (random_id local bucket d)) as CS.
  destruct (random_distance bucket d) as [L T]; [lia|exact D|].
  destruct (closest (random_id local bucket d) limit (tbl st)) as [|e0 l0] eqn:E.
  - split; [|intros ? ? []]. split; [|reflexivity]. intros _ X. apply CS in X. congruence.
  - split; [split; [discriminate|]; intros X; destruct X; apply CS; discriminate|].
    intros target l [J|[]]. injection J as <- <-. split; [reflexivity|]. split; [exact L|]. split; [exact T|]. split; [discriminate|].
    pose proof (C38_closest local st h (random_id local bucket d) limit R) as K. cbv zeta in K. rewrite E in K.
    destruct K as (K1 & K2 & K3 & K4 & K5 & K6). split; [exact K2|]. split.
    + intros J. apply in_map_iff in J. destruct J as (e & Je & J). destruct (K1 e J) as (s & Is & _ & _ & Es).
      apply (proj2 (reach_wf local st h R)). apply in_map_iff. exists s. split; [|exact Is]. unfold s_id. congruence.
    + repeat split; assumption.
Qed.
(** As soon as one bootnode has answered a ping, the next refresh starts a lookup. *)
Theorem C112_recovers : forall st h e bucket d, reach local st h -> enr_id e <> local -> 239 <= bucket < 256 -> drawn bucket d ->
  (forall s, In s (tbl st) -> s_id s = enr_id e -> s_pending s = false) ->
  bucket_refresh_lookup local limit (fst (step local st (Response e Accepted))) bucket d <> [].
Proof.
  intros st h e bucket d R Ne B D NP.
  assert (R' : reach local (fst (step local st (Response e Accepted))) (h ++ [Response e Accepted])) by (apply R_step; [exact R|discriminate]).
  intros Q. apply (proj1 (C112_refresh _ _ bucket d R' B D)) in Q. apply Q. cbn [step]. unfold process_response.
  destruct (lookup (enr_id e) (tbl st)) as [s|] eqn:L.
  - pose proof (lookup_some _ _ _ L) as [Is Ei]. pose proof (NP s Is Ei) as Ps. destruct (s_connected s) eqn:Cs.
    + unfold update_status. apply N.eqb_neq in Ne. rewrite Ne, L. cbn [fst tbl]. exists (n_enr (s_node s)).
      eexists. split; [unfold replace; apply in_map_iff; exists s; rewrite Ei, N.eqb_refl; split; [reflexivity|exact Is]|]. cbn. auto.
    + unfold connect_node, insert_or_update. assert (Es : enr_id (n_enr (s_node s)) = enr_id e) by exact Ei. rewrite Es.
      apply N.eqb_neq in Ne. rewrite Ne, L, Ps. cbn [fst tbl]. exists (n_enr (s_node s)).
      eexists. split; [unfold replace; apply in_map_iff; exists s; rewrite Ei, N.eqb_refl; split; [reflexivity|exact Is]|]. cbn. auto.
  - unfold connect_node, insert_or_update. cbn [new_node n_enr]. apply N.eqb_neq in Ne. rewrite Ne, L. cbn [fst tbl]. exists e.
    eexists. split; [apply in_or_app; right; left; reflexivity|]. cbn. auto.
Qed.
End Join.
Print Assumptions C112_bootnodes.
Print Assumptions C112_targets.
Print Assumptions C112_far_half_refuted.
Print Assumptions C112_no_lookup_refuted.
Print Assumptions C112_refresh.
Print Assumptions C112_recovers.

(** Node 1 joins with bootnodes 2 and 2^255; both are queued to be pinged, nothing is looked up.  Once node 2 has answered, the farthest
    bucket is refreshed starting with node 2. *)
Definition toy_draw (i : N) : bytes * N := (repeat 0 32, 0).
Example C112_example : let boot := [(rec 2 1, Accepted); (rec 1 1, Accepted); (rec (2 ^ 255) 1, Accepted)] in
  let (st, lookups) := initialize_routing_table 1 16 {| tbl := []; queue := [] |} boot toy_draw in
  map s_id (tbl st) = [2; 2 ^ 255] /\ queue st = [2; 2 ^ 255] /\ lookups = [] /\
  drawn 255 (repeat 7 32, 200) /\ reach 1 st [Bootnode (rec 2 1) false Accepted; Bootnode (rec 1 1) false Accepted; Bootnode (rec (2 ^ 255) 1) false Accepted] /\
  map snd (bucket_refresh_lookup 1 16 (fst (step 1 st (Response (rec 2 1) Accepted))) 255 (repeat 7 32, 200)) = [[rec 2 1]].
Proof.
  cbv zeta. destruct (initialize_routing_table _ _ _ _ _) as [st lookups] eqn:E. vm_compute in E. injection E as <- <-.
  split; [reflexivity|]. split; [reflexivity|]. split; [reflexivity|]. split.
  { split; [reflexivity|]. split; [repeat constructor|]. vm_compute. intuition congruence. }
  split; [|vm_compute; reflexivity].
  assert (R0 : reach 1 {| tbl := []; queue := [] |} []) by constructor.
  pose proof (R_step 1 _ _ (Bootnode (rec 2 1) false Accepted) R0) as R1.
  pose proof (R_step 1 _ _ (Bootnode (rec 1 1) false Accepted) (R1 ltac:(discriminate))) as R2.
  pose proof (R_step 1 _ _ (Bootnode (rec (2 ^ 255) 1) false Accepted) (R2 ltac:(discriminate))) as R3.
  exact (R3 ltac:(discriminate)).
Qed.
