(** Properties C18 and C61: storage capacities and the maximal radius. *)
From Verif Require Import Base Capacity_Model.

(** The weight of a subnetwork in a combined limit. *)
Definition share_weight (s : subnetwork) : N := match s with LegacyHistory | State => 1 | _ => 0 end.
Definition sum (l : list N) : N := fold_right N.add 0 l.
Definition given (c : capacity_config) (s : subnetwork) : N := match capacity_of c s with Ok n => n | _ => 0 end.

Lemma subnetwork_eqb_spec a b : subnetwork_eqb a b = true <-> a = b.
Proof. destruct a, b; cbn; split; intros; congruence. Qed.
Lemma enabled_In l s : enabled l s = true <-> In s l.
Proof.
  unfold enabled. rewrite existsb_exists. split.
  - intros (x & Hx & E). apply subnetwork_eqb_spec in E. congruence.
  - intros H. exists s. split; [exact H|apply subnetwork_eqb_spec; reflexivity].
Qed.
Lemma enabled_not_In l s : enabled l s = false <-> ~ In s l.
Proof. rewrite <- enabled_In. destruct (enabled l s); split; intros; congruence. Qed.
Lemma weight_active s : is_active s = true -> weight s = Some (share_weight s).
Proof. destruct s; cbn; intros; congruence. Qed.
Lemma total_active l : forallb is_active l = true -> total_weight l = Some (sum (map share_weight l)).
Proof.
  induction l as [|s l IH]; cbn; [reflexivity|]. intros H. apply andb_prop in H as [A B].
  rewrite weight_active, IH by assumption. reflexivity.
Qed.

Lemma sum_cons x l : sum (x :: l) = x + sum l.
Proof. reflexivity. Qed.
Lemma share mb l s : forallb is_active l = true -> In s l ->
  capacity_of (Combined mb l) s =
    Ok (if sum (map share_weight l) =? 0 then 0 else 1000000 * mb * share_weight s / sum (map share_weight l)).
Proof.
  intros A H. cbn. fold (enabled l s). rewrite (proj2 (enabled_In l s) H). cbn [negb].
  rewrite forallb_forall in A. rewrite weight_active by (apply A, H).
  rewrite total_active by (apply forallb_forall; exact A). destruct (_ =? 0); reflexivity.
Qed.

Lemma sum_div (t total : N) (l : list N) : total <> 0 -> sum (map (fun w => t * w / total) l) <= t * sum l / total.
Proof.
  intros Ht. induction l as [|w l IH]; [apply N.le_0_l|]. cbn [map]. rewrite !sum_cons.
  eapply N.le_trans; [apply N.add_le_mono_l; exact IH|]. rewrite N.mul_add_distr_l.
  assert (X : forall a b, a / total + b / total <= (a + b) / total).
  { intros a b. apply N.div_le_lower_bound; [exact Ht|]. pose proof (N.mul_div_le a total Ht). pose proof (N.mul_div_le b total Ht).
    rewrite N.mul_add_distr_l. lia. }
  apply X.
Qed.
Lemma sum_incl (l l' : list subnetwork) : NoDup l -> incl l l' -> sum (map share_weight l) <= sum (map share_weight l').
Proof.
  revert l'. induction l as [|s l IH]; intros l' Nd I; [apply N.le_0_l|]. cbn [map]. rewrite sum_cons. inversion Nd as [|? ? N1 N2]; subst.
  destruct (in_split s l' (I s (or_introl eq_refl))) as (a & b & ->).
  assert (X : sum (map share_weight (a ++ s :: b)) = share_weight s + sum (map share_weight (a ++ b))).
  { clear. induction a as [|x a IH]; [reflexivity|]. cbn [map app]. rewrite !sum_cons, IH. lia. }
  rewrite X. apply N.add_le_mono_l. apply IH; [exact N2|]. intros y Hy.
  assert (In y (a ++ s :: b)) by (apply I; right; exact Hy). apply in_app_iff in H. apply in_app_iff.
  destruct H as [H|[H|H]]; auto. subst y. contradiction.
Qed.

(** C18: with a combined limit the enabled subnetworks, each counted once, get together at
    most the limit; each gets its weight's share rounded down; others get an error. *)
Theorem C18_combined_split :
  forall total_mb (l : list subnetwork), forallb is_active l = true ->
  (forall distinct, NoDup distinct -> (forall s, In s distinct -> In s l) ->
     sum (map (given (Combined total_mb l)) distinct) <= total_mb * 1000000) /\
  (forall s, In s l ->
     capacity_of (Combined total_mb l) s =
       Ok (if sum (map share_weight l) =? 0 then 0
           else 1000000 * total_mb * share_weight s / sum (map share_weight l))) /\
  (forall s, ~ In s l -> capacity_of (Combined total_mb l) s = Err).
Proof.
  intros mb l A. split; [|split].
  - intros ds Nd I. set (tot := sum (map share_weight l)).
    assert (E : map (given (Combined mb l)) ds = map (fun s => if tot =? 0 then 0 else 1000000 * mb * share_weight s / tot) ds).
    { apply map_ext_in. intros s Hs. unfold given. rewrite share by auto. reflexivity. }
    rewrite E. destruct (N.eqb_spec tot 0) as [Z|Z].
    + clear. assert (X : sum (map (fun _ : subnetwork => 0) ds) = 0) by (induction ds as [|x ds IH]; [reflexivity|]; cbn [map]; rewrite sum_cons, IH; reflexivity). rewrite X. apply N.le_0_l.
    + rewrite <- (map_map share_weight (fun w => 1000000 * mb * w / tot)).
      eapply N.le_trans; [apply sum_div; exact Z|]. apply N.div_le_upper_bound; [exact Z|].
      rewrite (N.mul_comm tot). rewrite (N.mul_comm mb). apply N.mul_le_mono_l. apply sum_incl; [exact Nd|exact I].
  - intros s H. apply share; assumption.
  - intros s H. cbn. apply enabled_not_In in H. unfold enabled in H. rewrite H. reflexivity.
Qed.
Print Assumptions C18_combined_split.

(** C18: with separate limits each subnetwork gets its own, and an error without one. *)
Theorem C18_specific :
  forall b h st s,
  capacity_of (Specific b h st) s =
    match s, b, h, st with
    | Beacon, Some mb, _, _ | LegacyHistory, _, Some mb, _ | State, _, _, Some mb => Ok (mb * 1000000)
    | _, _, _, _ => Err
    end.
Proof. intros [n|] [m|] [k|] []; reflexivity. Qed.
Print Assumptions C18_specific.

(** C18: a command line that is accepted gives every enabled subnetwork a capacity and no
    other, and every enabled subnetwork is enabled together with those it depends on. *)
Theorem C18_accepted_command_line :
  forall c, cli_accepted c = true ->
  (forall s, In s (subnetworks c) <-> exists n, capacity_of (storage_capacity_config c) s = Ok n) /\
  (forall s, ~ In s (subnetworks c) <-> capacity_of (storage_capacity_config c) s = Err) /\
  (forall s d, In s (subnetworks c) -> In d (dependencies s) -> In d (subnetworks c)).
Proof.
  intros c H. unfold cli_accepted in H. rewrite !andb_true_iff in H. destruct H as (((_ & Ac) & Dp) & St).
  assert (G : forall s, if enabled (subnetworks c) s then exists n, capacity_of (storage_capacity_config c) s = Ok n
                        else capacity_of (storage_capacity_config c) s = Err).
  { intros s. unfold storage_capacity_config. destruct (storage_total c) as [mb|].
    - destruct (enabled (subnetworks c) s) eqn:E.
      + apply enabled_In in E. rewrite share by assumption. eexists. reflexivity.
      + cbn. unfold enabled in E. rewrite E. reflexivity.
    - rewrite !andb_true_iff in St. destruct St as ((S1 & S2) & S3). unfold flag_matches in *.
      assert (Na : forall s, is_active s = false -> enabled (subnetworks c) s = false).
      { intros x Hx. apply enabled_not_In. intros Hi. rewrite forallb_forall in Ac. rewrite (Ac x Hi) in Hx. discriminate. }
      destruct s; cbn [capacity_of]; try (rewrite Na by reflexivity; reflexivity).
      + destruct (storage_beacon c); [rewrite S1; eexists; reflexivity|]. apply negb_true_iff in S1. rewrite S1. reflexivity.
      + destruct (storage_legacy_history c); [rewrite S2; eexists; reflexivity|]. apply negb_true_iff in S2. rewrite S2. reflexivity.
      + destruct (storage_state c); [rewrite S3; eexists; reflexivity|]. apply negb_true_iff in S3. rewrite S3. reflexivity. }
  split; [|split].
  - intros s. specialize (G s). rewrite <- enabled_In. destruct (enabled (subnetworks c) s); [tauto|].
    split; [discriminate|]. intros (n & E). congruence.
  - intros s. specialize (G s). rewrite <- enabled_not_In. destruct (enabled (subnetworks c) s); [|tauto].
    destruct G as (n & E). split; congruence.
  - intros s d Hs Hd. rewrite forallb_forall in Dp. specialize (Dp s Hs). rewrite forallb_forall in Dp. apply enabled_In, Dp, Hd.
Qed.
Print Assumptions C18_accepted_command_line.

(** C61: a percentage up to 100 gives a radius that is this part of the largest distance, at
    most 100 units of distance too small; 100 gives the largest; more is refused. *)
Theorem C61_radius_percentage :
  forall p,
  (100 < p <-> max_radius_of p = None) /\
  forall r, max_radius_of p = Some r ->
    100 * r <= p * (2 ^ 256 - 1) < 100 * (r + 100) /\ (p = 100 -> r = 2 ^ 256 - 1) /\
    forall p' r', p < p' -> max_radius_of p' = Some r' -> r < r'.
Proof.
  intros p. unfold max_radius_of. assert (Q : max_distance / 100 > 0) by (vm_compute; reflexivity).
  assert (E : max_distance = 100 * (max_distance / 100) + 35) by (vm_compute; reflexivity).
  change (2 ^ 256 - 1) with max_distance. set (q := max_distance / 100) in *. set (m := max_distance) in *. clearbody q m. split.
  - destruct (N.ltb_spec 100 p); [split; [reflexivity|tauto]|]. split; [lia|]. destruct (p =? 100); discriminate.
  - intros r. destruct (N.ltb_spec 100 p); [discriminate|]. destruct (N.eqb_spec p 100) as [->|Hp]; intros [= <-].
    + split; [lia|]. split; [reflexivity|]. intros p' r' L. destruct (N.ltb_spec 100 p'); [discriminate|lia].
    + split; [nia|]. split; [lia|]. intros p' r' L. destruct (N.ltb_spec 100 p'); [discriminate|].
      destruct (N.eqb_spec p' 100); intros [= <-]; nia.
Qed.
Print Assumptions C61_radius_percentage.

Example capacity_examples :
  capacity_of (Combined 100 [Beacon; LegacyHistory; State]) State = Ok 50000000 /\
  capacity_of (Combined 100 [Beacon; LegacyHistory; State]) Beacon = Ok 0 /\
  capacity_of (Combined 100 [LegacyHistory]) State = Err /\
  cli_accepted (mk_cli [Beacon; LegacyHistory; State] (Some 1000) None None None) = true /\
  cli_accepted (mk_cli [Beacon; LegacyHistory] None (Some 10) (Some 20) None) = true /\
  cli_accepted (mk_cli [LegacyHistory] (Some 1000) None None None) = false /\
  max_radius_of 5 = Some ((2 ^ 256 - 1) / 100 * 5).
Proof. vm_compute. repeat split. Qed.
