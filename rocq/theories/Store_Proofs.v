From Coq Require Import QArith Qround Lqa.
From Verif Require Import Base Distance_Model Distance_Proofs Sort_Model F64_Model F64_Proofs Store_Model Distance_Spec Store_Spec.
Open Scope N_scope.

(** * The floating point estimate always asks for at least one deletion *)
Open Scope Q_scope.
Lemma injN_lt a b : (a < b)%N -> inject_Z (Z.of_N a) < inject_Z (Z.of_N b).
Proof. intros H. rewrite <- Zlt_Qlt. lia. Qed.
Lemma injN_le a b : (a <= b)%N -> inject_Z (Z.of_N a) <= inject_Z (Z.of_N b).
Proof. intros H. rewrite <- Zle_Qle. lia. Qed.
Lemma injN_0 a : 0 <= inject_Z (Z.of_N a).
Proof. change 0 with (inject_Z (Z.of_N 0)). apply injN_le. apply N.le_0_l. Qed.

Lemma f64_of_bounds n : inject_Z (Z.of_N n) * (1 - u) <= f64_of n /\ f64_of n <= inject_Z (Z.of_N n) * (1 + u) /\ 0 <= f64_of n.
Proof. apply round53_bounds, injN_0. Qed.

Lemma as_u64_le x : 0 <= x -> inject_Z (Z.of_N (as_u64 x)) <= x.
Proof.
  intros H. unfold as_u64. apply Qle_trans with (inject_Z (Qfloor x)); [|apply Qfloor_le].
  rewrite <- Zle_Qle. assert (0 <= Qfloor x)%Z by (change 0%Z with (Qfloor 0); apply Qfloor_resp_le, H).
  rewrite N2Z.inj_min, Z2N.id by assumption. apply Z.le_min_l.
Qed.

Lemma fround_le x : fround x <= x + (1 # 2).
Proof. unfold fround. apply Qfloor_le. Qed.
Lemma fround_nonneg x : 0 <= x -> 0 <= fround x.
Proof.
  intros H. unfold fround. change 0 with (inject_Z 0). rewrite <- Zle_Qle.
  change 0%Z with (Qfloor 0). apply Qfloor_resp_le. lra.
Qed.

Definition uu : Q := 1 # 9007199254740992.
Lemma u_uu : u == uu.
Proof. reflexivity. Qed.

Lemma target_bound c : inject_Z (Z.of_N (target_capacity c)) <= (951 # 1000) * inject_Z (Z.of_N (capacity c)) + (1 # 2).
Proof.
  unfold target_capacity. destruct (f64_of_bounds (capacity c)) as (_ & B1 & P1). rewrite u_uu in B1.
  assert (P2 : 0 <= flit (95 # 100) /\ flit (95 # 100) <= 95001 # 100000) by (vm_compute; split; discriminate).
  destruct P2 as [P2 B2]. set (x := f64_of (capacity c)) in *. set (y := flit (95 # 100)) in *.
  assert (P3 : 0 <= x * y) by (apply Qmult_le_0_compat; assumption).
  destruct (round53_bounds (x * y) P3) as (_ & B3 & P4). fold (fmul x y) in B3, P4. rewrite u_uu in B3.
  apply Qle_trans with (fround (fmul x y)); [apply as_u64_le, fround_nonneg, P4|].
  apply Qle_trans with (fmul x y + (1 # 2)); [apply fround_le|].
  pose proof (injN_0 (capacity c)) as P5. set (C := inject_Z (Z.of_N (capacity c))) in *.
  assert (XY : x * y <= C * (1 + uu) * (95001 # 100000)).
  { apply Qle_trans with (x * (95001 # 100000)); [rewrite !(Qmult_comm x); apply Qmult_le_compat_r; assumption|].
    apply Qmult_le_compat_r; [exact B1|discriminate]. }
  clearbody x y. unfold uu in *. lra.
Qed.

Lemma average_bound c us : (0 < entry_count us)%N ->
  inject_Z (Z.of_N (disk_usage c us)) * (1 - (5 # 1000000)) <= average_usage c us * inject_Z (Z.of_N (entry_count us)).
Proof.
  intros Hc. unfold average_usage, disk_usage.
  destruct (f64_of_bounds (total_size us)) as (L1 & U1 & P1).
  destruct (f64_of_bounds (entry_count us)) as (L2 & U2 & P2).
  destruct (f64_of_bounds (extra c)) as (L3 & U3 & P3).
  rewrite N2Z.inj_add, N2Z.inj_mul, inject_Z_plus, inject_Z_mult.
  pose proof (injN_0 (total_size us)) as T0. pose proof (injN_0 (extra c)) as E0.
  pose proof (injN_lt 0 (entry_count us) Hc) as N0. change (inject_Z (Z.of_N 0)) with 0 in N0.
  set (T := inject_Z (Z.of_N (total_size us))) in *. set (n := inject_Z (Z.of_N (entry_count us))) in *.
  set (e := inject_Z (Z.of_N (extra c))) in *.
  set (ft := f64_of (total_size us)) in *. set (fn := f64_of (entry_count us)) in *. set (fe := f64_of (extra c)) in *.
  rewrite u_uu in *. clearbody T n e ft fn fe.
  assert (Pn : 0 < fn) by (apply Qlt_le_trans with (n * (1 - uu)); [unfold uu in *; lra|exact L2]).
  assert (Pq : 0 <= ft / fn) by (apply Qle_shift_div_l; lra).
  destruct (round53_bounds (ft / fn) Pq) as (L4 & _ & P4). fold (fdiv ft fn) in L4, P4. rewrite u_uu in L4.
  assert (P5 : 0 <= fdiv ft fn + fe) by lra.
  destruct (round53_bounds _ P5) as (L5 & _ & P6). fold (fadd (fdiv ft fn) fe) in L5, P6. rewrite u_uu in L5.
  (* (ft/fn) * n >= T (1-uu) / (1+uu) *)
  assert (Q1 : T * (1 - 3 * uu) <= ft / fn * n).
  { assert (Q2 : T * (1 - 3 * uu) * fn <= ft * n).
    { apply Qle_trans with (T * (1 - 3 * uu) * (n * (1 + uu))).
      - rewrite !(Qmult_comm (T * (1 - 3 * uu))). apply Qmult_le_compat_r; [exact U2|].
        apply Qmult_le_0_compat; [exact T0|unfold uu; discriminate].
      - apply Qle_trans with (T * (1 - uu) * n); [|apply Qmult_le_compat_r; [exact L1|lra]].
        assert (TN : 0 <= T * n) by (apply Qmult_le_0_compat; lra).
        unfold uu. assert (G : T * (1 - 3 * (1 # 9007199254740992)) * (n * (1 + (1 # 9007199254740992))) ==
                    (T * n) * ((1 - 3 * (1 # 9007199254740992)) * (1 + (1 # 9007199254740992)))) by ring.
        rewrite G. assert (G2 : T * (1 - (1 # 9007199254740992)) * n == (T * n) * (1 - (1 # 9007199254740992))) by ring.
        rewrite G2. rewrite !(Qmult_comm (T * n)). apply Qmult_le_compat_r; [vm_compute; discriminate|exact TN]. }
    assert (G : ft / fn * n == ft * n / fn) by (field; lra). rewrite G. apply Qle_shift_div_l; [exact Pn|exact Q2]. }
  set (q := fdiv ft fn) in *. set (a := fadd q fe) in *. set (r := ft / fn) in *. clearbody r q a.
  (* a * n >= (q n + fe n)(1-uu) *)
  assert (A1 : (q + fe) * (1 - uu) * n <= a * n) by (apply Qmult_le_compat_r; lra).
  assert (A2 : r * (1 - uu) * n <= q * n) by (apply Qmult_le_compat_r; lra).
  assert (A3 : e * (1 - uu) * n <= fe * n) by (apply Qmult_le_compat_r; lra).
  assert (A4 : T * (1 - 3 * uu) * (1 - uu) <= r * n * (1 - uu)) by (apply Qmult_le_compat_r; [lra|unfold uu; discriminate]).
  assert (EN : 0 <= e * n) by (apply Qmult_le_0_compat; lra).
  assert (A5 : (T * (1 - 3 * uu) * (1 - uu) + e * n * (1 - uu)) * (1 - uu) <= (q * n + fe * n) * (1 - uu)).
  { apply Qmult_le_compat_r; [|unfold uu; discriminate]. lra. }
  assert (A6 : (q + fe) * (1 - uu) * n == (q * n + fe * n) * (1 - uu)) by ring.
  rewrite A6 in A1. unfold uu in *.
  assert (Comm : n * e == e * n) by ring. rewrite Comm. 
  set (en := e * n) in *. set (qn := q * n) in *. set (fen := fe * n) in *. set (an := a * n) in *. clearbody en qn fen an. lra.
Qed.

Open Scope N_scope.
Theorem estimate_progress c us :
  0 < entry_count us -> should_prune c us = true -> 1 <= estimate_to_delete c us.
Proof.
  intros Hc Hp. unfold should_prune in Hp. apply N.ltb_lt in Hp. unfold estimate_to_delete.
  destruct (N.eqb_spec (entry_count us) 0) as [Z0|_]; [lia|].
  set (at_target := as_u64 _). enough (at_target < entry_count us) as G.
  { destruct (N.ltb_spec at_target (entry_count us)); lia. }
  pose proof (target_bound c) as TB. pose proof (average_bound c us Hc) as AB.
  destruct (f64_of_bounds (target_capacity c)) as (_ & U1 & P1). rewrite u_uu in U1.
  pose proof (injN_lt _ _ Hc) as N0. change (inject_Z (Z.of_N 0)) with 0%Q in N0.
  assert (Hp1 : capacity c + 1 <= disk_usage c us) by lia.
  pose proof (injN_le _ _ Hp1) as D1. rewrite N2Z.inj_add, inject_Z_plus in D1. change (inject_Z (Z.of_N 1)) with 1%Q in D1.
  pose proof (injN_0 (capacity c)) as C0. pose proof (injN_0 (target_capacity c)) as T0.
  set (n := inject_Z (Z.of_N (entry_count us))) in *. set (D := inject_Z (Z.of_N (disk_usage c us))) in *.
  set (C := inject_Z (Z.of_N (capacity c))) in *. set (t := inject_Z (Z.of_N (target_capacity c))) in *.
  set (ft := f64_of (target_capacity c)) in *. set (a := average_usage c us) in *.
  assert (Ap : (0 < a)%Q).
  { apply Qnot_le_lt. intros Ha. assert (a * n <= 0 * n)%Q by (apply Qmult_le_compat_r; lra).
    assert (0 < D)%Q by lra. lra. }
  assert (Fq : (0 <= ft / a)%Q) by (apply Qle_shift_div_l; lra).
  destruct (round53_bounds _ Fq) as (_ & U2 & P2). fold (fdiv ft a) in U2, P2. rewrite u_uu in U2.
  assert (Q1 : (ft / a <= n * (96 # 100))%Q).
  { apply Qle_shift_div_r; [exact Ap|]. assert (n * (96 # 100) * a == (a * n) * (96 # 100))%Q as -> by ring.
    unfold uu in *. clearbody ft t C D n a. lra. }
  assert (Q2 : (inject_Z (Z.of_N at_target) < n)%Q).
  { apply Qle_lt_trans with (fdiv ft a).
    - unfold at_target. apply Qle_trans with (ffloor (fdiv ft a)); [|apply Qfloor_le].
      apply as_u64_le. unfold ffloor. change 0%Q with (inject_Z 0). rewrite <- Zle_Qle.
      change 0%Z with (Qfloor 0). apply Qfloor_resp_le. exact P2.
    - unfold uu in *. set (x := (ft / a)%Q) in *. set (y := fdiv ft a) in *. clearbody x y n. lra. }
  unfold n in Q2. rewrite <- Zlt_Qlt in Q2. lia.
Qed.

(** * The table *)
Definition ids (l : list row) : list bytes := map r_id l.

Lemma find_row_some id l r : find_row id l = Some r -> In r l /\ r_id r = id.
Proof. intros H. apply find_some in H as [H1 H2]. split; [exact H1|]. apply beqb_spec. exact H2. Qed.
Lemma find_row_none id l : find_row id l = None <-> ~ In id (ids l).
Proof.
  split.
  - intros H Hin. apply in_map_iff in Hin as (r & <- & Hr). pose proof (find_none _ _ H r Hr) as X. cbn in X.
    rewrite beqb_refl in X. discriminate.
  - intros H. destruct (find_row id l) as [r|] eqn:E; [|reflexivity]. apply find_row_some in E as [E1 <-].
    exfalso. apply H. apply in_map. exact E1.
Qed.
Lemma find_row_in r l : NoDup (ids l) -> In r l -> find_row (r_id r) l = Some r.
Proof.
  intros Nd Hr. destruct (find_row (r_id r) l) as [r'|] eqn:E.
  - apply find_row_some in E as [E1 E2]. f_equal. revert Nd Hr E1 E2. clear.
    induction l as [|x l IH]; intros Nd H1 H2 E; [destruct H1|]. cbn in Nd. inversion Nd; subst.
    destruct H1 as [->|H1], H2 as [->|H2]; auto.
    + exfalso. apply H3. rewrite <- E. apply in_map. assumption.
    + exfalso. apply H3. rewrite E. apply in_map. assumption.
  - apply find_row_none in E. exfalso. apply E. apply in_map. exact Hr.
Qed.
Lemma find_row_perm id l1 l2 : NoDup (ids l1) -> Permutation l1 l2 -> find_row id l1 = find_row id l2.
Proof.
  intros Nd P. assert (Nd2 : NoDup (ids l2)) by (eapply Permutation_NoDup; [apply Permutation_map; exact P|exact Nd]).
  destruct (find_row id l1) as [r|] eqn:E.
  - apply find_row_some in E as [E1 <-]. symmetry. apply find_row_in; [exact Nd2|]. eapply Permutation_in; eassumption.
  - symmetry. apply find_row_none. apply find_row_none in E. intros H. apply E.
    eapply Permutation_in; [apply Permutation_map; symmetry; exact P|exact H].
Qed.

Lemma farthest_le_total tie x y : farthest_le tie x y = true \/ farthest_le tie y x = true.
Proof.
  unfold farthest_le. destruct (N.ltb_spec (r_short y) (r_short x)), (N.ltb_spec (r_short x) (r_short y)); cbn [orb]; auto.
  replace (r_short y =? r_short x) with true by (symmetry; apply N.eqb_eq; lia).
  replace (r_short x =? r_short y) with true by (symmetry; apply N.eqb_eq; lia). cbn [andb].
  destruct (N.leb_spec (tie x) (tie y)); [left; reflexivity|right]. apply N.leb_le. lia.
Qed.
Lemma farthest_le_iff tie x y : farthest_le tie x y = true <-> r_short y < r_short x \/ (r_short x = r_short y /\ tie x <= tie y).
Proof. unfold farthest_le. rewrite Bool.orb_true_iff, Bool.andb_true_iff, N.ltb_lt, N.eqb_eq, N.leb_le. reflexivity. Qed.
Lemma farthest_le_trans tie x y z : farthest_le tie x y = true -> farthest_le tie y z = true -> farthest_le tie x z = true.
Proof. rewrite !farthest_le_iff. lia. Qed.
Lemma farthest_le_short tie x y : farthest_le tie x y = true -> r_short y <= r_short x.
Proof. rewrite farthest_le_iff. lia. Qed.

Lemma sum_sizes_cons r l : sum_sizes (r :: l) = r_size r + sum_sizes l.
Proof. reflexivity. Qed.
Lemma sum_sizes_app l1 l2 : sum_sizes (l1 ++ l2) = sum_sizes l1 + sum_sizes l2.
Proof. induction l1 as [|r l IH]; [reflexivity|]. cbn [app]. rewrite !sum_sizes_cons, IH. lia. Qed.
Lemma sum_sizes_perm l1 l2 : Permutation l1 l2 -> sum_sizes l1 = sum_sizes l2.
Proof. induction 1; rewrite ?sum_sizes_cons; lia. Qed.
Lemma blen_perm {A} (l1 l2 : list A) : Permutation l1 l2 -> blen l1 = blen l2.
Proof. intros H. unfold blen. f_equal. apply Permutation_length, H. Qed.

Lemma filter_perm {A} (f : A -> bool) l1 l2 : Permutation l1 l2 -> Permutation (filter f l1) (filter f l2).
Proof.
  induction 1 as [|x l1 l2 P IH|x y l|l1 l2 l3 P1 IH1 P2 IH2]; cbn; [constructor| | |etransitivity; eassumption].
  - destruct (f x); [constructor|]; assumption.
  - destruct (f x), (f y); try reflexivity. apply perm_swap.
Qed.
Lemma filter_all {A} (f : A -> bool) l : (forall x, In x l -> f x = true) -> filter f l = l.
Proof.
  induction l as [|x l IH]; intros H; [reflexivity|]. cbn. rewrite H by (left; reflexivity). f_equal.
  apply IH. intros; apply H; right; assumption.
Qed.
Lemma filter_nil {A} (f : A -> bool) l : (forall x, In x l -> f x = false) -> filter f l = [].
Proof.
  induction l as [|x l IH]; intros H; [reflexivity|]. cbn. rewrite H by (left; reflexivity).
  apply IH. intros; apply H; right; assumption.
Qed.

Lemma nodup_app_ids (l1 l2 : list row) : NoDup (ids (l1 ++ l2)) ->
  forall x y, In x l1 -> In y l2 -> r_id x <> r_id y.
Proof.
  induction l1 as [|a l1 IH]; intros Nd x y Hx Hy; [destruct Hx|]. cbn in Nd. inversion Nd; subst.
  destruct Hx as [->|Hx]; [|apply IH; assumption]. intros E. apply H1. rewrite E. apply in_map.
  apply in_or_app. right. exact Hy.
Qed.

(** Deleting the farthest rows splits the table. *)
Lemma delete_farthest_split tie limit l del kept :
  NoDup (ids l) -> sql_delete_farthest tie limit l = (del, kept) ->
  Permutation l (del ++ kept) /\ (forall d k, In d del -> In k kept -> r_short k <= r_short d) /\
  length del = Nat.min (N.to_nat limit) (length l) /\ (forall r, In r kept -> In r l).
Proof.
  intros Nd H. unfold sql_delete_farthest in H. set (s := by_distance_desc tie l) in *.
  set (f := fun r => _) in H. injection H as <- <-.
  assert (P : Permutation l s) by apply sort_by_perm.
  assert (Nds : NoDup (ids s)) by (eapply Permutation_NoDup; [apply Permutation_map; exact P|exact Nd]).
  pose proof (firstn_skipn (N.to_nat limit) s) as FS.
  set (d := firstn (N.to_nat limit) s) in *. set (rest := skipn (N.to_nat limit) s) in *.
  assert (K : Permutation (filter f l) rest).
  { rewrite (filter_perm f _ _ P). rewrite <- FS at 1. rewrite filter_app.
    rewrite filter_nil, filter_all; [reflexivity| |].
    - intros x Hx. unfold f. rewrite Bool.negb_true_iff. apply Bool.not_true_iff_false. intros E.
      apply existsb_exists in E as (y & Hy & E). apply beqb_spec in E.
      rewrite <- FS in Nds. apply (nodup_app_ids d rest Nds y x Hy Hx). exact E.
    - intros x Hx. unfold f. rewrite Bool.negb_false_iff. apply existsb_exists. exists x. split; [exact Hx|apply beqb_refl]. }
  split; [|split; [|split]].
  - rewrite P, <- FS at 1. apply Permutation_app_head. symmetry. exact K.
  - intros x y Hx Hy. apply (Permutation_in _ K) in Hy.
    assert (St : StronglySorted (le_rel (farthest_le tie)) s).
    { apply sort_by_sorted; [apply farthest_le_total|apply farthest_le_trans]. }
    rewrite <- FS in St. apply strongly_sorted_app in St as (_ & _ & St).
    eapply farthest_le_short. apply St; eassumption.
  - unfold d. rewrite firstn_length. unfold s, by_distance_desc. rewrite sort_by_length. reflexivity.
  - intros r Hr. apply filter_In in Hr. apply Hr.
Qed.

Lemma farthest_spec tie l r : sql_farthest tie l = Some r -> In r l /\ forall x, In x l -> r_short x <= r_short r.
Proof.
  unfold sql_farthest, by_distance_desc. intros H.
  pose proof (sort_by_perm (farthest_le tie) l) as P.
  pose proof (sort_by_sorted (farthest_le tie) (farthest_le_total tie) (farthest_le_trans tie) l) as St.
  destruct (sort_by _ l) as [|a s] eqn:E; [discriminate|]. injection H as ->.
  split; [eapply Permutation_in; [symmetry; exact P|left; reflexivity]|].
  intros x Hx. apply (Permutation_in _ P) in Hx. destruct Hx as [->|Hx]; [lia|].
  inversion St as [|? ? _ Hf]; subst. rewrite Forall_forall in Hf. apply (farthest_le_short tie). apply Hf, Hx.
Qed.
Lemma farthest_none tie l : sql_farthest tie l = None <-> l = [].
Proof.
  unfold sql_farthest, by_distance_desc. pose proof (sort_by_length (farthest_le tie) l) as L.
  destruct (sort_by _ l) as [|a s]; cbn; split; try discriminate; intros; subst; try reflexivity; try discriminate.
  destruct l; [reflexivity|discriminate].
Qed.

(** * The pruning loop *)
(** The counters exceed what is stored only by what repeated inserts added. *)
Definition stats_ok (us : usage) (l : list row) (exact : Prop) : Prop :=
  exists k t, entry_count us = blen l + k /\ total_size us = sum_sizes l + t /\ (k = 0 -> t = 0) /\ (exact -> k = 0).

Lemma stats_exact us l : stats_ok us l True <-> us = sql_usage l.
Proof.
  split.
  - intros (k & t & E1 & E2 & E3 & E4). destruct us as [a b]. cbn in *. unfold sql_usage. specialize (E4 I). specialize (E3 E4).
    f_equal; lia.
  - intros ->. exists 0, 0. cbn. repeat split; lia.
Qed.

Lemma observe_pos mpc d : 1 <= mpc -> 1 <= observe_duration mpc d.
Proof. intros H. destruct d; cbn [observe_duration]; try assumption; apply N.le_max_r. Qed.

Lemma pruning_count_pos c mpc us l ex : 1 <= mpc -> stats_ok us l ex -> should_prune c us = true ->
  1 <= pruning_count c mpc us /\ pruning_count c mpc us <= entry_count us.
Proof.
  intros Hm (k & t & E1 & E2 & E3 & _) Hp. unfold pruning_count. rewrite Hp. cbn [negb].
  assert (Hc : 0 < entry_count us).
  { destruct (N.eq_dec (entry_count us) 0) as [Z|Z]; [|lia]. exfalso.
    unfold should_prune, disk_usage in Hp. apply N.ltb_lt in Hp.
    assert (k = 0) by lia. assert (length l = 0)%nat by (unfold blen in *; lia).
    destruct l; [|discriminate]. cbn in E2. rewrite Z in Hp. specialize (E3 H). lia. }
  destruct (N.eqb_spec (capacity c) 0); [lia|].
  pose proof (estimate_progress c us Hc Hp) as G. split; [lia|].
  assert (estimate_to_delete c us <= entry_count us).
  { unfold estimate_to_delete. destruct (entry_count us =? 0); [lia|]. destruct (_ <? _); lia. }
  lia.
Qed.


Definition kv (r : row) : bytes * bytes := (r_key r, r_value r).

(** What the loop does to the table: [rem1 ++ rem2] are the removed rows, [rem1] the reported
    ones. *)
Lemma prune_loop_spec c ties durs ex : forall fuel i s s' b,
  NoDup (ids (l_rows s)) -> stats_ok (l_stats s) (l_rows s) ex -> 1 <= l_mpc s ->
  prune_loop fuel c ties durs i s = (s', b) ->
  b = true /\ NoDup (ids (l_rows s')) /\ stats_ok (l_stats s') (l_rows s') ex /\ 1 <= l_mpc s' /\
  (exists rem1 rem2, Permutation (l_rows s) ((rem1 ++ rem2) ++ l_rows s') /\
     (forall d k, In d (rem1 ++ rem2) -> In k (l_rows s') -> r_short k <= r_short d) /\
     l_dropped s' = l_dropped s ++ map kv rem1 /\ (ex -> rem2 = [])) /\
  ((length (l_rows s) < fuel)%nat -> should_prune c (l_stats s') = false).
Proof.
  induction fuel as [|fuel IH]; intros i s s' b Nd St Hm H.
  - cbn in H. injection H as <- <-. repeat split; auto; [|lia]. exists [], []. cbn. rewrite app_nil_r.
    repeat split; auto. intros d k [].
  - cbn [prune_loop] in H. destruct (should_prune c (l_stats s)) eqn:SP.
    2:{ injection H as <- <-. repeat split; auto. exists [], []. cbn. rewrite app_nil_r. repeat split; auto. intros d k []. }
    destruct (pruning_count_pos c (l_mpc s) _ _ ex Hm St SP) as [C1 C2].
    set (td := pruning_count c (l_mpc s) (l_stats s)) in *.
    destruct (N.eqb_spec td 0) as [Z0|_]; [lia|].
    destruct (sql_delete_farthest (ties i) td (l_rows s)) as [del kept] eqn:D.
    destruct (delete_farthest_split _ _ _ _ _ Nd D) as (P & Far & Len & Sub).
    assert (Ndk : NoDup (ids kept)).
    { assert (X : NoDup (ids (del ++ kept))) by (eapply Permutation_NoDup; [apply Permutation_map; exact P|exact Nd]).
      unfold ids in X. rewrite map_app in X. clear - X. induction (map r_id del) as [|a m IH]; [exact X|].
      inversion X; subst. auto. }
    destruct (negb (blen del =? td)) eqn:M.
    + (* fewer rows than asked for: everything is gone *)
      apply Bool.negb_true_iff, N.eqb_neq in M. injection H as <- <-. cbn [l_rows l_mpc l_stats l_dropped].
      assert (L : (length (l_rows s) < N.to_nat td)%nat) by (unfold blen in M; clear - M Len; lia).
      assert (Kn : kept = []).
      { apply Permutation_length in P. rewrite app_length in P. destruct kept; [reflexivity|]. cbn [length] in P. clear - P Len L. lia. }
      subst kept. split; [reflexivity|]. split; [constructor|]. split.
      { exists 0, 0. cbn. repeat split; lia. }
      split; [apply observe_pos, Hm|]. split.
      * exists [], del. cbn [app]. split; [exact P|]. split; [intros d k _ []|]. split; [cbn; rewrite app_nil_r; reflexivity|].
        intros Hex. destruct St as (k & t & E1 & E2 & E3 & E4). specialize (E4 Hex). unfold blen in E1. lia.
      * intros _. unfold should_prune. apply N.ltb_ge. change (disk_usage c (sql_usage [])) with (0 + 0 * extra c).
        rewrite N.mul_0_l. apply N.le_0_l.
    + apply Bool.negb_false_iff, N.eqb_eq in M.
      destruct St as (k & t & E1 & E2 & E3 & E4).
      pose proof (sum_sizes_perm _ _ P) as PS. rewrite sum_sizes_app in PS.
      pose proof (blen_perm _ _ P) as PL. rewrite blen_app in PL.
      unfold on_multi_delete in H.
      destruct (td <=? entry_count (l_stats s)) eqn:A1; [|apply N.leb_gt in A1; lia].
      destruct (sum_sizes del <=? total_size (l_stats s)) eqn:A2; [|apply N.leb_gt in A2; lia]. cbn [andb] in H.
      apply IH in H; cbn [l_rows l_mpc l_stats l_dropped] in *; [|exact Ndk| |apply observe_pos, Hm].
      2:{ exists k, t. cbn. repeat split; auto; lia. }
      destruct H as (-> & H2 & H3 & H4 & (r1 & r2 & H5 & H6 & H7 & H8) & H9).
      repeat split; auto.
      * exists (del ++ r1), r2. split; [|split; [|split]].
        -- rewrite P, H5. rewrite <- !app_assoc. reflexivity.
        -- intros d k0 Hd Hk. rewrite <- app_assoc in Hd. apply in_app_or in Hd as [Hd|Hd]; [|apply H6; assumption].
           apply Far; [exact Hd|]. eapply Permutation_in; [symmetry; exact H5|]. apply in_or_app. right. exact Hk.
        -- rewrite H7, map_app, app_assoc. reflexivity.
        -- exact H8.
      * intros L. apply H9. apply Permutation_length in P. rewrite app_length in P. unfold blen in M. clear - L P M C1. lia.
Qed.

(** * The store *)
Lemma sub_perm_in (l rem kept : list row) : Permutation l (rem ++ kept) -> forall r, In r kept -> In r l.
Proof. intros P r H. eapply Permutation_in; [symmetry; exact P|]. apply in_or_app. right. exact H. Qed.

Lemma prune_spec ties durs ex s s' dropped :
  NoDup (ids (rows s)) -> stats_ok (stats s) (rows s) ex -> 1 <= max_pruning_count s ->
  should_prune (cfg s) (stats s) = true -> prune ties durs s = (s', dropped) ->
  cfg s' = cfg s /\ NoDup (ids (rows s')) /\ stats_ok (stats s') (rows s') ex /\ 1 <= max_pruning_count s' /\
  (exists rem1 rem2, Permutation (rows s) ((rem1 ++ rem2) ++ rows s') /\
     (forall d k, In d (rem1 ++ rem2) -> In k (rows s') -> r_short k <= r_short d) /\
     dropped = map kv rem1 /\ (ex -> rem2 = [])) /\
  should_prune (cfg s) (stats s') = false /\
  radius s' = radius_to_farthest (cfg s) (ties O) (rows s').
Proof.
  intros Nd St Hm SP H. unfold prune in H. rewrite SP in H. cbn [negb] in H.
  destruct (prune_loop _ _ _ _ _ _) as [l b] eqn:L.
  apply (prune_loop_spec (cfg s) ties durs ex) in L; cbn [l_rows l_mpc l_stats l_dropped] in *; auto.
  destruct L as (-> & L2 & L3 & L4 & (r1 & r2 & L5 & L6 & L7 & L8) & L9).
  injection H as <- <-. cbn. repeat split; auto.
  - exists r1, r2. repeat split; auto.
  - apply L9. lia.
Qed.

Section I.
Context (content_id : bytes -> bytes) (Hcid : forall k, id32 (content_id k)).

(** Rows as an insert writes them, for a given configuration. *)
Definition row_ok (c : config) (r : row) : Prop :=
  r_id r = content_id (r_key r) /\ r_short r = big_endian_u32 (dist c (r_id r)) /\
  r_size r = content_size (r_id r) (r_key r) (r_value r).

Record inv (ex : Prop) (s : store) : Prop := {
  i_cfg : config_ok (cfg s);
  i_nd : NoDup (ids (rows s));
  i_rows : Forall (row_ok (cfg s)) (rows s);
  i_stats : stats_ok (stats s) (rows s) ex;
  i_mpc : 1 <= max_pruning_count s;
  i_cap : should_prune (cfg s) (stats s) = false;
  i_radius : radius s <= max_radius (cfg s);
  i_zero : capacity (cfg s) = 0 -> radius s = 0
}.

Lemma radius_farthest_le c tie l : radius_to_farthest c tie l <= max_radius c.
Proof. unfold radius_to_farthest. destruct (sql_farthest tie l); [lia|]. destruct (_ =? 0); lia. Qed.

Lemma real_sum c l : Forall (row_ok c) l -> entries_size l = sum_sizes l.
Proof.
  induction 1 as [|r l (A & B & C) F IH]; [reflexivity|]. cbn [entries_size sum_sizes fold_right].
  fold (entries_size l). fold (sum_sizes l). rewrite IH, C. reflexivity.
Qed.

Lemma zero_rows ex s : inv ex s -> capacity (cfg s) = 0 -> rows s = [].
Proof.
  intros [_ _ R (k & t & E1 & E2 & _) _ C _ _] Z. unfold should_prune, disk_usage in C. rewrite Z in C.
  destruct (rows s) as [|r l]; [reflexivity|]. exfalso. apply N.ltb_ge in C. inversion R as [|? ? (A & B & D) F]; subst.
  rewrite sum_sizes_cons in E2. pose proof (Hcid (r_key r)) as [L _]. rewrite <- A in L. unfold content_size, blen in D.
  rewrite L in D. lia.
Qed.
Lemma zero_rows' c us l ex : Forall (row_ok c) l -> stats_ok us l ex -> should_prune c us = false -> capacity c = 0 -> l = [].
Proof.
  intros R (k & t & E1 & E2 & _) C Z. unfold should_prune, disk_usage in C. rewrite Z in C.
  destruct l as [|r l]; [reflexivity|]. exfalso. apply N.ltb_ge in C. inversion R as [|? ? (A & B & D) F]; subst.
  rewrite sum_sizes_cons in E2. pose proof (Hcid (r_key r)) as [L _]. rewrite <- A in L. unfold content_size, blen in D.
  rewrite L in D. lia.
Qed.

Lemma forall_perm_sub (P : row -> Prop) l rem kept : Forall P l -> Permutation l (rem ++ kept) -> Forall P kept.
Proof. intros F Pm. rewrite Forall_forall in *. intros r Hr. apply F. eapply sub_perm_in; eassumption. Qed.

Lemma prune_inv ex ties durs s s' dropped :
  config_ok (cfg s) -> NoDup (ids (rows s)) -> Forall (row_ok (cfg s)) (rows s) -> stats_ok (stats s) (rows s) ex ->
  1 <= max_pruning_count s -> should_prune (cfg s) (stats s) = true -> prune ties durs s = (s', dropped) -> inv ex s'.
Proof.
  intros Hc Nd Ro St Hm SP H.
  destruct (prune_spec ties durs ex s s' dropped Nd St Hm SP H) as (E1 & E2 & E3 & E4 & (r1 & r2 & E5 & _) & E6 & E7).
  pose proof (forall_perm_sub _ _ _ _ Ro E5) as Ro'.
  constructor; rewrite ?E1; auto.
  - rewrite E7. apply radius_farthest_le.
  - intros Z. rewrite E7. unfold radius_to_farthest.
    rewrite (zero_rows' (cfg s) _ _ ex Ro' E3 E6 Z). cbn. rewrite Z. reflexivity.
Qed.

Lemma sql_insert_ids r l : NoDup (ids l) -> NoDup (ids (sql_insert r l)).
Proof.
  intros Nd. unfold sql_insert. destruct (find_row (r_id r) l) eqn:E; [exact Nd|]. apply find_row_none in E.
  unfold ids. rewrite map_app. cbn. apply (Permutation_NoDup (l := r_id r :: ids l)).
  - rewrite Permutation_app_comm. reflexivity.
  - constructor; assumption.
Qed.
Lemma new_row_ok c k v : row_ok c (new_row content_id c k v).
Proof. repeat split. Qed.
Lemma sql_insert_ok c r l : row_ok c r -> Forall (row_ok c) l -> Forall (row_ok c) (sql_insert r l).
Proof. intros Hr Hl. unfold sql_insert. destruct (find_row _ _); [exact Hl|]. apply Forall_app. split; [exact Hl|repeat constructor; apply Hr]. Qed.

Definition fresh_or (ex : Prop) (s : store) (k : bytes) : Prop := ex -> lookup (content_id k) s = None.

Lemma insert_stats ex s r : stats_ok (stats s) (rows s) ex -> (ex -> find_row (r_id r) (rows s) = None) ->
  stats_ok (on_store (stats s) (r_size r)) (sql_insert r (rows s)) ex.
Proof.
  intros (k & t & E1 & E2 & E3 & E4) Fr. unfold sql_insert. destruct (find_row (r_id r) (rows s)) eqn:F.
  - exists (k + 1), (t + r_size r). cbn. repeat split; try lia. intros Hex. specialize (Fr Hex). discriminate.
  - exists k, t. cbn [on_store entry_count total_size]. rewrite sum_sizes_app, blen_app, sum_sizes_cons.
    change (blen [r]) with 1. change (sum_sizes []) with 0. clear F. repeat split; auto; lia.
Qed.

Lemma lookup_none_find id s : lookup id s = None <-> find_row id (rows s) = None.
Proof. unfold lookup. destruct (find_row id (rows s)); cbn; split; congruence. Qed.

Lemma insert_inv ex ties durs k v s : inv ex s -> fresh_or ex s k -> inv ex (fst (insert content_id ties durs k v s)).
Proof.
  intros I Fr. unfold insert. set (r := new_row content_id (cfg s) k v). destruct (radius s <? dist (cfg s) (r_id r)); [exact I|].
  set (s1 := mk_store _ _ _ _ _). destruct I as [I1 I2 I3 I4 I5 I6 I7 I8].
  assert (Nd1 : NoDup (ids (rows s1))) by (apply sql_insert_ids; exact I2).
  assert (Ro1 : Forall (row_ok (cfg s1)) (rows s1)) by (apply sql_insert_ok; [apply new_row_ok|exact I3]).
  assert (St1 : stats_ok (stats s1) (rows s1) ex).
  { apply insert_stats; [exact I4|]. intros Hex. apply lookup_none_find. exact (Fr Hex). }
  destruct (should_prune (cfg s1) (stats s1)) eqn:SP.
  - destruct (prune ties durs s1) as [s2 dropped] eqn:P. cbn [fst].
    exact (prune_inv ex ties durs s1 s2 dropped I1 Nd1 Ro1 St1 I5 SP P).
  - cbn [fst]. constructor; auto.
Qed.

Lemma delete_spec ex id s : inv ex s -> exists s', delete id s = Some s' /\ inv ex s' /\
  cfg s' = cfg s /\ radius s' = radius s /\ rows s' = sql_delete id (rows s).
Proof.
  intros I. pose proof I as [I1 I2 I3 I4 I5 I6 I7 I8]. unfold delete. destruct (find_row id (rows s)) as [r|] eqn:F.
  - apply find_row_some in F as [F1 <-].
    assert (P : Permutation (rows s) (r :: sql_delete (r_id r) (rows s))).
    { clear - F1 I2. unfold sql_delete. induction (rows s) as [|x l IH]; [destruct F1|]. cbn in I2. inversion I2; subst.
      cbn [filter]. destruct F1 as [->|F1].
      - rewrite beqb_refl. cbn [negb]. constructor. rewrite filter_all; [reflexivity|]. intros y Hy.
        rewrite Bool.negb_true_iff. apply beqb_false. intros E. apply H1. rewrite <- E. apply in_map. exact Hy.
      - assert (E : beqb (r_id x) (r_id r) = false).
        { apply beqb_false. intros E. apply H1. rewrite E. apply in_map. exact F1. }
        rewrite E. cbn [negb]. rewrite perm_swap. constructor. apply IH; assumption. }
    destruct I4 as (k & t & E1 & E2 & E3 & E4). pose proof (sum_sizes_perm _ _ P) as PS. pose proof (blen_perm _ _ P) as PL.
    rewrite sum_sizes_cons in PS. rewrite blen_cons in PL.
    unfold on_multi_delete.
    destruct (1 <=? entry_count (stats s)) eqn:A1; [|apply N.leb_gt in A1; lia].
    destruct (r_size r <=? total_size (stats s)) eqn:A2; [|apply N.leb_gt in A2; lia]. cbn [andb].
    eexists. split; [reflexivity|]. cbn. split; [|auto]. constructor; cbn; auto.
    + unfold ids in *. eapply Permutation_NoDup in I2; [|apply Permutation_map; exact P]. cbn in I2. inversion I2; assumption.
    + apply (forall_perm_sub _ _ [r] _ I3). exact P.
    + exists k, t. cbn. repeat split; auto; lia.
    + unfold should_prune, disk_usage in *. cbn. apply N.ltb_ge. apply N.ltb_ge in I6.
      assert ((entry_count (stats s) - 1) * extra (cfg s) <= entry_count (stats s) * extra (cfg s)) by (apply N.mul_le_mono_r; lia). lia.
  - exists s. repeat split; auto; try apply I. unfold sql_delete. rewrite filter_all; [reflexivity|].
    intros y Hy. rewrite Bool.negb_true_iff. apply beqb_false. intros E. apply find_row_none in F. apply F.
    rewrite <- E. apply in_map. exact Hy.
Qed.

(** Rows of a database with some node id. *)
Lemma short_xor n id : id32 n -> id32 id ->
  big_endian_u32 (distance n id) = N.lxor (be_num n / 2 ^ 224) (be_num id / 2 ^ 224).
Proof.
  intros Hn Hi. rewrite big_endian_u32_div by (apply distance_bound; assumption). rewrite distance_lxor by assumption.
  rewrite <- !N.shiftr_div_pow2. apply N.shiftr_lxor.
Qed.

(** One matching row is enough: the distances of all others match as well. *)
Lemma rows_ok_transfer c c' l r : config_ok c -> config_ok c' -> Forall (row_ok c) l -> In r l ->
  r_short r = big_endian_u32 (dist c' (r_id r)) -> Forall (row_ok c') l.
Proof.
  intros [Hc _] [Hc' _] F Hr E. rewrite Forall_forall in *. pose proof (F r Hr) as (A & B & _).
  unfold dist in *. rewrite A in *. rewrite short_xor in E, B by auto. rewrite B in E.
  assert (T : be_num (node_id c) / 2 ^ 224 = be_num (node_id c') / 2 ^ 224).
  { assert (X : forall a b x, N.lxor a x = N.lxor b x -> a = b).
    { intros a b x Hx. apply (f_equal (fun z => N.lxor z x)) in Hx. rewrite !N.lxor_assoc, N.lxor_nilpotent, !N.lxor_0_r in Hx. exact Hx. }
    eapply X. exact E. }
  intros y Hy. destruct (F y Hy) as (A' & B' & C'). repeat split; auto. unfold dist in *. rewrite B', A'.
  rewrite !short_xor by auto. rewrite T. reflexivity.
Qed.

(** Rows on disk, written under some configuration. *)
Definition db_ok (db : list row) : Prop := NoDup (ids db) /\ exists c, config_ok c /\ Forall (row_ok c) db.

Lemma create_spec c ties durs db res db' :
  config_ok c -> db_ok db -> create c ties durs db = (res, db') ->
  (exists rem, Permutation db (rem ++ db') /\ (forall d k, In d rem -> In k db' -> r_short k <= r_short d)) /\
  (sum_sizes db + blen db * extra c <= capacity c -> db' = db) /\
  match res with
  | Ok s => inv True s /\ rows s = db' /\ cfg s = c
  | Err => exists r, sql_farthest (ties O) db' = Some r /\ r_short r <> big_endian_u32 (dist c (r_id r))
  | Panic => False
  end.
Proof.
  intros Hc [Nd (c0 & Hc0 & Ro)] H. unfold create in H. set (s0 := mk_store c db (max_radius c) 100 (sql_usage db)) in *.
  set (s1 := if should_prune c (stats s0) then _ else _) in *.
  assert (St0 : stats_ok (stats s0) (rows s0) True) by (apply stats_exact; reflexivity).
  assert (G : cfg s1 = c /\ NoDup (ids (rows s1)) /\ stats_ok (stats s1) (rows s1) True /\ 1 <= max_pruning_count s1 /\
     (exists rem, Permutation db (rem ++ rows s1) /\ (forall d k, In d rem -> In k (rows s1) -> r_short k <= r_short d)) /\
     should_prune c (stats s1) = false /\ radius s1 <= max_radius c /\
     (sum_sizes db + blen db * extra c <= capacity c -> rows s1 = db) /\
     (capacity c = 0 -> rows s1 = [] -> radius s1 = 0)).
  { unfold s1. destruct (should_prune c (stats s0)) eqn:SP.
    - destruct (prune ties durs s0) as [s' dr] eqn:P. cbn [fst].
      destruct (prune_spec ties durs True s0 s' dr Nd St0 ltac:(cbn; lia) SP P) as (E1 & E2 & E3 & E4 & (r1 & r2 & E5 & E5b & _) & E6 & E7).
      repeat split; auto.
      + exists (r1 ++ r2). split; assumption.
      + rewrite E7. apply radius_farthest_le.
      + intros L. exfalso. unfold should_prune, disk_usage in SP. apply N.ltb_lt in SP. cbn in SP. lia.
      + intros Z En. rewrite E7. unfold radius_to_farthest. rewrite En. cbn. rewrite Z. reflexivity.
    - assert (X : exists rem, Permutation db (rem ++ db) /\ (forall d k, In d rem -> In k db -> r_short k <= r_short d)).
      { exists []. split; [reflexivity|]. intros d k []. }
      destruct (above_target c (stats s0)); [|destruct (N.eqb_spec (capacity c) 0)]; cbn; repeat split; auto; try lia.
      + apply radius_farthest_le.
      + intros Z ->. unfold radius_to_farthest. cbn. rewrite Z. reflexivity. }
  destruct G as (G1 & G2 & G3 & G4 & (rem & G5 & G5b) & G6 & G7 & G8 & G9).
  assert (Fin : Forall (row_ok c) (rows s1) -> inv True s1).
  { intros Ro1. constructor; rewrite ?G1; auto. intros Z. apply G9; [exact Z|].
    eapply zero_rows'; eauto. }
  destruct (sql_farthest (ties O) (rows s1)) as [r|] eqn:F.
  - destruct (N.eqb_spec (r_short r) (big_endian_u32 (dist c (r_id r)))) as [E|E]; injection H as <- <-.
    + split; [exists rem; split; assumption|]. split; [exact G8|]. split; [|split; [reflexivity|exact G1]].
      apply Fin. apply farthest_spec in F as [F1 _].
      apply (rows_ok_transfer c0 c _ r); auto. eapply forall_perm_sub; eassumption.
    + split; [exists rem; split; assumption|]. split; [exact G8|]. exists r. split; assumption.
  - injection H as <- <-. split; [exists rem; split; assumption|]. split; [exact G8|]. split; [|split; [reflexivity|exact G1]].
    apply Fin. apply farthest_none in F. rewrite F. constructor.
Qed.

Lemma inv_db ex s : inv ex s -> db_ok (rows s).
Proof. intros I. split; [apply I|]. exists (cfg s). split; apply I. Qed.

Lemma crashed_db ex ties durs k v n s : inv ex s -> db_ok (crashed_rows content_id ties durs k v n s).
Proof.
  intros I. unfold crashed_rows. set (r := new_row content_id (cfg s) k v).
  destruct (radius s <? dist (cfg s) (r_id r)); [eapply inv_db; exact I|].
  destruct I as [I1 I2 I3 I4 I5 I6 I7 I8].
  destruct (prune_loop n _ _ _ _ _) as [l b] eqn:L. cbn [fst].
  apply (prune_loop_spec (cfg s) ties durs False) in L; cbn [l_rows l_mpc l_stats l_dropped] in *; auto.
  - destruct L as (_ & L2 & _ & _ & (r1 & r2 & L5 & _) & _). split; [exact L2|]. exists (cfg s). split; [exact I1|].
    eapply forall_perm_sub; [|exact L5]. apply sql_insert_ok; [apply new_row_ok|exact I3].
  - apply sql_insert_ids, I2.
  - apply insert_stats; [|intros []]. destruct I4 as (k' & t & X). exists k', t. intuition.
Qed.

Lemma inv_weaken ex s : inv ex s -> inv False s.
Proof. intros [I1 I2 I3 (k & t & X) I5 I6 I7 I8]. constructor; auto. exists k, t. intuition. Qed.
Lemma inv_true_any (ex : Prop) s : inv True s -> inv ex s.
Proof. intros [I1 I2 I3 (k & t & X) I5 I6 I7 I8]. constructor; auto. exists k, t. intuition. Qed.

Lemma create_inv (ex : Prop) c ties durs db s : config_ok c -> db_ok db -> fst (create c ties durs db) = Ok s -> inv ex s.
Proof.
  intros Hc Hd H. destruct (create c ties durs db) as [res db'] eqn:E. cbn in H. subst res.
  apply create_spec in E; auto. apply inv_true_any. apply E.
Qed.

Lemma step_inv (ex : Prop) s o s' : inv ex s -> op_ok o ->
  (ex -> match o with OInsert _ _ k _ => lookup (content_id k) s = None | _ => True end) ->
  step content_id s o = Some s' -> inv ex s'.
Proof.
  intros I Ho Fr H. destruct o as [ties durs k v|id|c ties durs|ties durs k v n c ties' durs']; cbn [step] in H.
  - injection H as <-. apply insert_inv; [exact I|exact Fr].
  - destruct (delete_spec ex id s I) as (s2 & E & I2 & _). congruence.
  - destruct (fst (create c ties durs (rows s))) as [s2| |] eqn:E; try discriminate. injection H as <-.
    eapply create_inv; [exact Ho| |exact E]. eapply inv_db; exact I.
  - destruct (fst (create c ties' durs' _)) as [s2| |] eqn:E; try discriminate. injection H as <-.
    eapply create_inv; [exact Ho| |exact E]. eapply crashed_db; exact I.
Qed.

Lemma run_inv ops : forall s s', inv False s -> Forall op_ok ops -> run content_id s ops = Some s' -> inv False s'.
Proof.
  induction ops as [|o ops IH]; intros s s' I F H; cbn [run] in H; [congruence|].
  inversion F as [|? ? Fo Fs]; subst. destruct (step content_id s o) as [s1|] eqn:E; [|discriminate].
  apply (IH s1); auto. eapply step_inv; [exact I|exact Fo| |exact E]. intros [].
Qed.
Lemma db_ok_nil : forall c : config, config_ok c -> db_ok [].
Proof. intros c Hc. split; [constructor|]. exists c. split; [exact Hc|constructor]. Qed.

Theorem reachable_inv s : reachable content_id s -> inv False s.
Proof.
  intros (c & ties & durs & s0 & ops & Hc & E & F & R). eapply run_inv; [|exact F|exact R].
  eapply create_inv; [exact Hc|apply (db_ok_nil c Hc)|exact E].
Qed.

Lemma run_inv_once ops : forall s s', inv True s -> Forall op_ok ops -> no_repeats content_id s ops ->
  run content_id s ops = Some s' -> inv True s'.
Proof.
  induction ops as [|o ops IH]; intros s s' I F Nr H; cbn [run] in H; [congruence|].
  inversion F as [|? ? Fo Fs]; subst. cbn [no_repeats] in Nr. destruct Nr as [N1 N2].
  destruct (step content_id s o) as [s1|] eqn:E; [|discriminate].
  apply (IH s1); auto. eapply step_inv; [exact I|exact Fo| |exact E]. intros _. exact N1.
Qed.
Theorem reachable_once_inv s : reachable_once content_id s -> inv True s.
Proof.
  intros (c & ties & durs & db & s0 & ops & Hc & E & F & (c0 & t0 & d0 & s1 & ops1 & H0 & E1 & F1 & s2 & R1 & <-) & Nr & R).
  eapply run_inv_once; [|exact F|exact Nr|exact R].
  eapply create_inv; [exact Hc| |exact E]. eapply inv_db. apply reachable_inv. exists c0, t0, d0, s1, ops1. auto.
Qed.


(** * Lookups *)
Lemma lookup_sub s s' rem : NoDup (ids (rows s)) -> Permutation (rows s) (rem ++ rows s') ->
  forall id, lookup id s' = None \/ lookup id s' = lookup id s.
Proof.
  intros Nd P id. unfold lookup. destruct (find_row id (rows s')) as [r|] eqn:F; [right|left; reflexivity].
  apply find_row_some in F as [F1 <-]. rewrite (find_row_in r (rows s) Nd); [reflexivity|]. eapply sub_perm_in; eassumption.
Qed.
Lemma lookup_insert k v c r l id : r = new_row content_id c k v ->
  option_map r_value (find_row id (sql_insert r l)) =
  if beqb id (content_id k) then Some (match option_map r_value (find_row id l) with Some o => o | None => v end)
  else option_map r_value (find_row id l).
Proof.
  intros ->. unfold sql_insert. cbn [r_id new_row]. destruct (find_row (content_id k) l) as [r|] eqn:F.
  - destruct (beqb id (content_id k)) eqn:B; [|reflexivity]. apply beqb_spec in B. subst id. rewrite F. reflexivity.
  - unfold find_row. destruct (beqb id (content_id k)) eqn:B.
    + apply beqb_spec in B. subst id. unfold find_row in F. rewrite F.
      assert (X : forall l', find (fun r => beqb (r_id r) (content_id k)) l' = None ->
         find (fun r => beqb (r_id r) (content_id k)) (l' ++ [new_row content_id c k v]) = Some (new_row content_id c k v)).
      { clear. induction l' as [|x l' IH]; cbn [app find].
        - intros _. cbn [new_row r_id]. rewrite beqb_refl. reflexivity.
        - destruct (beqb (r_id x) (content_id k)); [discriminate|exact IH]. }
      fold (new_row content_id c k v). rewrite X by exact F. reflexivity.
    + assert (X : forall l', find (fun r => beqb (r_id r) id) (l' ++ [new_row content_id c k v]) = find (fun r => beqb (r_id r) id) l').
      { clear - B. induction l' as [|x l' IH]; cbn [app find].
        - cbn [new_row r_id]. assert (E : beqb (content_id k) id = false) by (apply beqb_false; apply beqb_false in B; congruence).
          rewrite E. reflexivity.
        - destruct (beqb (r_id x) id); [reflexivity|exact IH]. }
      fold (new_row content_id c k v). rewrite X. reflexivity.
Qed.

Lemma insert_full ex ties durs k v s s' res : inv ex s -> fresh_or ex s k -> insert content_id ties durs k v s = (s', res) ->
  match res with
  | None => radius s < dist (cfg s) (content_id k) /\ s' = s
  | Some dropped =>
      dist (cfg s) (content_id k) <= radius s /\ cfg s' = cfg s /\ NoDup (ids (sql_insert (new_row content_id (cfg s) k v) (rows s))) /\
      (exists rem1 rem2,
         Permutation (sql_insert (new_row content_id (cfg s) k v) (rows s)) ((rem1 ++ rem2) ++ rows s') /\
         (forall d k, In d (rem1 ++ rem2) -> In k (rows s') -> r_short k <= r_short d) /\
         dropped = map kv rem1 /\ (ex -> rem2 = [])) /\
      ((usage_with content_id k v s <= capacity (cfg s) -> dropped = [] /\ rows s' = sql_insert (new_row content_id (cfg s) k v) (rows s) /\ radius s' = radius s) /\
       (capacity (cfg s) < usage_with content_id k v s -> radius s' = radius_to_farthest (cfg s) (ties O) (rows s')))
  end.
Proof.
  intros I Fr H. unfold insert in H. set (r := new_row content_id (cfg s) k v) in *.
  change (content_id k) with (r_id r). destruct (N.ltb_spec (radius s) (dist (cfg s) (r_id r))) as [L|L].
  - injection H as <- <-. split; [exact L|reflexivity].
  - set (s1 := mk_store _ _ _ _ _) in H. pose proof I as [I1 I2 I3 I4 I5 I6 I7 I8].
    assert (Nd1 : NoDup (ids (rows s1))) by (apply sql_insert_ids; exact I2).
    assert (St1 : stats_ok (stats s1) (rows s1) ex).
    { apply insert_stats; [exact I4|]. intros Hex. apply lookup_none_find. exact (Fr Hex). }
    assert (U : disk_usage (cfg s1) (stats s1) = usage_with content_id k v s).
    { unfold disk_usage, usage_with. cbn. unfold content_size. lia. }
    destruct (should_prune (cfg s1) (stats s1)) eqn:SP.
    + destruct (prune ties durs s1) as [s2 dropped] eqn:P. injection H as <- <-.
      destruct (prune_spec ties durs ex s1 s2 dropped Nd1 St1 I5 SP P) as (E1 & E2 & E3 & E4 & E5 & E6 & E7).
      split; [exact L|]. split; [exact E1|]. split; [exact Nd1|]. split; [exact E5|]. split; [|intros _; exact E7].
      intros LU. exfalso. unfold should_prune in SP. apply N.ltb_lt in SP. rewrite U in SP. cbn [cfg s1] in SP. lia.
    + injection H as <- <-. split; [exact L|]. split; [reflexivity|]. split; [exact Nd1|]. split.
      * exists [], []. cbn. repeat split; auto. intros d k0 [].
      * split; [intros _; repeat split|]. intros LU. unfold should_prune in SP. apply N.ltb_ge in SP. rewrite U in SP. cbn [cfg s1] in SP. lia.
Qed.

Theorem insert_refines ties durs k v s : reachable content_id s ->
  let (s', res) := insert content_id ties durs k v s in
  match res with
  | None => radius s < distance (node_id (cfg s)) (content_id k) /\ s' = s
  | Some dropped =>
      distance (node_id (cfg s)) (content_id k) <= radius s /\
      (forall id, lookup id s' = None \/ lookup id s' = with_content content_id k v s id) /\
      (usage_with content_id k v s <= capacity (cfg s) ->
         dropped = [] /\ radius s' = radius s /\ forall id, lookup id s' = with_content content_id k v s id)
  end.
Proof.
  intros R. apply reachable_inv in R. destruct (insert content_id ties durs k v s) as [s' res] eqn:E.
  apply (insert_full False) in E; [|exact R|intros []]. destruct res as [dropped|]; [|exact E].
  destruct E as (E1 & E2 & E3 & (r1 & r2 & E4 & _) & E5 & _). split; [exact E1|].
  set (r := new_row content_id (cfg s) k v) in *.
  set (s1 := mk_store (cfg s) (sql_insert r (rows s)) 0 0 (stats s)).
  assert (W : forall id, lookup id s1 = with_content content_id k v s id).
  { intros id. unfold lookup, with_content. cbn [rows s1]. apply (lookup_insert k v (cfg s)). reflexivity. }
  split.
  - intros id. rewrite <- W. eapply (lookup_sub s1); [exact E3|exact E4].
  - intros LU. destruct (E5 LU) as (D & Rw & Rd). split; [exact D|]. split; [exact Rd|]. intros id. rewrite <- W.
    unfold lookup. rewrite Rw. reflexivity.
Qed.

Lemma lookup_delete id s id' : lookup id' (mk_store (cfg s) (sql_delete id (rows s)) 0 0 (stats s)) =
  if beqb id' id then None else lookup id' s.
Proof.
  unfold lookup. cbn [rows]. unfold sql_delete, find_row. destruct (beqb id' id) eqn:B.
  - apply beqb_spec in B. subst id'. destruct (find _ _) as [r|] eqn:F; [|reflexivity]. exfalso.
    apply find_some in F as [F1 F2]. apply filter_In in F1 as [_ F1]. rewrite F2 in F1. discriminate.
  - f_equal. apply beqb_false in B. induction (rows s) as [|x l IH]; [reflexivity|]. cbn [filter find].
    destruct (beqb (r_id x) id) eqn:B2; cbn [negb].
    + apply beqb_spec in B2. replace (beqb (r_id x) id') with false by (symmetry; apply beqb_false; congruence). exact IH.
    + cbn [find]. destruct (beqb (r_id x) id'); [reflexivity|exact IH].
Qed.

Theorem delete_refines id s : reachable content_id s ->
  exists s', delete id s = Some s' /\ radius s' = radius s /\
    forall id', lookup id' s' = if beqb id' id then None else lookup id' s.
Proof.
  intros R. apply reachable_inv in R. destruct (delete_spec False id s R) as (s' & E & _ & _ & Rd & Rw).
  exists s'. split; [exact E|]. split; [exact Rd|]. intros id'. rewrite <- lookup_delete. unfold lookup. rewrite Rw. reflexivity.
Qed.

(** * Where a stored value comes from *)
Lemma step_lookup s o s' id v : inv False s -> op_ok o -> step content_id s o = Some s' -> lookup id s' = Some v ->
  lookup id s = Some v /\ o <> ODelete id \/
  (lookup id s = None /\ exists k, content_id k = id /\
    ((exists t d, o = OInsert t d k v) \/ exists t d n c t' d', o = OCrash t d k v n c t' d')).
Proof.
  intros I Ho H Hl. destruct o as [ties durs k v0|id0|c ties durs|ties durs k v0 n c ties' durs']; cbn [step] in H.
  - injection H as <-. destruct (insert content_id ties durs k v0 s) as [s' res] eqn:E. cbn [fst] in Hl.
    apply (insert_full False) in E; [|exact I|intros []]. destruct res as [dropped|]; [|destruct E as [_ ->]; left; split; [exact Hl|discriminate]].
    destruct E as (E1 & E2 & E3 & (r1 & r2 & E4 & _) & _).
    set (s1 := mk_store (cfg s) (sql_insert (new_row content_id (cfg s) k v0) (rows s)) 0 0 (stats s)).
    destruct (lookup_sub s1 s' (r1 ++ r2) E3 E4 id) as [X|X]; [congruence|]. rewrite X in Hl.
    unfold lookup in Hl. cbn [rows s1] in Hl. rewrite (lookup_insert k v0 (cfg s)) in Hl by reflexivity.
    fold (lookup id s) in Hl. destruct (beqb id (content_id k)) eqn:B.
    + apply beqb_spec in B. destruct (lookup id s) as [o|] eqn:L.
      * left. split; [congruence|discriminate].
      * right. split; [reflexivity|]. exists k. split; [congruence|]. left. exists ties, durs. congruence.
    + left. split; [exact Hl|discriminate].
  - destruct (delete_spec False id0 s I) as (s2 & E & _ & _ & _ & Rw). rewrite E in H. injection H as <-.
    unfold lookup in Hl. rewrite Rw in Hl. pose proof (lookup_delete id0 s id) as X. unfold lookup at 1 in X. cbn [rows] in X.
    rewrite X in Hl. destruct (beqb id id0) eqn:B; [discriminate|]. left. split; [exact Hl|].
    intros [= ->]. rewrite beqb_refl in B. discriminate.
  - destruct (fst (create c ties durs (rows s))) as [s2| |] eqn:E; try discriminate. injection H as <-.
    destruct (create c ties durs (rows s)) as [res db'] eqn:C. cbn in E. subst res.
    apply create_spec in C; [|exact Ho|eapply inv_db; exact I]. destruct C as ((rem & P & _) & _ & (I2 & Rw & _)).
    subst db'. destruct (lookup_sub s s2 rem (i_nd _ _ I) P id) as [X|X]; [congruence|]. left. split; [congruence|discriminate].
  - destruct (fst (create c ties' durs' _)) as [s2| |] eqn:E; try discriminate. injection H as <-.
    set (db := crashed_rows content_id ties durs k v0 n s) in *.
    destruct (create c ties' durs' db) as [res db'] eqn:C. cbn in E. subst res.
    pose proof (crashed_db False ties durs k v0 n s I) as Hdb. fold db in Hdb.
    apply create_spec in C; [|exact Ho|exact Hdb]. destruct C as ((rem & P & _) & _ & (I2 & Rw & _)). subst db'.
    set (s3 := mk_store (cfg s) db 0 0 (stats s)).
    destruct (lookup_sub s3 s2 rem (proj1 Hdb) P id) as [X|X]; [congruence|]. rewrite X in Hl. unfold lookup in Hl. cbn [rows s3] in Hl.
    (* the crashed table *)
    unfold db, crashed_rows in Hl. set (r := new_row content_id (cfg s) k v0) in Hl.
    destruct (radius s <? dist (cfg s) (r_id r)); [left; split; [exact Hl|discriminate]|].
    destruct (prune_loop n _ _ _ _ _) as [l b] eqn:L. cbn [fst] in Hl.
    assert (Nd1 : NoDup (ids (sql_insert r (rows s)))) by (apply sql_insert_ids, I).
    apply (prune_loop_spec (cfg s) ties durs False) in L; cbn [l_rows l_mpc l_stats l_dropped] in *; [|exact Nd1| |apply I].
    2:{ apply insert_stats; [|intros []]. destruct (i_stats _ _ I) as (k' & t & Y). exists k', t. intuition. }
    destruct L as (_ & _ & _ & _ & (r1 & r2 & L5 & _) & _).
    set (s4 := mk_store (cfg s) (sql_insert r (rows s)) 0 0 (stats s)).
    set (s5 := mk_store (cfg s) (l_rows l) 0 0 (stats s)).
    destruct (lookup_sub s4 s5 (r1 ++ r2) Nd1 L5 id) as [Y|Y]; unfold lookup in Y; cbn [rows s4 s5] in Y; [congruence|].
    rewrite Y in Hl. rewrite (lookup_insert k v0 (cfg s)) in Hl by reflexivity. fold (lookup id s) in Hl.
    destruct (beqb id (content_id k)) eqn:B.
    + apply beqb_spec in B. destruct (lookup id s) as [o|] eqn:Lk.
      * left. split; [congruence|discriminate].
      * right. split; [reflexivity|]. exists k. split; [congruence|]. right.
        exists ties, durs, n, c, ties', durs'. congruence.
    + left. split; [exact Hl|discriminate].
Qed.

Theorem lookup_history ops : forall s0 s id v, inv False s0 -> Forall op_ok ops -> lookup id s0 = None ->
  run content_id s0 ops = Some s -> lookup id s = Some v ->
  exists pre o post k, ops = pre ++ o :: post /\ content_id k = id /\
    ((exists t d, o = OInsert t d k v) \/ exists t d n c t' d', o = OCrash t d k v n c t' d') /\
    ~ In (ODelete id) post.
Proof.
  assert (G : forall ops s0 s id v, inv False s0 -> Forall op_ok ops -> run content_id s0 ops = Some s -> lookup id s = Some v ->
    (lookup id s0 = Some v /\ ~ In (ODelete id) ops) \/
    exists pre o post k, ops = pre ++ o :: post /\ content_id k = id /\
    ((exists t d, o = OInsert t d k v) \/ exists t d n c t' d', o = OCrash t d k v n c t' d') /\
    ~ In (ODelete id) post).
  { induction ops0 as [|o ops0 IH]; intros s0 s id v I F R Hl; cbn [run] in R.
    - left. split; [congruence|]. intros [].
    - inversion F as [|? ? Fo Fs]; subst. destruct (step content_id s0 o) as [s1|] eqn:E; [|discriminate].
      assert (I1 : inv False s1) by (eapply step_inv; [exact I|exact Fo|intros []|exact E]).
      destruct (IH s1 s id v I1 Fs R Hl) as [[A B]|(pre & o' & post & k & A & B & C & D)].
      + destruct (step_lookup s0 o s1 id v I Fo E A) as [[A1 A2]|(A1 & k & A2 & A3)].
        * left. split; [exact A1|]. intros [X|X]; [congruence|contradiction].
        * right. exists [], o, ops0, k. repeat split; auto.
      + right. exists (o :: pre), o', post, k. subst ops0. repeat split; auto. }
  intros s0 s id v I F L0 R Hl. destruct (G ops s0 s id v I F R Hl) as [[A _]|X]; [congruence|exact X].
Qed.

(** * The radius covers what is stored *)
Definition covered (m : N) (s : store) : Prop :=
  max_radius (cfg s) = m /\ Forall (fun r => r_short r <= big_endian_u32 (radius s) /\ r_short r <= big_endian_u32 m) (rows s).
Definition db_covered (m : N) (db : list row) : Prop := Forall (fun r => r_short r <= big_endian_u32 m) db.

Lemma covered_farthest c tie l : config_ok c -> Forall (row_ok c) l -> db_covered (max_radius c) l ->
  Forall (fun r => r_short r <= big_endian_u32 (radius_to_farthest c tie l) /\ r_short r <= big_endian_u32 (max_radius c)) l.
Proof.
  intros Hc Ro Hm. unfold db_covered in Hm. rewrite Forall_forall in *. intros r Hr. split; [|apply Hm, Hr].
  unfold radius_to_farthest. destruct (sql_farthest tie l) as [f|] eqn:F.
  - apply farthest_spec in F as [F1 F2]. specialize (F2 r Hr). destruct (Ro f F1) as (_ & B & _). rewrite B in F2.
    destruct (N.min_spec (dist c (r_id f)) (max_radius c)) as [[_ ->]|[_ ->]]; [exact F2|apply Hm, Hr].
  - apply farthest_none in F. subst l. destruct Hr.
Qed.

Lemma insert_covered ex m ties durs k v s : inv ex s -> fresh_or ex s k -> covered m s -> covered m (fst (insert content_id ties durs k v s)).
Proof.
  intros I Fr [Cm Cv]. pose proof (insert_inv ex ties durs k v s I Fr) as I'.
  destruct (insert content_id ties durs k v s) as [s' res] eqn:E. cbn [fst] in *.
  apply (insert_full ex) in E; [|exact I|exact Fr]. destruct res as [dropped|].
  2:{ destruct E as [_ ->]. split; assumption. }
  destruct E as (E1 & E2 & _ & (r1 & r2 & E4 & _) & E5 & E6). split; [congruence|].
  assert (Br : radius s < 2 ^ 256) by (eapply N.le_lt_trans; [apply I|]; apply I).
  assert (Cn : Forall (fun r => r_short r <= big_endian_u32 (radius s) /\ r_short r <= big_endian_u32 m)
                 (sql_insert (new_row content_id (cfg s) k v) (rows s))).
  { unfold sql_insert. destruct (find_row _ _); [exact Cv|]. apply Forall_app. split; [exact Cv|]. constructor; [|constructor].
    cbn [r_short new_row]. split; apply big_endian_u32_mono; auto.
    - rewrite <- Cm. apply I.
    - eapply N.le_trans; [exact E1|]. rewrite <- Cm. apply I. }
  destruct (N.le_gt_cases (usage_with content_id k v s) (capacity (cfg s))) as [LU|LU].
  - destruct (E5 LU) as (_ & -> & ->). exact Cn.
  - rewrite (E6 LU). rewrite <- Cm, <- E2. apply covered_farthest; try apply I'.
    unfold db_covered. eapply forall_perm_sub; [|exact E4]. rewrite E2, Cm. eapply Forall_impl; [|exact Cn]. cbn. intros a [_ X]. exact X.
Qed.

Lemma create_covered m c ties durs db s : config_ok c -> db_ok db -> max_radius c = m -> db_covered m db ->
  fst (create c ties durs db) = Ok s -> covered m s.
Proof.
  intros Hc Hdb Hm Cv H. destruct (create c ties durs db) as [res db'] eqn:E. cbn in H. subst res.
  pose proof E as E'. apply create_spec in E'; auto. destruct E' as ((rem & P & _) & _ & (I & Rw & Cf)).
  assert (Cv' : db_covered m (rows s)) by (rewrite Rw; eapply forall_perm_sub; [exact Cv|exact P]).
  split; [congruence|].
  (* the radius is max_radius, the farthest distance, or zero with an empty table *)
  assert (Rr : radius s = max_radius c \/ radius s = radius_to_farthest c (ties O) (rows s) \/ rows s = []).
  { destruct (N.eq_dec (capacity c) 0) as [Z|Z]; [right; right; eapply zero_rows; [exact I|congruence]|].
    unfold create in E. set (s0 := mk_store c db (max_radius c) 100 (sql_usage db)) in E.
    set (s1 := if should_prune c (stats s0) then _ else _) in E.
    assert (Es : s1 = s) by (clearbody s1; destruct (sql_farthest (ties O) (rows s1)); [destruct (_ =? _)|]; congruence).
    rewrite <- Es. unfold s1. destruct (should_prune c (stats s0)) eqn:SP.
    - destruct (prune ties durs s0) as [s' dr] eqn:Pr. cbn [fst]. right. left.
      destruct Hdb as [Nd _]. assert (St0 : stats_ok (stats s0) (rows s0) True) by (apply stats_exact; reflexivity).
      destruct (prune_spec ties durs True s0 s' dr Nd St0 ltac:(cbn; lia) SP Pr) as (_ & _ & _ & _ & _ & _ & E7). exact E7.
    - destruct (above_target c (stats s0)); [right; left; reflexivity|].
      destruct (N.eqb_spec (capacity c) 0); [contradiction|]. left. reflexivity. }
  destruct Rr as [Rr|[Rr|Rr]].
  - rewrite Rr, Hm. unfold db_covered in Cv'. eapply Forall_impl; [|exact Cv']. cbn. auto.
  - rewrite Rr. rewrite <- Hm in Cv' |- *. rewrite <- Cf in *. apply covered_farthest; try apply I; auto.
  - rewrite Rr. constructor.
Qed.

Lemma crashed_sub ex ties durs k v n s m : inv ex s -> covered m s -> db_covered m (crashed_rows content_id ties durs k v n s).
Proof.
  intros I [Cm Cv]. unfold crashed_rows. set (r := new_row content_id (cfg s) k v).
  assert (C0 : db_covered m (rows s)) by (eapply Forall_impl; [|exact Cv]; cbn; tauto).
  destruct (N.ltb_spec (radius s) (dist (cfg s) (r_id r))) as [L|L]; [exact C0|].
  destruct (prune_loop n _ _ _ _ _) as [l b] eqn:Lp. cbn [fst].
  apply (prune_loop_spec (cfg s) ties durs False) in Lp; cbn [l_rows l_mpc l_stats l_dropped] in *; [| | |apply I].
  - destruct Lp as (_ & _ & _ & _ & (r1 & r2 & L5 & _) & _). eapply forall_perm_sub; [|exact L5].
    unfold sql_insert. destruct (find_row _ _); [exact C0|]. apply Forall_app. split; [exact C0|]. constructor; [|constructor].
    apply big_endian_u32_mono; [rewrite <- Cm; apply I|]. eapply N.le_trans; [exact L|]. rewrite <- Cm. apply I.
  - apply sql_insert_ids, I.
  - apply insert_stats; [|intros []]. destruct (i_stats _ _ I) as (k' & t & X). exists k', t. intuition.
Qed.

Theorem reachable_covered m s : reachable_radius content_id m s -> inv False s /\ covered m s.
Proof.
  intros (c & ties & durs & s0 & ops & Hc & Hm & E & F & Fm & R).
  assert (I0 : inv False s0) by (eapply create_inv; [exact Hc|apply (db_ok_nil c Hc)|exact E]).
  assert (C0 : covered m s0) by (eapply create_covered; [exact Hc|apply (db_ok_nil c Hc)|exact Hm|constructor|exact E]).
  clear E. revert s0 I0 C0 R. induction ops as [|o ops IH]; intros s0 I0 C0 R; cbn [run] in R.
  - injection R as <-. split; assumption.
  - inversion F as [|? ? Fo Fs]; inversion Fm as [|? ? Mo Ms]; subst.
    destruct (step content_id s0 o) as [s1|] eqn:E; [|discriminate].
    apply (IH Fs Ms s1); auto.
    + eapply step_inv; [exact I0|exact Fo|intros []|exact E].
    + destruct o as [t d k v|id|c' t d|t d k v n c' t' d']; cbn [step] in E.
      * injection E as <-. apply (insert_covered False); auto. intros [].
      * destruct (delete_spec False id s0 I0) as (s2 & E2 & _ & Ec & Er & Ew). rewrite E2 in E. injection E as <-.
        destruct C0 as [C1 C2]. split; [congruence|]. rewrite Er, Ew. rewrite Forall_forall in *. intros x Hx. apply filter_In in Hx. apply C2, Hx.
      * destruct (fst (create c' t d (rows s0))) as [s2| |] eqn:E2; try discriminate. injection E as <-.
        eapply create_covered; [exact Fo|eapply inv_db; exact I0|exact Mo| |exact E2].
        eapply Forall_impl; [|apply (proj2 C0)]. cbn. tauto.
      * destruct (fst (create c' t' d' _)) as [s2| |] eqn:E2; try discriminate. injection E as <-.
        eapply create_covered; [exact Fo|eapply crashed_db; exact I0|exact Mo| |exact E2].
        eapply crashed_sub; [exact I0|exact C0].
Qed.
End I.
