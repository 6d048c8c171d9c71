(** Fork rules and the balances after a block. *)
From Verif Require Import Base Rewards_Model Rewards_Spec.

(** ** The schedule *)
Lemma reached_ok l n : forall s, first_reached l n = s -> (exists b, In (s, b) l /\ b <= n) \/ (s = PRAGUE /\ forall x, In x l -> n < snd x).
Proof.
  induction l as [|[s0 b0] r IH]; cbn; intros s E; [right; split; [easy|tauto]|].
  destruct (N.leb_spec b0 n) as [L|L].
  - left. subst. eauto.
  - destruct (IH s E) as [(b & I & B)|[P Q]]; [left; eauto|].
    right. split; [easy|]. intros x [<-|I]; [easy|auto].
Qed.

Ltac by_cases n :=
  unfold get_spec_id; cbn [rev app spec_fork_block_number first_reached];
  repeat match goal with |- context [?b <=? n] => destruct (N.leb_spec b n) end.

Lemma spec_id_cases n :
  (19426587 <= n /\ get_spec_id n = CANCUN) \/
  (17034870 <= n < 19426587 /\ get_spec_id n = SHANGHAI) \/
  (15537394 <= n < 17034870 /\ get_spec_id n = MERGE) \/
  (15050000 <= n < 15537394 /\ get_spec_id n = GRAY_GLACIER) \/
  (13773000 <= n < 15050000 /\ get_spec_id n = ARROW_GLACIER) \/
  (12965000 <= n < 13773000 /\ get_spec_id n = LONDON) \/
  (12244000 <= n < 12965000 /\ get_spec_id n = BERLIN) \/
  (9200000 <= n < 12244000 /\ get_spec_id n = MUIR_GLACIER) \/
  (9069000 <= n < 9200000 /\ get_spec_id n = ISTANBUL) \/
  (7280000 <= n < 9069000 /\ get_spec_id n = PETERSBURG) \/
  (4370000 <= n < 7280000 /\ get_spec_id n = BYZANTIUM) \/
  (2675000 <= n < 4370000 /\ get_spec_id n = SPURIOUS_DRAGON) \/
  (2463000 <= n < 2675000 /\ get_spec_id n = TANGERINE) \/
  (1920000 <= n < 2463000 /\ get_spec_id n = DAO_FORK) \/
  (1150000 <= n < 1920000 /\ get_spec_id n = HOMESTEAD) \/
  (200000 <= n < 1150000 /\ get_spec_id n = FRONTIER_THAWING) \/
  (n < 200000 /\ get_spec_id n = FRONTIER).
Proof. by_cases n; intuition lia. Qed.

Theorem C86_rules_partial : forall n, n < 22431084 -> rules_at n (get_spec_id n).
Proof.
  intros n L. pose proof (spec_id_cases n) as C.
  repeat (destruct C as [C|C]); destruct C as [B E]; rewrite E; (split; [eexists; split; [reflexivity|lia]|]);
    intros s' b' La A; unfold later in La; destruct s'; cbn in La, A; try lia; injection A as <-; lia.
Qed.
Print Assumptions C86_rules_partial.

Theorem C86_rules_refuted : forall n, 22431084 <= n -> get_spec_id n = CANCUN /\ rules_at n PRAGUE.
Proof.
  intros n L. split.
  - pose proof (spec_id_cases n) as C. repeat (destruct C as [C|C]); destruct C as [B E]; try lia. easy.
  - split; [eexists; split; [reflexivity|lia]|]. intros s' b' La A. unfold later in La. destruct s'; cbn in La; lia.
Qed.
Print Assumptions C86_rules_refuted.

Theorem C86_enabled : forall n s b, s <> PRAGUE -> activation s = Some b ->
  (is_enabled_in (get_spec_id n) s = true <-> b <= n).
Proof.
  intros n s b P A. unfold is_enabled_in. rewrite N.leb_le.
  pose proof (spec_id_cases n) as C.
  destruct s; cbn in A; try congruence; injection A as <-;
    repeat (destruct C as [C|C]); destruct C as [B E]; rewrite E; cbn [spec_rank]; lia.
Qed.
Print Assumptions C86_enabled.

Theorem C86_block_number : forall s, s <> PRAGUE -> exists b, activation s = Some b /\ get_spec_block_number s = Ok b.
Proof. intros s P. destruct s; try congruence; eexists; (split; [reflexivity|reflexivity]). Qed.
Print Assumptions C86_block_number.

Theorem C86_uses : forall n m,
  (legacy_chain_id n = Some 1 <-> 2675000 <= n) /\ (legacy_chain_id n = None <-> n < 2675000) /\
  (prevrandao n m = Some m <-> 15537394 <= n) /\ (prevrandao n m = None <-> n < 15537394).
Proof.
  intros n m. unfold legacy_chain_id, prevrandao.
  pose proof (C86_enabled n SPURIOUS_DRAGON 2675000 ltac:(easy) eq_refl) as A.
  pose proof (C86_enabled n MERGE 15537394 ltac:(easy) eq_refl) as B.
  destruct (is_enabled_in _ SPURIOUS_DRAGON); destruct (is_enabled_in _ MERGE); repeat split; intros; try easy; try lia;
    intuition (try lia; try easy).
Qed.
Print Assumptions C86_uses.

Example C86_example : get_spec_id 15537393 = GRAY_GLACIER /\ get_spec_id 15537394 = MERGE /\ rules_at 7280000 PETERSBURG /\
  get_spec_id 7280000 = PETERSBURG.
Proof. split; [reflexivity|split; [reflexivity|split; [|reflexivity]]]. change PETERSBURG with (get_spec_id 7280000). apply C86_rules_partial. lia. Qed.

(** ** Balances *)
Lemma amount_of_filter m a x : amount_of (filter (fun y => negb (fst y =? a)) m) x = if x =? a then 0 else amount_of m x.
Proof.
  unfold amount_of. induction m as [|[k v] r IH]; cbn; [now destruct (x =? a)|].
  destruct (N.eqb_spec k a) as [->|NE]; cbn.
  - rewrite IH. destruct (N.eqb_spec x a) as [EX|NX]; [easy|]. destruct (N.eqb_spec a x); [congruence|easy].
  - destruct (N.eqb_spec k x) as [EX|NX]; [|apply IH]. destruct (N.eqb_spec x a); [congruence|easy].
Qed.

(** The keys of the map are distinct and the amounts are what was paid. *)
Definition good (m : amounts) (l : list (N * N)) : Prop :=
  NoDup (map fst m) /\ forall a, amount_of m a = paid_to l a.
Lemma paid_to_app l1 l2 a : paid_to (l1 ++ l2) a = paid_to l1 a + paid_to l2 a.
Proof. unfold paid_to. rewrite map_app. induction (map _ l1) as [|x r IH]; cbn; lia. Qed.
Lemma paid_app l1 l2 : paid (l1 ++ l2) = paid l1 + paid l2.
Proof. unfold paid. rewrite map_app. induction (map _ l1) as [|x r IH]; cbn; lia. Qed.
Lemma paid_to_le l a : paid_to l a <= paid l.
Proof. unfold paid_to, paid. induction l as [|[k v] r IH]; cbn; [lia|]. destruct (k =? a); lia. Qed.

Lemma paid_one k v : paid [(k, v)] = v.
Proof. unfold paid. cbn. lia. Qed.
Lemma paid_to_one k v a : paid_to [(k, v)] a = if k =? a then v else 0.
Proof. unfold paid_to. cbn. lia. Qed.
Lemma credit_ok m l a v : good m l -> paid (l ++ [(a, v)]) < 2 ^ 128 -> exists m', credit m a v = Ok m' /\ good m' (l ++ [(a, v)]).
Proof.
  intros [ND P] B. unfold credit. rewrite P. rewrite paid_app in B. pose proof (paid_to_le l a).
  assert (paid [(a, v)] = v) as E by (unfold paid; cbn; lia).
  destruct (N.ltb_spec (paid_to l a + v) (2 ^ 128)); [|lia].
  eexists. split; [reflexivity|]. split.
  - cbn. constructor.
    + rewrite in_map_iff. intros ([k w] & K & I). apply filter_In in I. cbn in *. subst k. rewrite N.eqb_refl in I. easy.
    + clear - ND. induction m as [|[k w] r IH]; cbn; [constructor|]. inversion ND; subst. destruct (negb (k =? a)); cbn; [|auto].
      constructor; [|auto]. rewrite in_map_iff in *. intros (x & X & I). apply filter_In in I. apply H1. exists x. tauto.
  - intros x. rewrite paid_to_app, paid_to_one. unfold amount_of at 1. cbn [find fst]. rewrite (N.eqb_sym a x).
    destruct (N.eqb_spec x a) as [->|NE].
    + lia.
    + fold (amount_of (filter (fun y => negb (fst y =? a)) m) x). rewrite amount_of_filter.
      destruct (N.eqb_spec x a); [congruence|]. rewrite P. lia.
Qed.

Lemma shiftr3 x : N.shiftr x 3 = x / 8.
Proof. rewrite N.shiftr_div_pow2. reflexivity. Qed.
Lemma shiftr5 x : N.shiftr x 5 = x / 32.
Proof. rewrite N.shiftr_div_pow2. reflexivity. Qed.

Lemma base_ok n : base_block_reward n = Ok (if n <? 15537394 then Some (reward n) else None).
Proof.
  unfold base_block_reward.
  replace (get_spec_block_number MERGE) with (Ok 15537394) by reflexivity.
  replace (get_spec_block_number CONSTANTINOPLE) with (Ok 7280000) by reflexivity.
  replace (get_spec_block_number BYZANTIUM) with (Ok 4370000) by reflexivity.
  cbn [obind]. unfold reward, eth_to_wei.
  destruct (N.leb_spec 15537394 n), (N.ltb_spec n 15537394); try lia; [easy|].
  destruct (N.leb_spec 7280000 n), (N.ltb_spec n 7280000); try lia.
  - destruct (N.ltb_spec n 4370000); [lia|]. now rewrite N.mul_comm.
  - destruct (N.leb_spec 4370000 n), (N.ltb_spec n 4370000); try lia; now rewrite N.mul_comm.
Qed.

Definition uncle_pay (n r : N) (u : header) : N * N := (beneficiary u, (8 - (n - number u)) * r / 8).

Lemma reward_uncles_ok r n us : Forall (uncle_of n) us -> forall m l, good m l ->
  paid (l ++ map (uncle_pay n r) us) < 2 ^ 128 ->
  exists m', reward_uncles r n us m = Ok m' /\ good m' (l ++ map (uncle_pay n r) us).
Proof.
  induction 1 as [|u us U _ IH]; intros m l G B; cbn.
  - rewrite app_nil_r. eauto.
  - destruct U as (U1 & U2 & U3). unfold uncle_reward.
    destruct (N.ltb_spec (8 + number u) (2 ^ 64)); [|lia]. destruct (N.leb_spec n (8 + number u)); [|lia]. cbn [andb obind].
    rewrite shiftr3. replace (8 + number u - n) with (8 - (n - number u)) by lia.
    cbn [map] in B. change (uncle_pay n r u :: map (uncle_pay n r) us) with ([uncle_pay n r u] ++ map (uncle_pay n r) us) in *.
    rewrite app_assoc in *.
    destruct (credit_ok m l (beneficiary u) ((8 - (n - number u)) * r / 8) G) as (m' & C & G').
    { rewrite paid_app in B. unfold uncle_pay in B at 1. lia. }
    rewrite C. cbn [obind]. apply IH; [exact G'|exact B].
Qed.

Definition withdrawal_pay (w : withdrawal) : N * N := (w_address w, w_amount w * 10 ^ 9).
Lemma pay_ok ws : forall m l, good m l -> paid (l ++ map withdrawal_pay ws) < 2 ^ 128 ->
  exists m', pay_withdrawals ws m = Ok m' /\ good m' (l ++ map withdrawal_pay ws).
Proof.
  induction ws as [|w ws IH]; intros m l G B; cbn [pay_withdrawals map].
  - rewrite app_nil_r. eauto.
  - cbn [map] in B. change (withdrawal_pay w :: map withdrawal_pay ws) with ([withdrawal_pay w] ++ map withdrawal_pay ws) in *.
    rewrite app_assoc in *.
    destruct (N.eqb_spec (w_amount w) 0) as [Z|NZ].
    + apply IH; [|exact B]. destruct G as [ND P]. split; [exact ND|]. intros a. rewrite P, paid_to_app.
      unfold withdrawal_pay. rewrite paid_to_one, Z. destruct (w_address w =? a); lia.
    + destruct (credit_ok m l (w_address w) (w_amount w * 10 ^ 9) G) as (m' & C & G').
      { rewrite paid_app in B. unfold withdrawal_pay in B at 1. lia. }
      unfold gwei_to_wei. rewrite C. cbn [obind]. apply IH; [exact G'|exact B].
Qed.

Lemma sum_app l1 l2 : sum (l1 ++ l2) = sum l1 + sum l2.
Proof. induction l1; cbn; lia. Qed.
Lemma drain_ok l : NoDup l -> forall s, sum (map s l) < 2 ^ 128 ->
  exists s', drain_balances s l = Ok (s', map s l) /\ forall a, s' a = if existsb (N.eqb a) l then 0 else s a.
Proof.
  induction 1 as [|x l NI ND IH]; intros s B; cbn [drain_balances map existsb].
  - eauto.
  - cbn [map sum] in B. destruct (N.ltb_spec (s x) (2 ^ 128)); [|lia].
    assert (map (set_balance s x 0) l = map s l) as E.
    { apply map_ext_in. intros y Y. unfold set_balance. destruct (N.eqb_spec y x); [subst; tauto|easy]. }
    destruct (IH (set_balance s x 0)) as (s' & D & P); [rewrite E; lia|]. rewrite D, E. cbn. eexists. split; [reflexivity|].
    intros a. rewrite P. unfold set_balance. rewrite (N.eqb_sym a x). destruct (existsb (N.eqb a) l); [now rewrite orb_true_r|].
    rewrite orb_false_r. now rewrite N.eqb_sym.
Qed.
Lemma sum128_ok l : forall acc, acc + sum l < 2 ^ 128 -> sum128 acc l = Ok (acc + sum l).
Proof.
  induction l as [|x l IH]; intros acc B; cbn [sum128 sum] in *; [f_equal; lia|].
  destruct (N.ltb_spec (acc + x) (2 ^ 128)); [|lia]. rewrite IH; [f_equal; lia|lia].
Qed.

Lemma increment_ok m : NoDup (map fst m) -> forall s, (forall a, s a + amount_of m a <= max_u256) ->
  forall a, increment_balances s m a = s a + amount_of m a.
Proof.
  induction m as [|[k v] r IH]; intros ND s B a; cbn [increment_balances].
  - unfold amount_of. cbn. lia.
  - inversion ND as [|? ? NI ND']; subst.
    assert (amount_of r k = 0) as Z.
    { unfold amount_of. destruct (find _ r) as [[k' v']|] eqn:F; [|easy]. apply find_some in F. destruct F as [I E]. apply N.eqb_eq in E. cbn in E. subst.
      destruct NI. apply in_map_iff. exists (k, v'). auto. }
    assert (forall x, amount_of ((k, v) :: r) x = if x =? k then v else amount_of r x) as A.
    { intros x. unfold amount_of. cbn. rewrite (N.eqb_sym k x). now destruct (x =? k). }
    rewrite A. pose proof (B k) as Bk. rewrite A, N.eqb_refl in Bk.
    rewrite IH; [|exact ND'|].
    + destruct (N.eqb_spec v 0) as [->|NZ].
      * destruct (N.eqb_spec a k) as [->|NE]; [rewrite Z|]; lia.
      * unfold set_balance. destruct (N.eqb_spec a k) as [->|NE]; [|lia]. rewrite Z, N.min_l; lia.
    + intros x. pose proof (B x) as Bx. rewrite A in Bx.
      destruct (v =? 0); [destruct (N.eqb_spec x k) as [EX|]; [rewrite EX in *; rewrite Z|]; lia|].
      unfold set_balance. destruct (N.eqb_spec x k) as [EX|]; [rewrite EX in *; rewrite Z, N.min_l; lia|lia].
Qed.

Lemma amount_perm m m' : NoDup (map fst m) -> Permutation m m' -> forall a, amount_of m' a = amount_of m a.
Proof.
  intros ND P. assert (NoDup (map fst m')) as ND' by (eapply Permutation_NoDup; [apply Permutation_map, P|exact ND]).
  assert (forall m a v, NoDup (map fst m) -> In (a, v) m -> amount_of m a = v) as F.
  { clear. induction m as [|[k w] r IH]; intros a v ND I; [easy|]. inversion ND; subst. unfold amount_of. cbn.
    destruct I as [E|I]; [injection E as -> ->; now rewrite N.eqb_refl|].
    destruct (N.eqb_spec k a) as [->|NE]; [|now apply IH]. destruct H1. apply in_map_iff. exists (a, v). auto. }
  assert (forall m a, ~ In a (map fst m) -> amount_of m a = 0) as Z.
  { clear. intros m a NI. unfold amount_of. destruct (find _ m) as [[k v]|] eqn:E; [|easy]. apply find_some in E. destruct E as [I E].
    apply N.eqb_eq in E. cbn in E. subst. destruct NI. apply in_map_iff. exists (a, v). auto. }
  intros a. destruct (in_dec N.eq_dec a (map fst m)) as [I|NI].
  - apply in_map_iff in I. destruct I as ([k v] & E & I). cbn in E. subst k. rewrite (F m a v ND I).
    apply F; [exact ND'|]. eapply Permutation_in; eauto.
  - rewrite (Z m a NI), Z; [easy|]. intros I. apply NI. eapply Permutation_in; [symmetry; apply Permutation_map, P|exact I].
Qed.

Fixpoint nodupb (l : list N) : bool := match l with [] => true | x :: r => negb (existsb (N.eqb x) r) && nodupb r end.
Lemma nodupb_ok l : nodupb l = true -> NoDup l.
Proof.
  induction l as [|x r IH]; intros H; constructor; cbn [nodupb] in H; apply andb_true_iff in H; destruct H as [H1 H2]; [|auto].
  intros I. apply negb_true_iff in H1. assert (existsb (N.eqb x) r = true) as E; [|congruence]. apply existsb_exists. exists x. split; [assumption|apply N.eqb_refl].
Qed.
Lemma dao_nodup : NoDup dao_accounts.
Proof. apply nodupb_ok. vm_compute. reflexivity. Qed.

Local Opaque dao_accounts.
Theorem C87_balances : forall order b us s,
  (forall m, Permutation m (order m)) -> b_uncles b = Some us -> Forall (uncle_of (number (b_header b))) us ->
  paid (payments b us) + sum (map s dao_accounts) < 2 ^ 128 -> (forall a, s a < 2 ^ 255) ->
  exists s', post_block order b s = Ok s' /\
    forall a, s' a = paid_to (payments b us) a +
      if number (b_header b) =? 1920000
      then (if existsb (N.eqb a) dao_accounts then 0 else s a) + (if a =? dao_beneficiary then sum (map s dao_accounts) else 0)
      else s a.
Proof.
  intros order b us s PO UE UF B1 B2. set (n := number (b_header b)) in *.
  set (ws := match b_withdrawals b with Some l => l | None => [] end).
  assert (payments b us = (beneficiary (b_header b), reward n + blen us * (reward n / 32)) :: map (uncle_pay n (reward n)) us ++ map withdrawal_pay ws) as PE.
  { unfold payments, ws. fold n. destruct (b_withdrawals b); reflexivity. }
  set (miner := (beneficiary (b_header b), reward n + blen us * (reward n / 32))) in *.
  assert (exists m l, process_block_rewards b [] = Ok m /\ good m l /\ (forall a, paid_to l a = paid_to (map (uncle_pay n (reward n)) us ++ [miner]) a)
           /\ paid l = paid (map (uncle_pay n (reward n)) us ++ [miner])) as (m & l & E1 & G1 & P1 & T1).
  { assert (good [] []) as G0 by (split; [constructor|reflexivity]).
    unfold process_block_rewards. fold n. rewrite base_ok. cbn [obind]. rewrite UE.
    assert (paid (map (uncle_pay n (reward n)) us ++ [miner]) < 2 ^ 128) as B.
    { rewrite PE in B1. change (miner :: ?x) with ([miner] ++ x) in B1. rewrite !paid_app in *. lia. }
    destruct (N.ltb_spec n 15537394) as [L|L].
    - destruct (reward_uncles_ok (reward n) n us UF [] [] G0) as (m & E & G).
      { rewrite paid_app in B. cbn [app]. lia. }
      rewrite E. cbn [obind app] in *. rewrite shiftr5, (N.mul_comm (reward n / 32)).
      destruct (credit_ok m _ (beneficiary (b_header b)) (reward n + blen us * (reward n / 32)) G) as (m' & C & G').
      { exact B. }
      exists m', (map (uncle_pay n (reward n)) us ++ [miner]). auto.
    - assert (reward n = 0) as R.
      { unfold reward. destruct (N.ltb_spec n 4370000); [lia|]. destruct (N.ltb_spec n 7280000); [lia|]. destruct (N.ltb_spec n 15537394); [lia|easy]. }
      assert (paid (map (uncle_pay n (reward n)) us ++ [miner]) = 0) as PZ.
      { rewrite paid_app. unfold miner. rewrite R. unfold paid. cbn. rewrite map_map.
        replace (sum (map (fun x => snd (uncle_pay n 0 x)) us)) with 0; [lia|]. clear. induction us; cbn [map sum]; [easy|]. rewrite <- IHus. unfold uncle_pay. cbn. rewrite N.mul_0_r. reflexivity. }
      exists [], []. split; [easy|]. split; [exact G0|]. split; [|rewrite PZ; easy].
      intros a. pose proof (paid_to_le (map (uncle_pay n (reward n)) us ++ [miner]) a). rewrite PZ in *. unfold paid_to at 1. cbn. lia. }
  unfold post_block. rewrite E1. cbn [obind].
  assert (paid (l ++ map withdrawal_pay ws) = paid (payments b us)) as TP.
  { rewrite PE, paid_app, T1. change (miner :: ?x) with ([miner] ++ x). rewrite !paid_app. change (paid []) with 0. lia. }
  assert (forall a, paid_to (l ++ map withdrawal_pay ws) a = paid_to (payments b us) a) as TA.
  { intros a. rewrite PE, paid_to_app, P1. change (miner :: ?x) with ([miner] ++ x). rewrite !paid_to_app. change (paid_to [] a) with 0. lia. }
  destruct (pay_ok ws m l G1) as (m2 & E2 & G2); [rewrite TP; lia|].
  assert (process_withdrawals b m = Ok m2) as E3.
  { unfold process_withdrawals. unfold ws in E2. destruct (b_withdrawals b); exact E2. }
  rewrite E3. cbn [obind]. unfold process_dao_fork. fold n.
  replace (get_spec_block_number DAO_FORK) with (Ok 1920000) by reflexivity. cbn [obind].
  destruct (N.eqb_spec n 1920000) as [D|ND].
  - destruct (drain_ok dao_accounts dao_nodup s) as (s' & E4 & P4); [lia|]. rewrite E4. cbn [obind snd fst].
    rewrite sum128_ok by lia. rewrite N.add_0_l. cbn [obind].
    destruct (credit_ok m2 _ dao_beneficiary (sum (map s dao_accounts)) G2) as (m3 & C & G3).
    { rewrite paid_app, TP, paid_one. exact B1. }
    rewrite C. cbn [omap]. eexists. split; [reflexivity|]. intros a. destruct G3 as [ND3 P3]. cbn [fst snd].
    assert (forall x, amount_of (order m3) x = paid_to (payments b us) x + if x =? dao_beneficiary then sum (map s dao_accounts) else 0) as A3.
    { intros x. rewrite (amount_perm m3 (order m3) ND3 (PO m3)), P3, paid_to_app, TA, paid_to_one, (N.eqb_sym dao_beneficiary). destruct (x =? dao_beneficiary); lia. }
    rewrite increment_ok.
    + rewrite A3, P4. lia.
    + eapply Permutation_NoDup; [apply Permutation_map, PO|exact ND3].
    + intros x. rewrite A3, P4. pose proof (B2 x). pose proof (paid_to_le (payments b us) x).
      assert (2 ^ 255 + 2 ^ 128 <= max_u256) by (vm_compute; easy).
      destruct (existsb _ _); destruct (x =? dao_beneficiary); lia.
  - cbn [omap fst snd]. eexists. split; [reflexivity|]. intros a. destruct G2 as [ND2 P2].
    assert (forall x, amount_of (order m2) x = paid_to (payments b us) x) as A2.
    { intros x. rewrite (amount_perm m2 (order m2) ND2 (PO m2)), P2. apply TA. }
    rewrite increment_ok.
    + rewrite A2. lia.
    + eapply Permutation_NoDup; [apply Permutation_map, PO|exact ND2].
    + intros x. rewrite A2. pose proof (B2 x). pose proof (paid_to_le (payments b us) x).
      assert (2 ^ 255 + 2 ^ 128 <= max_u256) by (vm_compute; easy). lia.
Qed.
Print Assumptions C87_balances.

Lemma sum_map_add {A} (l : list A) f g : sum (map (fun a => f a + g a) l) = sum (map f l) + sum (map g l).
Proof. induction l; cbn; lia. Qed.
Lemma sum_one l v (x : N) : NoDup l -> In x l -> sum (map (fun a => if a =? x then v else 0) l) = v.
Proof.
  induction 1 as [|y l NI ND IH]; [easy|]. intros [->|I]; cbn [map sum].
  - rewrite N.eqb_refl. assert (sum (map (fun a => if a =? x then v else 0) l) = 0); [|lia].
    clear - NI. induction l as [|z l IH]; cbn; [easy|]. cbn in NI. destruct (N.eqb_spec z x); [tauto|]. rewrite IH; tauto.
  - rewrite IH by exact I. destruct (N.eqb_spec y x); [congruence|lia].
Qed.
Lemma sum_paid l pays : NoDup l -> incl (map fst pays) l -> sum (map (paid_to pays) l) = paid pays.
Proof.
  intros ND. induction pays as [|[k v] r IH]; intros I.
  - unfold paid_to, paid. cbn. clear. induction l; cbn; lia.
  - transitivity (sum (map (fun a => (if a =? k then v else 0) + paid_to r a) l)).
    + f_equal. apply map_ext. intros a. unfold paid_to. cbn. rewrite (N.eqb_sym a k). now destruct (k =? a).
    + rewrite sum_map_add, IH by (intros x X; apply I; now right). rewrite sum_one; [|exact ND|apply I; now left].
      unfold paid. cbn. lia.
Qed.
Lemma sum_perm l1 l2 : Permutation l1 l2 -> sum l1 = sum l2.
Proof. induction 1; cbn; lia. Qed.

(** Nothing is created or lost but the payments. *)
Theorem C87_supply : forall order b us s s' all,
  (forall m, Permutation m (order m)) -> b_uncles b = Some us -> Forall (uncle_of (number (b_header b))) us ->
  paid (payments b us) + sum (map s dao_accounts) < 2 ^ 128 -> (forall a, s a < 2 ^ 255) ->
  NoDup all -> incl (map fst (payments b us)) all -> incl dao_accounts all -> In dao_beneficiary all ->
  post_block order b s = Ok s' ->
  sum (map s' all) = sum (map s all) + paid (payments b us).
Proof.
  intros order b us s s' all PO UE UF B1 B2 ND I1 I2 I3 E.
  destruct (C87_balances order b us s PO UE UF B1 B2) as (s2 & E2 & P). rewrite E in E2. injection E2 as <-.
  transitivity (sum (map (fun a => paid_to (payments b us) a + if number (b_header b) =? 1920000
      then (if existsb (N.eqb a) dao_accounts then 0 else s a) + (if a =? dao_beneficiary then sum (map s dao_accounts) else 0)
      else s a) all)); [f_equal; apply map_ext; exact P|].
  rewrite sum_map_add, sum_paid by assumption. destruct (number (b_header b) =? 1920000); [|rewrite N.add_comm; reflexivity].
  rewrite sum_map_add, sum_one by assumption.
  assert (sum (map (fun a => if existsb (N.eqb a) dao_accounts then 0 else s a) all) + sum (map s dao_accounts) = sum (map s all)) as K; [|lia].
  assert (exists rest, Permutation all (dao_accounts ++ rest)) as (rest & PR).
  { clear - ND I2. pose proof dao_nodup as D. revert all ND I2. generalize dao_accounts D. clear.
    induction 1 as [|x l NI D IH]; intros all ND I; [exists all; reflexivity|].
    assert (In x all) as X by (apply I; now left). apply in_split in X. destruct X as (l1 & l2 & ->).
    destruct (IH (l1 ++ l2)) as (rest & P).
    - eapply NoDup_remove_1, ND.
    - intros y Y. assert (y <> x) by (intros ->; tauto). assert (In y (l1 ++ x :: l2)) as Z by (apply I; now right).
      apply in_app_iff in Z. apply in_app_iff. destruct Z as [|[->|]]; tauto.
    - exists rest. cbn. rewrite <- P. symmetry. apply Permutation_middle. }
  rewrite (sum_perm _ _ (Permutation_map _ PR)), (sum_perm _ _ (Permutation_map s PR)), !map_app, !sum_app.
  assert (NoDup (dao_accounts ++ rest)) as ND' by (eapply Permutation_NoDup; eauto).
  replace (sum (map (fun a => if existsb (N.eqb a) dao_accounts then 0 else s a) dao_accounts)) with 0.
  2:{ assert (forall l, incl l dao_accounts -> 0 = sum (map (fun a => if existsb (N.eqb a) dao_accounts then 0 else s a) l)) as Q; [|apply Q, incl_refl].
      induction l as [|x l IH]; intros I; cbn [map sum]; [easy|]. rewrite <- IH by (intros y Y; apply I; now right).
      replace (existsb (N.eqb x) dao_accounts) with true; [easy|]. symmetry. apply existsb_exists. exists x. split; [apply I; now left|apply N.eqb_refl]. }
  replace (map (fun a => if existsb (N.eqb a) dao_accounts then 0 else s a) rest) with (map s rest); [lia|].
  apply map_ext_in. intros x X. destruct (existsb (N.eqb x) dao_accounts) eqn:EX; [|easy]. apply existsb_exists in EX. destruct EX as (y & Y & EY).
  apply N.eqb_eq in EY. subst y. exfalso. clear - ND' X Y. induction dao_accounts as [|z l IH]; [easy|]. inversion ND'; subst. destruct Y as [->|Y]; [|auto].
  apply H1. apply in_app_iff. now right.
Qed.
Print Assumptions C87_supply.

(** An "uncle" more than eight generations old stops the execution of the block. *)
Theorem C87_old_uncle : forall order b us s u,
  b_uncles b = Some us -> In u us -> number u + 8 < number (b_header b) -> number (b_header b) < 15537394 ->
  post_block order b s = Panic.
Proof.
  intros order b us s u UE I O L. unfold post_block, process_block_rewards. rewrite base_ok. cbn [obind].
  destruct (N.ltb_spec (number (b_header b)) 15537394); [|lia]. rewrite UE.
  assert (forall m, reward_uncles (reward (number (b_header b))) (number (b_header b)) us m = Panic) as P.
  { clear UE. induction us as [|x r IH]; [easy|]. intros m. cbn. destruct I as [->|I].
    - unfold uncle_reward. destruct (N.leb_spec (number (b_header b)) (8 + number u)); [lia|]. now rewrite andb_false_r.
    - unfold uncle_reward. destruct (_ && _); [|easy]. cbn. unfold credit. destruct (_ <? _); [|easy]. apply (IH I). }
  now rewrite P.
Qed.
Print Assumptions C87_old_uncle.

Local Transparent dao_accounts.
Example C87_example :
  let b := {| b_header := {| number := 1920000; beneficiary := 1 |};
              b_uncles := Some [{| number := 1919999; beneficiary := 2 |}]; b_withdrawals := None |} in
  let s := fun a => if a =? 0x304a554a310c7e546dfe434669c62820b7d83490 then 7 else 5 in
  exists s', post_block (fun m => m) b s = Ok s' /\ s' 1 = 5 + 5156250000000000000 /\ s' 2 = 5 + 4375000000000000000 /\
    s' 0x304a554a310c7e546dfe434669c62820b7d83490 = 0 /\ s' dao_beneficiary = 5 + 116 * 5 + 2.
Proof. eexists. split; [vm_compute; reflexivity|]. vm_compute. auto. Qed.
