(** The execution of a block: the properties. *)
From Verif Require Import Base Keys_Props Rewards_Model Rewards_Spec Rewards_Props TxEnv_Model EthCall_Spec EthCall_Props BlockExec_Model BlockExec_Spec.

Lemma rules_unique n s s' : rules_at n s -> rules_at n s' -> s = s'.
Proof.
  intros [(b & Ab & Lb) L] [(b' & Ab' & Lb') L'].
  assert (~ later s s') by (intros X; specialize (L' _ _ X Ab); lia). assert (~ later s' s) by (intros X; specialize (L _ _ X Ab'); lia).
  unfold later in *. assert (E : spec_rank s = spec_rank s') by lia. destruct s, s'; cbn in E; try reflexivity; discriminate.
Qed.
Lemma env_unique blob_price h b b' : v_number h < 22431084 -> sees_block blob_price h b -> sees_block blob_price h b' -> b = b'.
Proof.
  intros L (E1 & E2 & E3 & E4 & E5 & F1 & F2 & P1 & P2 & X1 & X2) (E1' & E2' & E3' & E4' & E5' & F1' & F2' & P1' & P2' & X1' & X2').
  destruct b as [n t g f d p x bn], b' as [n' t' g' f' d' p' x' bn']. cbn in *. subst. f_equal.
  - destruct (v_base_fee h) as [y|]; [rewrite (F1 y eq_refl), (F1' y eq_refl)|rewrite F2, F2' by reflexivity]; reflexivity.
  - destruct (N.lt_ge_cases (v_number h) 15537394); [rewrite P2, P2' by assumption|rewrite P1, P1' by assumption]; reflexivity.
  - destruct (v_excess_blob_gas h) as [y|]; [rewrite (X2 y eq_refl L), (X2' y eq_refl L)|rewrite X1, X1' by reflexivity]; reflexivity.
Qed.
Lemma clears_ok n : is_enabled_in (get_spec_id n) SPURIOUS_DRAGON = clears n.
Proof.
  pose proof (C86_enabled n SPURIOUS_DRAGON 2675000 ltac:(easy) eq_refl) as A. unfold clears. destruct (N.ltb_spec n 2675000) as [L|L]; cbn [negb].
  - destruct (is_enabled_in _ _); [|reflexivity]. destruct A as [A _]. specialize (A eq_refl). lia.
  - apply A, L.
Qed.


Lemma says_unique n x e e' : says n x e -> says n x e' -> e = e'.
Proof.
  intros A B. destruct A as [A1 A2 A3 A4 A5 _ A6 A7 A8 A9 Ac Al A10 A11 A12 A13], B as [B1 B2 B3 B4 B5 _ B6 B7 B8 B9 Bc Bl B10 B11 B12 B13].
  destruct e, e'. cbn in *. subst. f_equal. destruct (chain_of (s_transaction x)); [rewrite (Ac _ eq_refl), (Bc _ eq_refl)|rewrite (Al eq_refl), (Bl eq_refl)]; reflexivity.
Qed.
(** The EVM gets every transaction as it is, whatever was executed before ([e]); except those of EIP-7702, which
    stop the program. *)
Theorem C99_transaction : forall x number e,
  match modify_sent x number e with
  | Ok e' => says number x e' /\ type_of (s_transaction x) <> 4
  | Err => False
  | Panic => type_of (s_transaction x) = 4
  end.
Proof.
  intros [t sender] number e. unfold modify_sent. cbn [s_transaction s_sender].
  destruct t as [t|t|t|t sc|t au]; [| | | |reflexivity]; (split; [|discriminate]); constructor; cbn; try reflexivity; try discriminate; try (intros id [= <-]; reflexivity).
  intros _. destruct (C86_uses number []) as (U1 & U2 & _). unfold legacy_chain_id in *. destruct (N.ltb_spec number 2675000); [apply U2|apply U1]; assumption.
Qed.

Section Exec.
Context {St change : Type}.
Context (default_gas : N) (blob_price : N -> bool -> N).
Context (transact : spec_id -> block_env -> tx_env -> St -> outcome (N * list (bytes * change)))
        (commit : bool -> list (bytes * change) -> St -> St)
        (genesis : St -> outcome St)
        (beneficiaries : exec_block -> St -> outcome (St * list (bytes * N)))
        (increment : list (bytes * N) -> St -> outcome St)
        (serve_hash : exec_header -> St -> outcome St).
Notation machine := (@machine St).
Notation execute_block := (execute_block default_gas blob_price transact commit genesis beneficiaries increment serve_hash).
Notation execute_transactions := (execute_transactions default_gas transact commit).
Notation execute_transaction := (execute_transaction default_gas transact).
Notation in_order := (in_order transact commit).
Notation beacon_root := (beacon_root default_gas transact commit).
Notation block_runs := (block_runs default_gas blob_price transact commit beneficiaries).

(** The machine is set up for a block. *)
Definition ready (n : N) (env : block_env) (m : machine) : Prop := m_spec m = get_spec_id n /\ m_clear m = clears n /\ m_block m = env /\ be_number env = n.
Lemma one_tx traced n env m x : ready n env m ->
  match execute_transaction traced m x with
  | Ok (m', r) => ready n env m' /\ m_db m' = m_db m /\ m_executed m' = m_executed m /\ m_gas m' = m_gas m /\ exists e, says n x e /\ transact (get_spec_id n) env e (m_db m) = Ok r
  | Err => exists e, says n x e /\ transact (get_spec_id n) env e (m_db m) = Err
  | Panic => type_of (s_transaction x) = 4 \/ exists e, says n x e /\ transact (get_spec_id n) env e (m_db m) = Panic
  end.
Proof.
  intros (R1 & R2 & R3 & R4). unfold BlockExec_Model.execute_transaction. rewrite R3, R4.
  pose proof (C99_transaction x n (m_tx m)) as T. destruct (modify_sent x n (m_tx m)) as [e| |]; [|destruct T|left; exact T]. destruct T as [T _]. cbn [obind].
  assert (G : match omap (fun r : N * list (bytes * change) => (with_tx m e, r)) (transact (get_spec_id n) env e (m_db m)) with
    | Ok (m', r) => ready n env m' /\ m_db m' = m_db m /\ m_executed m' = m_executed m /\ m_gas m' = m_gas m /\ exists e, says n x e /\ transact (get_spec_id n) env e (m_db m) = Ok r
    | Err => exists e, says n x e /\ transact (get_spec_id n) env e (m_db m) = Err
    | Panic => type_of (s_transaction x) = 4 \/ exists e, says n x e /\ transact (get_spec_id n) env e (m_db m) = Panic end).
  { destruct (transact (get_spec_id n) env e (m_db m)) as [r| |] eqn:E; cbn [omap]; [|eauto|eauto]. split; [unfold ready; cbn; auto|]. cbn. eauto 6. }
  destruct (traced (s_transaction x)).
  - unfold create_evm_sent. cbn [with_tx m_block]. rewrite R3, R4. pose proof (C99_transaction x n (default_tx_env default_gas)) as T'. destruct (modify_sent x n (default_tx_env default_gas)) as [e'| |]; [|destruct T'|left; exact T'].
    destruct T' as [T' _]. rewrite (says_unique _ _ _ _ T' T). cbn [omap obind fst snd m_db]. exact G.
  - unfold replay. cbn [with_tx m_spec m_block m_tx m_db]. rewrite R1, R3. exact G.
Qed.
Lemma all_txs traced n env l : forall m gas, ready n env m ->
  match execute_transactions traced l m gas with
  | Ok (m', g) => ready n env m' /\ m_executed m' = m_executed m /\ m_gas m' = m_gas m /\ exists used, g = gas + used /\ in_order (get_spec_id n) env n (m_db m) l (m_db m') used
  | _ => Forall (fun x => type_of (s_transaction x) <> 4) l -> forall s' used, ~ in_order (get_spec_id n) env n (m_db m) l s' used
  end.
Proof.
  induction l as [|x l IH]; intros m gas R; cbn [BlockExec_Model.execute_transactions].
  - split; [exact R|]. split; [reflexivity|]. split; [reflexivity|]. exists 0. split; [lia|constructor].
  - pose proof (one_tx traced n env m x R) as T. destruct (execute_transaction traced m x) as [[m1 [used changes]]| |]; cbn [obind].
    + destruct T as (R1 & D1 & X1 & G1 & ee & Se & Te). pose proof R1 as (_ & C1 & _).
      assert (R2 : ready n env (with_db m1 (commit (m_clear m1) changes (m_db m1)))) by exact R1.
      specialize (IH _ (gas + used) R2). destruct (execute_transactions traced l _ (gas + used)) as [[m' g]| |].
      * destruct IH as (R3 & X3 & G3 & u & -> & O). cbn in X3, G3. split; [exact R3|]. split; [congruence|]. split; [congruence|]. exists (used + u). split; [lia|]. cbn [with_db m_db] in O. rewrite C1, D1 in O. econstructor; eassumption.
      * intros Hl s' u O. inversion Hl; subst. inversion O; subst. match goal with H : says n x ?w, H' : transact _ _ ?w _ = _ |- _ => rewrite (says_unique _ _ _ _ H Se), Te in H'; injection H' as <- <- end.
        cbn [with_db m_db] in IH. rewrite C1, D1 in IH. eapply IH; eassumption.
      * intros Hl s' u O. inversion Hl; subst. inversion O; subst. match goal with H : says n x ?w, H' : transact _ _ ?w _ = _ |- _ => rewrite (says_unique _ _ _ _ H Se), Te in H'; injection H' as <- <- end.
        cbn [with_db m_db] in IH. rewrite C1, D1 in IH. eapply IH; eassumption.
    + destruct T as (ee & Se & Te). intros Hl s' u O. inversion Hl; subst. inversion O; subst. match goal with H : says n x ?w, H' : transact _ _ ?w _ = _ |- _ => rewrite (says_unique _ _ _ _ H Se), Te in H'; discriminate end.
    + intros Hl s' u O. inversion Hl; subst. inversion O; subst. destruct T as [T|(ee & Se & Te)]; [contradiction|].
      match goal with H : says n x ?w, H' : transact _ _ ?w _ = _ |- _ => rewrite (says_unique _ _ _ _ H Se), Te in H'; discriminate end.
Qed.
Lemma beacon_ok n env h m : v_number (x_fields h) = n -> ready n env m ->
  match apply_beacon_root_contract default_gas transact commit m h with
  | Ok m' => ready n env m' /\ m_executed m' = m_executed m /\ m_gas m' = m_gas m /\ m_tx m' = m_tx m /\ beacon_root (get_spec_id n) env h (m_db m) (m_db m')
  | _ => forall s', ~ beacon_root (get_spec_id n) env h (m_db m) s'
  end.
Proof.
  intros En R. pose proof R as (R1 & R2 & R3 & R4). unfold apply_beacon_root_contract. rewrite En. pose proof (C86_enabled n CANCUN 19426587 ltac:(easy) eq_refl) as A.
  destruct (is_enabled_in (get_spec_id n) CANCUN) eqn:Ec; cbn [negb].
  - apply proj1 in A. specialize (A eq_refl). destruct (x_parent_beacon_root h) as [root|] eqn:Er.
    + unfold replay. cbn [with_env m_spec m_block m_tx m_db e_gas_limit]. rewrite R1, R3. set (e := mk_tx _ _ _ _ _ _ _ _ _ _ _ _ _ _). set (b' := with_limits _ _ _).
      assert (U : forall s', beacon_root (get_spec_id n) env h (m_db m) s' -> exists gas changes, transact (get_spec_id n) b' e (m_db m) = Ok (gas, changes) /\ s' = commit (clears n) (List.filter (fun x => beqb (fst x) beacon_roots_address) changes) (m_db m)).
      { intros s' B. inversion B as [s L|s root0 b0 e0 gas changes L Hr Hc Hk Hd _ _ He Hb Hg Hbe Ht]; subst; [lia|]. rewrite Er in Hr. injection Hr as Hr. exists gas, changes. split; [|reflexivity].
        assert (e0 = e) as <- by (rewrite He, Hc, Hk, <- Hr; reflexivity). assert (b0 = b') as <-; [|exact Ht]. destruct b0; cbn in *. unfold b', with_limits. congruence. }
      destruct (transact (get_spec_id n) b' e (m_db m)) as [[gas changes]| |] eqn:T.
      * cbn [with_db m_db m_executed m_gas m_tx]. split; [exact R|]. repeat (split; [reflexivity|]). rewrite R2, <- En. eapply (B_call _ _ _ _ _ _ _ root b' e gas changes); try reflexivity; [rewrite En; exact A|exact Er|rewrite <- En in T; exact T].
      * intros s' B. destruct (U s' B) as (g & c & H & _). discriminate.
      * intros s' B. destruct (U s' B) as (g & c & H & _). discriminate.
    + intros s' B. inversion B; subst; [lia|congruence].
  - split; [exact R|]. repeat (split; [reflexivity|]). constructor. destruct (N.lt_ge_cases (v_number (x_fields h)) 19426587) as [L|L]; [exact L|]. rewrite En in L. apply A in L. congruence.
Qed.

(** A payment that fails is left out. *)
Definition pays (paid : list (bytes * N)) (s s' : St) : Prop := increment paid s = Ok s' \/ (increment paid s = Err /\ s' = s).

(** A block is executed to the state that its header and its transactions determine, or not at all: the call of the contract
    for beacon roots, the transactions in order, and the payments; the gas is what the header says.  What was executed before,
    and which transactions are traced, does not matter. *)
Theorem C99_block_partial : forall traced m b s', let n := v_number (x_fields (k_header b)) in
  0 < n < 22431084 -> Forall (fun x => type_of (s_transaction x) <> 4) (k_transactions b) ->
  (exists m', execute_block traced m b = Ok m' /\ m_db m' = s') <-> block_runs pays serve_hash b (m_db m) s'.
Proof.
  intros traced m b s' n L H7. unfold BlockExec_Model.execute_block. change (v_number (x_fields (k_header b))) with n. destruct (N.eqb_spec n 0) as [Z|_]; [lia|].
  set (env := create_block_env blob_price (x_fields (k_header b))).
  assert (Hs : sees_block blob_price (x_fields (k_header b)) env) by apply block_seen.
  assert (R0 : ready n env (set_evm_environment default_gas blob_price m (k_header b))).
  { unfold ready, set_evm_environment. cbn [m_spec m_clear m_block]. change (v_number (x_fields (k_header b))) with n. split; [reflexivity|]. split; [apply clears_ok|]. split; reflexivity. }
  assert (Hr : rules_at n (get_spec_id n)) by (apply C86_rules_partial; lia).
  assert (Un : block_runs pays serve_hash b (m_db m) s' <-> exists s1 s2 s3 s4 paid, beacon_root (get_spec_id n) env (k_header b) (m_db m) s1 /\ in_order (get_spec_id n) env n s1 (k_transactions b) s2 (x_gas_used (k_header b)) /\
    beneficiaries b s2 = Ok (s3, paid) /\ pays paid s3 s4 /\ serve_hash (k_header b) s4 = Ok s').
  { split.
    - intros (spec & env' & s1 & s2 & s3 & paid & Q1 & Q2 & Q3 & Q4 & Q5 & s4 & Q6 & Q7). change (v_number (x_fields (k_header b))) with n in Q1, Q4. assert (spec = get_spec_id n) as -> by (eapply rules_unique; eassumption).
      assert (env' = env) as -> by (eapply env_unique; [|eassumption|eassumption]; apply L). exists s1, s2, s3, s4, paid. auto.
    - intros (s1 & s2 & s3 & s4 & paid & Q3 & Q4 & Q5 & Q6 & Q7). exists (get_spec_id n), env, s1, s2, s3, paid. fold n. repeat (split; [assumption|]). exists s4. auto. }
  rewrite Un. clear Un. pose proof (beacon_ok n env (k_header b) _ eq_refl R0) as B. change (m_db (set_evm_environment default_gas blob_price m (k_header b))) with (m_db m) in B.
  destruct (apply_beacon_root_contract _ _ _ _ (k_header b)) as [m1| |]; cbn [obind];
    [|split; [intros (m' & E & _); discriminate|intros (s1 & _ & _ & _ & _ & Q & _); destruct (B _ Q)]..].
  destruct B as (R1 & _ & _ & _ & B).
  assert (UB : forall s1, beacon_root (get_spec_id n) env (k_header b) (m_db m) s1 -> s1 = m_db m1).
  { intros s1 B1. inversion B as [s La|s root0 b0 e0 gas changes La Hx Hc Hk Hd _ _ He Hb Hg Hbe Ht]; inversion B1 as [s_ La_|s_ root1 b1 e1 gas1 changes1 La1 Hx1 Hc1 Hk1 Hd1 _ _ He1 Hb1 Hg1 Hbe1 Ht1]; subst; try lia; [reflexivity|].
    assert (e1 = e0) as -> by (rewrite He, He1, Hc, Hc1, Hk, Hk1; congruence). assert (b1 = b0) as -> by (destruct b0, b1; cbn in *; congruence). congruence. }
  pose proof (all_txs traced n env (k_transactions b) m1 0 R1) as T.
  assert (UT : forall l s s2 g s2' g', in_order (get_spec_id n) env n s l s2 g -> in_order (get_spec_id n) env n s l s2' g' -> s2 = s2' /\ g = g').
  { clear. induction l as [|x l IH]; intros s s2 g s2' g' O O'; inversion O; subst; inversion O'; subst; [auto|].
    repeat match goal with H : says n x ?u, H' : says n x ?w |- _ => tryif constr_eq u w then fail else (rewrite (says_unique _ _ _ _ H' H) in *; clear H') end.
    match goal with H : transact _ _ _ _ = Ok ?u, H' : transact _ _ _ _ = Ok ?w |- _ => tryif constr_eq u w then fail else (rewrite H in H'; injection H' as <- <-) end.
    match goal with H : in_order _ _ _ _ l _ _, H' : in_order _ _ _ _ l _ _ |- _ => destruct (IH _ _ _ _ _ H H') as [<- <-] end. auto. }
  destruct (execute_transactions traced (k_transactions b) m1 0) as [[m2 gas]| |]; cbn [obind];
    [|split; [intros (m' & E & _); discriminate|intros (s1 & s2 & _ & _ & _ & Q & Q2 & _); rewrite (UB _ Q) in Q2; destruct (T H7 _ _ Q2)]..].
  destruct T as (R2 & X2 & G2 & used & Eg & O). rewrite N.add_0_l in Eg. subst used.
  destruct (N.eqb_spec gas (x_gas_used (k_header b))) as [Eg|Ng]; cbn [negb].
  - cbn [m_db]. rewrite Eg in O. split.
    + intros (m' & E & <-). apply obind_ok in E as ([s3 paid] & Eb & E). apply obind_ok in E as (s4 & Ei & E).
      destruct (serve_hash (k_header b) s4) as [s5| |] eqn:Es; try discriminate. injection E as <-. cbn [with_db m_db]. exists (m_db m1), (m_db m2), s3, s4, paid.
      split; [exact B|]. split; [exact O|]. split; [exact Eb|]. split; [|exact Es]. unfold pays. destruct (increment paid s3); [left; congruence|right; split; congruence|discriminate].
    + intros (s1 & s2 & s3 & s4 & paid & Q1 & Q2 & Q3 & Q4 & Q5). apply UB in Q1. subst s1. destruct (UT _ _ _ _ _ _ O Q2) as [<- _]. rewrite Q3. cbn [obind].
      assert (match increment paid s3 with Err => Ok s3 | x => x end = Ok s4) as -> by (destruct Q4 as [-> |[-> ->]]; reflexivity). cbn [obind]. rewrite Q5. cbn [omap]. eexists. split; [reflexivity|]. reflexivity.
  - split; [intros (m' & E & _); discriminate|]. intros (s1 & s2 & s3 & s4 & paid & Q1 & Q2 & _). apply UB in Q1. subst s1. destruct (UT _ _ _ _ _ _ O Q2) as [_ Q]. congruence.
Qed.

(** Neither the tracing nor what the machine has executed before changes anything. *)
Theorem C99_tracing : forall traced traced' m m' b, m_db m = m_db m' ->
  omap m_db (execute_block traced m b) = omap m_db (execute_block traced' m' b).
Proof.
  intros traced traced' m m' b Ed. unfold BlockExec_Model.execute_block. set (n := v_number (x_fields (k_header b))). destruct (n =? 0); [rewrite Ed; destruct (genesis (m_db m')); reflexivity|].
  set (env := create_block_env blob_price (x_fields (k_header b))).
  assert (R : forall m, ready n env (set_evm_environment default_gas blob_price m (k_header b))).
  { intros m0. unfold ready, set_evm_environment. cbn [m_spec m_clear m_block]. change (v_number (x_fields (k_header b))) with n. split; [reflexivity|]. split; [apply clears_ok|]. split; reflexivity. }
  assert (B : forall k k', ready n env k -> ready n env k' -> m_db k = m_db k' ->
    match apply_beacon_root_contract default_gas transact commit k (k_header b), apply_beacon_root_contract default_gas transact commit k' (k_header b) with
    | Ok u, Ok u' => ready n env u /\ ready n env u' /\ m_db u = m_db u' | Err, Err => True | Panic, Panic => True | _, _ => False end).
  { intros k k' (A1 & A2 & A3 & A4) (A1' & A2' & A3' & A4') E. unfold apply_beacon_root_contract. destruct (negb _); [unfold ready; auto 12|]. destruct (x_parent_beacon_root (k_header b)); [|exact Logic.I].
    unfold replay. cbn [with_env m_spec m_block m_tx m_db e_gas_limit]. rewrite A1, A1', A3, A3', E. destruct (transact _ _ _ _) as [[g c]| |]; [|exact Logic.I..]. unfold ready. cbn. rewrite A2, A2'. auto 12. }
  specialize (B _ _ (R m) (R m') Ed). destruct (apply_beacon_root_contract _ _ _ (set_evm_environment _ _ m _) _) as [u| |], (apply_beacon_root_contract _ _ _ (set_evm_environment _ _ m' _) _) as [u'| |]; try (exfalso; exact B); try reflexivity. cbn [obind].
  assert (T : forall l k k' gas, ready n env k -> ready n env k' -> m_db k = m_db k' ->
    match execute_transactions traced l k gas, execute_transactions traced' l k' gas with
    | Ok (w, g), Ok (w', g') => m_db w = m_db w' /\ g = g' | Err, Err => True | Panic, Panic => True | _, _ => False end).
  { induction l as [|x l IH]; intros k k' gas K K' E; cbn [BlockExec_Model.execute_transactions]; [auto|].
    assert (M : forall e, modify_sent x n e = modify_sent x n (default_tx_env default_gas)) by (intros e; unfold modify_sent; destruct (s_transaction x); reflexivity).
    assert (X : forall f k, ready n env k -> execute_transaction f k x = obind (modify_sent x n (default_tx_env default_gas)) (fun e => omap (fun r => (with_tx k e, r)) (transact (get_spec_id n) env e (m_db k)))).
    { intros f k0 (A1 & A2 & A3 & A4). unfold BlockExec_Model.execute_transaction. rewrite A3, A4, M. destruct (modify_sent x n (default_tx_env default_gas)) as [e| |] eqn:Ex; [|reflexivity..]. cbn [obind].
      unfold create_evm_sent, replay. cbn [with_tx m_block m_spec m_tx m_db]. rewrite A1, A3, A4, Ex. cbn [omap obind fst snd]. destruct (f (s_transaction x)); reflexivity. }
    rewrite (X traced k K), (X traced' k' K'). destruct (modify_sent x n (default_tx_env default_gas)) as [e| |]; cbn [obind]; [|exact Logic.I..]. rewrite E.
    destruct (transact (get_spec_id n) env e (m_db k')) as [[used changes]| |]; cbn [omap obind]; [|exact Logic.I..]. destruct K as (A1 & A2 & A3 & A4), K' as (A1' & A2' & A3' & A4').
    apply IH; [unfold ready; cbn; auto|unfold ready; cbn; auto|]. cbn. rewrite A2, A2', E. reflexivity. }
  destruct B as (K & K' & E). specialize (T (k_transactions b) u u' 0 K K' E). destruct (execute_transactions traced (k_transactions b) u 0) as [[w g]| |], (execute_transactions traced' (k_transactions b) u' 0) as [[w' g']| |]; try (exfalso; exact T); try reflexivity.
  destruct T as [H <-]. cbn [obind]. destruct (negb _); [reflexivity|]. cbn [m_db]. rewrite H. destruct (beneficiaries b (m_db w')) as [[s paid]| |]; [|reflexivity..]. cbn [obind].
  destruct (match increment paid s with Err => Ok s | x => x end) as [s4| |]; cbn [obind]; [|reflexivity..]. destruct (serve_hash (k_header b) s4); reflexivity.
Qed.

(** The counters that decide when to write to the disk. *)
Theorem C99_counts : forall traced m b m', 0 < v_number (x_fields (k_header b)) -> execute_block traced m b = Ok m' ->
  m_executed m' = m_executed m + 1 /\ m_gas m' = m_gas m + x_gas_used (k_header b).
Proof.
  intros traced m b m' L E. unfold BlockExec_Model.execute_block in E. set (n := v_number (x_fields (k_header b))) in *. destruct (N.eqb_spec n 0) as [Z|_]; [lia|].
  set (env := create_block_env blob_price (x_fields (k_header b))) in *. apply obind_ok in E as (m1 & E1 & E). apply obind_ok in E as ([m2 gas] & E2 & E).
  assert (R0 : ready n env (set_evm_environment default_gas blob_price m (k_header b))).
  { unfold ready, set_evm_environment. cbn [m_spec m_clear m_block]. change (v_number (x_fields (k_header b))) with n. split; [reflexivity|]. split; [apply clears_ok|]. split; reflexivity. }
  pose proof (beacon_ok n env (k_header b) _ eq_refl R0) as B. rewrite E1 in B. destruct B as (R1 & X1 & G1 & _). pose proof (all_txs traced n env (k_transactions b) m1 0 R1) as T. rewrite E2 in T. destruct T as (R2 & X2 & G2 & used & Eg & _).
  destruct (N.eqb_spec gas (x_gas_used (k_header b))) as [Eq|]; [|discriminate]. cbn [negb] in E. apply obind_ok in E as ([s paid] & _ & E). apply obind_ok in E as (s4 & _ & E).
  destruct (serve_hash (k_header b) s4); try discriminate. injection E as <-. cbn. cbn in X1, G1. rewrite X2, X1, G2, G1, Eq. auto.
Qed.

(** If the payments fail, the block counts as executed all the same, without them. *)
Theorem C99_payment_refuted : forall traced m b spec env s1 s2 s3 s' paid, let n := v_number (x_fields (k_header b)) in
  0 < n < 22431084 -> Forall (fun x => type_of (s_transaction x) <> 4) (k_transactions b) ->
  rules_at n spec -> sees_block blob_price (x_fields (k_header b)) env -> beacon_root spec env (k_header b) (m_db m) s1 ->
  in_order spec env n s1 (k_transactions b) s2 (x_gas_used (k_header b)) -> beneficiaries b s2 = Ok (s3, paid) ->
  increment paid s3 = Err -> serve_hash (k_header b) s3 = Ok s' ->
  exists m', execute_block traced m b = Ok m' /\ m_db m' = s'.
Proof.
  intros traced m b spec env s1 s2 s3 s' paid n L H7 Q1 Q2 Q3 Q4 Q5 Q6 Q7. apply C99_block_partial; [exact L|exact H7|]. exists spec, env, s1, s2, s3, paid.
  repeat (split; [assumption|]). exists s3. split; [right; auto|exact Q7].
Qed.

(** A transaction of EIP-7702 stops the program. *)
Theorem C99_7702_refuted : forall traced m b s1 pre x rest spec env s2 gas, let n := v_number (x_fields (k_header b)) in
  0 < n -> spec = get_spec_id n -> env = create_block_env blob_price (x_fields (k_header b)) -> beacon_root spec env (k_header b) (m_db m) s1 ->
  k_transactions b = pre ++ x :: rest -> Forall (fun x => type_of (s_transaction x) <> 4) pre -> in_order spec env n s1 pre s2 gas -> type_of (s_transaction x) = 4 ->
  execute_block traced m b = Panic.
Proof.
  intros traced m b s1 pre x rest spec env s2 gas n L -> -> B El H7 O Hx. unfold BlockExec_Model.execute_block. change (v_number (x_fields (k_header b))) with n. destruct (N.eqb_spec n 0) as [Z|_]; [lia|].
  set (env := create_block_env blob_price (x_fields (k_header b))) in *.
  assert (R0 : ready n env (set_evm_environment default_gas blob_price m (k_header b))).
  { unfold ready, set_evm_environment. cbn [m_spec m_clear m_block]. change (v_number (x_fields (k_header b))) with n. split; [reflexivity|]. split; [apply clears_ok|]. split; reflexivity. }
  pose proof (beacon_ok n env (k_header b) _ eq_refl R0) as B'. change (m_db (set_evm_environment default_gas blob_price m (k_header b))) with (m_db m) in B'.
  destruct (apply_beacon_root_contract _ _ _ _ (k_header b)) as [m1| |]; [|destruct (B' _ B)..]. destruct B' as (R1 & _ & _ & _ & B1). cbn [obind].
  assert (s1 = m_db m1) as ->.
  { inversion B as [s La|s root0 b0 e0 g0 changes La Hx0 Hc Hk Hd _ _ He Hb Hg Hbe Ht]; inversion B1 as [s_ La_|s_ root1 b1 e1 gas1 changes1 La1 Hx1 Hc1 Hk1 Hd1 _ _ He1 Hb1 Hg1 Hbe1 Ht1]; subst; try lia; [congruence|].
    assert (e1 = e0) as -> by (rewrite He, He1, Hc, Hc1, Hk, Hk1; congruence). assert (b1 = b0) as -> by (destruct b0, b1; cbn in *; congruence). congruence. }
  assert (G : forall pre m1 g s2 gas, ready n env m1 -> Forall (fun x => type_of (s_transaction x) <> 4) pre -> in_order (get_spec_id n) env n (m_db m1) pre s2 gas -> execute_transactions traced (pre ++ x :: rest) m1 g = Panic).
  { clear - Hx. induction pre as [|y pre IH]; intros m1 g s2 gas R H O; cbn [app BlockExec_Model.execute_transactions].
    - unfold BlockExec_Model.execute_transaction, modify_sent. destruct (s_transaction x); try discriminate. reflexivity.
    - inversion H; subst. inversion O; subst. pose proof (one_tx traced n env m1 y R) as T. destruct (execute_transaction traced m1 y) as [[m2 [usedA changesA]]| |]; cbn [obind].
      + destruct T as (R2 & D2 & _ & _ & ee & Se & Te). match goal with H : says n y ?w, H' : transact _ _ ?w _ = _ |- _ => rewrite (says_unique _ _ _ _ H Se), Te in H'; injection H' as <- <- end.
        pose proof R2 as (_ & C2 & _). eapply IH; [exact R2|assumption|]. cbn [with_db m_db]. rewrite C2, D2. eassumption.
      + destruct T as (ee & Se & Te). match goal with H : says n y ?w, H' : transact _ _ ?w _ = _ |- _ => rewrite (says_unique _ _ _ _ H Se), Te in H'; discriminate end.
      + reflexivity. }
  rewrite El, (G pre m1 0 s2 gas R1 H7 O). reflexivity.
Qed.
End Exec.
Print Assumptions C99_transaction.
Print Assumptions C99_block_partial.
Print Assumptions C99_tracing.
Print Assumptions C99_counts.
Print Assumptions C99_payment_refuted.
Print Assumptions C99_7702_refuted.

(** A toy chain: the state lists what was done to it. *)
Module ToyExec.
Inductive done := Beacon (root : bytes) | Ran (caller : bytes) (number price : N) (cleared : bool) | Paid (a : bytes) (n : N) | Hashed (n : N).
Definition transact (_ : spec_id) (b : block_env) (e : tx_env) (_ : list done) : outcome (N * list (bytes * done)) :=
  Ok (e_gas_limit e, if beqb (e_caller e) system_address then [(system_address, Beacon []); (beacon_roots_address, Beacon (e_data e))] else [(e_caller e, Ran (e_caller e) (be_number b) (charged e (be_basefee b)) false)]).
Definition commit (clear : bool) (l : list (bytes * done)) (s : list done) : list done := s ++ map (fun x => match snd x with Ran a n p _ => Ran a n p clear | d => d end) l.
Definition beneficiaries (b : exec_block) (s : list done) : outcome (list done * list (bytes * N)) := Ok (s, [(v_beneficiary (x_fields (k_header b)), 5)]).
Definition increment (fails : bool) (l : list (bytes * N)) (s : list done) : outcome (list done) := if fails then Err else Ok (s ++ map (fun x => Paid (fst x) (snd x)) l).
Definition serve_hash (h : exec_header) (s : list done) : outcome (list done) := Ok (s ++ [Hashed (v_number (x_fields h))]).

Definition legacy : sent := Build_sent (Legacy (Build_tx_legacy 3 20 21000 (Call [9]) 1 [] None)) [1; 1].
Definition fees : sent := Build_sent (Eip1559 (Build_tx_1559 1 4 50000 100 2 (Call [9]) 1 [] [])) [2; 2].
Definition later_type : sent := Build_sent (Eip7702 (Build_tx_1559 1 4 50000 100 2 (Call [9]) 1 [] []) []) [2; 2].
Definition header (n used : N) : exec_header := mk_exec_header (Build_env_header n 1700000000 30000000 (Some 15) 0 (repeat 7 32) None [6]) used (Some [4; 7]).
Definition execute (fails traced : bool) (n used : N) (l : list sent) : outcome (list done) :=
  let m := mk_machine FRONTIER false (mk_block_env 0 0 0 0 0 None None []) (default_tx_env 30000000) [] 0 0 in
  omap m_db (execute_block 30000000 (fun _ _ => 1) transact commit (fun s => Ok s) beneficiaries (increment fails) serve_hash (fun _ => traced) m (mk_exec_block (header n used) l)).
End ToyExec.
Example C99_example :
  ToyExec.execute false true 19500000 71000 [ToyExec.legacy; ToyExec.fees] =
    Ok [ToyExec.Beacon [4; 7]; ToyExec.Ran [1; 1] 19500000 20 true; ToyExec.Ran [2; 2] 19500000 17 true; ToyExec.Paid [6] 5; ToyExec.Hashed 19500000] /\
  ToyExec.execute false false 100 21000 [ToyExec.legacy] = Ok [ToyExec.Ran [1; 1] 100 20 false; ToyExec.Paid [6] 5; ToyExec.Hashed 100] /\
  ToyExec.execute false true 19500000 71001 [ToyExec.legacy; ToyExec.fees] = Err /\
  ToyExec.execute true true 19500000 21000 [ToyExec.legacy] = Ok [ToyExec.Beacon [4; 7]; ToyExec.Ran [1; 1] 19500000 20 true; ToyExec.Hashed 19500000] /\
  ToyExec.execute false true 19500000 71000 [ToyExec.legacy; ToyExec.later_type] = Panic.
Proof. vm_compute. auto 10. Qed.
