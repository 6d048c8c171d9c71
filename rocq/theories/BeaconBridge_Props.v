(** C106: the bridge of the beacon subnetwork. *)
From Verif Require Import Base Ssz_Model Ssz_Proofs Merkle_Model Merkle_Spec Merkle_Proofs Header_Model Header_Spec Header_Proofs ChainHead_Model BeaconStore_Model BeaconBridge_Model BeaconBridge_Spec BeaconBridge_Proofs.

Section Props.
Context {peer : Type}.
Context (sha : bytes -> bytes) (enc_sums : N -> list summary -> list bytes -> bytes).
Notation world := (world peer).
Notation op := (op peer).
Notation offering := (offering peer).
Notation bridge := (bridge peer).
Notation start := (start (peer := peer)).
Notation step := (step sha enc_sums).
Notation run := (run sha enc_sums).
Notation step_task := (step_task sha enc_sums).
Notation apart := (apart sha enc_sums).
Notation given := (given sha enc_sums).

(** ** What is offered *)
Lemma answered_app ops o (w : world) : answered ops w -> answered (ops ++ o) w.
Proof. intros [i H]. exists i. apply in_or_app. now left. Qed.
Lemma given_app (ops o : list op) k v : given ops k v -> given (ops ++ o) k v.
Proof.
  destruct k; cbn [BeaconBridge_Spec.given].
  - intros ((w & A & E) & (w' & b & A' & F)). split; [exists w|exists w', b]; auto using answered_app.
  - intros (-> & (w & A & E) & (w' & u & r & A' & F)). split; [reflexivity|]. split; [exists w|exists w', u, r]; auto using answered_app.
  - intros (w & u & A & F). exists w, u. auto using answered_app.
  - intros (w & u & A & F). exists w, u. auto using answered_app.
  - intros (w & u & A & F). exists w, u. auto using answered_app.
Qed.
Definition task_ok (ops : list op) (t : task) : Prop :=
  match t with
  | BootCompare r | BootMark r | BootLoad r => exists w, answered ops w /\ w_block_root w = Some r
  | UpdLoad p => exists w, answered ops w /\ w_slot w / 8192 = p
  | FinCompare u => exists w, answered ops w /\ w_fin w = Some u
  | _ => True
  end.
Lemma task_ok_app ops o t : task_ok ops t -> task_ok (ops ++ o) t.
Proof. destruct t; cbn [task_ok]; auto; intros (w & A & E); exists w; auto using answered_app. Qed.
Definition offer_ok (ops : list op) (o : offering) : Prop :=
  given ops (o_key o) (o_value o) /\ exists w, answered ops w /\ w_peers w (o_key o) = Some (o_peers o).
Lemma spawn_ok ops (w : world) k v : answered ops w -> given ops k v -> Forall (offer_ok ops) (spawn_offer_tasks w k v).
Proof.
  intros A G. unfold spawn_offer_tasks. destruct (w_peers w k) as [ps|] eqn:E; repeat constructor; [exact G|]. exists w. auto.
Qed.
Lemma step_ok ops (w : world) s t s' next offers : answered ops w -> task_ok ops t -> step_task w s t = (s', next, offers) ->
  Forall (task_ok ops) (opt_list next) /\ Forall (offer_ok ops) offers.
Proof.
  intros A Ok. destruct t; cbn [BeaconBridge_Model.step_task step_boot step_upd step_opt step_fin step_sum]; cbv zeta; intros T;
    try (injection T as <- <- <-; split; repeat constructor; fail).
  - injection T as <- <- <-. split; [|constructor]. destruct (boot_busy s); repeat constructor.
  - injection T as <- <- <-. split; [|constructor]. destruct (w_block_root w) as [r|] eqn:E; repeat constructor. cbn. eauto.
  - injection T as <- <- <-. split; [|constructor]. destruct (beqb root (boot_root s)); repeat constructor. exact Ok.
  - injection T as <- <- <-. split; [|constructor]. repeat constructor. exact Ok.
  - destruct (w_boot w root) as [b|] eqn:E; injection T as <- <- <-; (split; [repeat constructor|]); [|constructor].
    apply spawn_ok; [exact A|]. split; [exact Ok|]. exists w, b. auto.
  - injection T as <- <- <-. split; [|constructor]. destruct (period s <? w_slot w / 8192); repeat constructor. cbn. eauto.
  - destruct (w_updates w p 1) as [[|u r]|] eqn:E; try (injection T as <- <- <-; split; constructor).
    destruct (upd_slot u / 8192 =? p) eqn:Q; injection T as <- <- <-; (split; [repeat constructor|]); [|constructor].
    apply spawn_ok; [exact A|]. split; [reflexivity|]. split; [exact Ok|]. exists w, u, r. apply N.eqb_eq in Q. auto.
  - unfold step_opt in T. destruct (w_opt w) as [u|] eqn:E; injection T as <- <- <-; (split; [repeat constructor|]); [|constructor].
    apply spawn_ok; [exact A|]. exists w, u. auto.
  - injection T as <- <- <-. split; [|constructor]. destruct (w_fin w) as [u|] eqn:E; repeat constructor. cbn. eauto.
  - destruct (fin_slot s <? hd_slot (fin_header u)); injection T as <- <- <-; (split; [repeat constructor|]); [|constructor].
    apply spawn_ok; [exact A|]. destruct Ok as (w' & A' & E). exists w', u. auto.
  - injection T as <- <- <-. split; [|constructor]. destruct (state_busy s); repeat constructor.
  - injection T as <- <- <-. split; [|constructor]. destruct (w_state_root w); repeat constructor.
  - injection T as <- <- <-. split; [|constructor]. destruct (beqb root (state_root s)); repeat constructor.
  - destruct (w_state w) as [b|] eqn:E; injection T as <- <- <-; (split; [repeat constructor|]); [|constructor].
    apply spawn_ok; [exact A|]. exists w, b. auto.
Qed.
Lemma all_ok_run (ops : list op) : Forall (task_ok ops) (tasks (run start ops)) /\ Forall (offer_ok ops) (log (run start ops)).
Proof.
  induction ops as [|o ops [IT IL]] using rev_ind; [split; constructor|]. rewrite run_snoc.
  assert (IT' : Forall (task_ok (ops ++ [o])) (tasks (run start ops))) by (eapply Forall_impl; [|exact IT]; intros; now apply task_ok_app).
  assert (IL' : Forall (offer_ok (ops ++ [o])) (log (run start ops))).
  { eapply Forall_impl; [|exact IL]. intros x [G (w & A & E)]. split; [now apply given_app|]. exists w. auto using answered_app. }
  destruct o as [|i w].
  - cbn [BeaconBridge_Model.step tasks log]. split; [|exact IL']. apply Forall_app. split; [exact IT'|]. unfold serve_latest. repeat constructor.
  - destruct (nth_error (tasks (run start ops)) i) as [t|] eqn:E.
    2:{ cbn [BeaconBridge_Model.step]. rewrite E. auto. }
    destruct (step_task w (sh (run start ops)) t) as [[s' next] offers] eqn:T.
    destruct (step_split _ _ _ _ _ _ _ _ _ E T) as (l & r & Eb & ->). cbn [tasks log]. rewrite Eb in IT'. apply Forall_app in IT'. destruct IT' as [Fl Fr].
    assert (A : answered (ops ++ [Step i w]) w). { exists i. apply in_or_app. right. now left. }
    destruct (step_ok _ _ _ _ _ _ _ A (Forall_inv Fr) T) as [Fn Fo].
    split; [|now apply Forall_app]. apply Forall_app. split; [exact Fl|]. apply Forall_app. split; [exact Fn|exact (Forall_inv_tail Fr)].
Qed.

(** Everything that is offered, in every interleaving, is what the client gave for its key, and is
    offered to the peers the census selected for that key. *)
Theorem C106_contents : forall (ops : list op) o, In o (log (run start ops)) ->
  given ops (o_key o) (o_value o) /\ exists w, answered ops w /\ w_peers w (o_key o) = Some (o_peers o).
Proof. intros ops o H. exact (proj1 (Forall_forall _ _) (proj2 (all_ok_run ops)) o H). Qed.

(** ** What a node makes of it *)
Section Nodes.
Context (boot_view : fork -> bytes -> option lc_header) (update_view : fork -> bytes -> bool).
Context (fin_view : fork -> bytes -> option (lc_header * lc_header)) (opt_view : fork -> bytes -> option (lc_header * N)).
Context (sums_view : bytes -> option (N * list summary)).
Notation validate := (validate boot_view update_view fin_view opt_view sums_view).
Notation readable := (readable sha enc_sums boot_view update_view fin_view opt_view sums_view).

Lemma split_electra c x : split_fork c (join_fork Electra x) = Ok (Electra, x).
Proof.
  unfold split_fork, join_fork. assert (L : blen (fork_digest Electra ++ x) <? 4 = false) by (rewrite blen_app; change (blen (fork_digest Electra)) with 4; lia). rewrite L. reflexivity.
Qed.
Lemma iff_ok {P : Prop} (b : bool) : (b = true <-> P) -> (Ok b = Ok true <-> P).
Proof. intros H. rewrite <- H. split; [intros E; now injection E|now intros ->]. Qed.
Lemma checked_iff c v : checked c v = true <-> forall f, c = Some f -> f v = true.
Proof.
  destruct c as [f|]; cbn [checked]; [|split; [discriminate|reflexivity]].
  split; [intros H g E; injection E as <-; exact H|intros H; now apply H].
Qed.

(** A node accepts what is offered when its own light client, if it has one, accepts it: the key,
    the fork and the number of items are right.  A bootstrap has to be recent, and of the block
    the node takes to be finalised. *)
Theorem C106_accepted : forall (ops : list op) o e, (forall w, answered ops w -> readable w) -> In o (log (run start ops)) ->
  let good P := validate e (o_key o) (o_value o) = Ok true <-> P in
  match o_key o with
  | KBootstrap r => exists w b, answered ops w /\ w_boot w r = Some b /\
      good (now e - four_months <= hd_slot (boot_header b) /\ forall h, finalized_header e = Some h -> boot_header b = h)
  | KUpdates _ _ => exists u, o_value o = encode_var_list [u] /\ good (forall c, light_client e = Some c -> c u = true)
  | KFinality _ | KOptimistic _ => good (forall c, light_client e = Some c -> c (o_value o) = true)
  | KSummaries _ => good (forall c, summaries_proof e = Some c -> c (o_value o) = true)
  end.
Proof.
  intros ops o e R I good. destruct (C106_contents ops o I) as [G _]. clear I. subst good. destruct (o_key o) as [r|p n|s|s|ep]; cbn [BeaconBridge_Spec.given] in G; cbn [BeaconStore_Model.validate].
  - destruct G as (_ & w & b & A & E & ->). exists w, b. split; [exact A|]. split; [exact E|].
    unfold decode_boot, view. rewrite split_electra. cbn [obind fst snd]. rewrite (proj1 (R w A) r b E). cbn [of_option omap obind].
    destruct (N.ltb_spec (hd_slot (boot_header b)) (now e - four_months)) as [L|L].
    { split; [discriminate|]. intros [L' _]. lia. }
    destruct (finalized_header e) as [h|].
    + apply iff_ok. rewrite andb_true_iff, N.eqb_eq, beqb_spec. split.
      * intros [Q1 Q2]. split; [exact L|]. intros h' Q. injection Q as <-. destruct h, (boot_header b). cbn in *. congruence.
      * intros [_ Q]. rewrite (Q h eq_refl). auto.
    + split; [|reflexivity]. intros _. split; [exact L|]. discriminate.
  - destruct G as (-> & _ & w & u & rest & A & E & _ & ->). exists (join_fork Electra (upd_ssz u)). split; [reflexivity|].
    destruct (proj1 (proj2 (R w A)) p 1 (u :: rest) u E (or_introl eq_refl)) as [V L].
    unfold decode_updates. rewrite decode_encode_var_list.
    2:{ rewrite encode_var_list_len. cbn [concat]. unfold join_fork. rewrite !blen_app. change (2 ^ 32) with 4294967296. change (2 ^ 31) with 2147483648 in L.
        change (blen (fork_digest Electra)) with 4. change (blen (@nil N)) with 0. change (blen [fork_digest Electra ++ upd_ssz u]) with 1. lia. }
    2:{ unfold blen. cbn. lia. }
    cbn [obind omap decode_all]. unfold decode_update, update_fork. rewrite split_electra. cbn [obind fst snd]. rewrite V. cbn [obind omap].
    change (blen [join_fork Electra (upd_ssz u)] =? 1) with true. cbn [negb].
    destruct (light_client e) as [c|]; [|split; [discriminate|reflexivity]].
    apply iff_ok. cbn [forallb]. rewrite split_electra. cbn [andb]. rewrite andb_true_r.
    split; [intros H c' Q; injection Q as <-; exact H|intros H; now apply H].
  - destruct G as (w & u & A & E & <- & ->). destruct (proj1 (proj2 (proj2 (R w A))) u E) as [a V].
    unfold decode_fin, view. rewrite split_electra. cbn [obind fst snd]. rewrite V. cbn [of_option omap obind fork_eqb negb].
    rewrite N.ltb_irrefl. apply iff_ok, checked_iff.
  - destruct G as (w & u & A & E & <- & ->). destruct (proj1 (proj2 (proj2 (proj2 (R w A)))) u E) as [a V].
    unfold decode_opt, view. rewrite split_electra. cbn [obind fst snd]. rewrite V. cbn [of_option omap obind fork_eqb negb].
    rewrite N.eqb_refl. apply iff_ok, checked_iff.
  - destruct G as (w & b & A & E & <- & ->). pose proof (proj2 (proj2 (proj2 (proj2 (R w A)))) b E) as V. cbv zeta in V.
    unfold decode_sums, view. rewrite split_electra. cbn [obind fst snd]. rewrite V. cbn [of_option omap obind fork_eqb negb].
    rewrite N.eqb_refl. apply iff_ok, checked_iff.
Qed.
End Nodes.

(** The proof in the summaries is one of the field of the state, against the root of the state, at
    the index and the depth that nodes check. *)
Theorem C106_summaries_proof : forall (b : bstate) root, length (st_fields b) = 37%nat -> nth_error (st_fields b) 27 = Some root ->
  verify_merkle_proof sha root (summaries_branch sha b) 6 91 (container_root sha (st_fields b)) = true.
Proof.
  intros b root L E. assert (Lg : N.log2_up (blen (st_fields b)) = N.of_nat 6). { apply log2_up_range; [lia|]. rewrite L. cbn. lia. }
  rewrite (container_ok sha _ 6 Lg). pose proof (build_ok sha (st_fields b) 6 27 Lg) as V.
  change (27 mod 2 ^ N.of_nat 6) with 27 in V. rewrite (leaf_at_nth _ 27 root E) in V.
  rewrite <- verify_mod. change (91 mod 2 ^ N.of_nat 6) with (27 mod 2 ^ N.of_nat 6). rewrite verify_mod. exact V.
Qed.

(** ** Once each *)
Lemma run_cons (b : bridge) o l : run b (o :: l) = run (step b o) l. Proof. reflexivity. Qed.
Ltac done_step := cbn [sh tasks log app nth_error firstn skipn state_busy state_root boot_busy boot_root period fin_slot set_state set_boot set_fin set_period].
(** One step of an execution at a time *)
Ltac one := rewrite run_cons; match goal with |- context [run (step ?b ?o) ?l] =>
  let x := eval cbn [BeaconBridge_Model.step sh tasks log app nth_error firstn skipn BeaconBridge_Model.step_task step_boot step_upd step_fin step_sum state_busy state_root boot_busy boot_root period fin_slot set_state set_boot set_fin set_period] in (step b o) in
  change (step b o) with x end.
Ltac tick := rewrite run_cons; match goal with |- context [run (step ?b Tick) ?l] =>
  let x := eval cbn [BeaconBridge_Model.step sh tasks log app serve_latest] in (step b Tick) in change (step b Tick) with x end; unfold serve_latest; cbn [app].
Lemma filter_within {A} (p q : A -> bool) l : (forall x, p x = true -> q x = true) -> filter p (filter q l) = filter p l.
Proof.
  intros H. induction l as [|x l IH]; [reflexivity|]. cbn [filter]. destruct (q x) eqn:Q; cbn [filter].
  - rewrite IH. reflexivity.
  - destruct (p x) eqn:P; [rewrite (H x P) in Q; discriminate|exact IH].
Qed.

(** When the finality update of a tick is dealt with before the next tick, the slots that are
    offered increase: none is offered twice.  The same for the periods of updates. *)
Theorem C106_finality : forall ops : list op, apart finality_task ops -> StronglySorted N.lt (slots_offered (log (run start ops))).
Proof. intros ops A. exact (proj1 (fin_all sha enc_sums ops A)). Qed.
Theorem C106_updates : forall ops : list op, apart update_task ops -> StronglySorted N.lt (periods_offered (log (run start ops))).
Proof. intros ops A. exact (proj1 (upd_all sha enc_sums ops A)). Qed.

(** When a bootstrap begins to be loaded, or is found not to be needed, before the next tick, at
    most one is loaded at a time, however long that takes; and no root is offered twice in a row. *)
Theorem C106_bootstraps : forall ops : list op, apart bootstrap_deciding ops ->
  (length (filter bootstrap_loading (tasks (run start ops))) <= 1)%nat /\
  (census_works ops -> no_repeat (roots_offered (log (run start ops)))).
Proof.
  intros ops A. split; [|intros W; exact (proj1 (boot_all sha enc_sums ops A W))].
  pose proof (flag_all sha enc_sums ops A) as F. cbv zeta in F.
  assert (E : filter bootstrap_loading (tasks (run start ops)) = filter bootstrap_loading (filter boot_task (tasks (run start ops)))).
  { symmetry. apply filter_within. intros t K. unfold boot_task. rewrite K. apply orb_true_r. }
  rewrite E. clear E. destruct (filter boot_task (tasks (run start ops))) as [|t l]; [cbn; lia|].
  cbn [boot_flag] in F. destruct t; try contradiction; try (destruct F as [-> _]; cbn; lia);
    try (destruct F as [[->|[-> _]] _]; cbn; lia); (destruct F as [->|[-> _]]; cbn; lia).
Qed.
(** The same for the states that are loaded. *)
Theorem C106_states : forall ops : list op, apart summaries_deciding ops ->
  (length (filter summaries_loading (tasks (run start ops))) <= 1)%nat.
Proof.
  intros ops A. pose proof (sum_all sha enc_sums ops A) as F. cbv zeta in F.
  assert (E : filter summaries_loading (tasks (run start ops)) = filter summaries_loading (filter sum_task (tasks (run start ops)))).
  { symmetry. apply filter_within. intros t K. unfold sum_task. rewrite K. apply orb_true_r. }
  rewrite E. clear E. destruct (filter sum_task (tasks (run start ops))) as [|t l]; [cbn; lia|].
  cbn [sum_flag] in F. destruct t; try contradiction; try (subst l; cbn; lia); try (destruct F as [-> _]; cbn; lia);
    destruct F as [[->| ->] _]; cbn; lia.
Qed.

(** Refuted without that: two ticks whose answers arrive together offer the same finality update
    twice. *)
Theorem C106_twice_refuted : forall (u : fin) (w : world) ps, w_fin w = Some u -> 0 < hd_slot (fin_header u) ->
  w_peers w (KFinality (hd_slot (fin_header u))) = Some ps ->
  slots_offered (log (run start [Tick; Tick; Step 2 w; Step 7 w; Step 2 w; Step 7 w; Step 2 w; Step 6 w])) =
    [hd_slot (fin_header u); hd_slot (fin_header u)].
Proof.
  intros u w ps E L P. apply N.ltb_lt in L. unfold BeaconBridge_Model.run. cbn [fold_left].
  Ltac gof := cbn [BeaconBridge_Model.step serve_latest BeaconBridge_Model.start fresh sh tasks log app nth_error firstn skipn BeaconBridge_Model.step_task step_fin fin_slot set_fin option_map].
  gof. rewrite E. gof. rewrite E. gof. rewrite L. gof. rewrite L. gof. unfold spawn_offer_tasks. rewrite P. gof. reflexivity.
Qed.

(** Refuted: a failure of the census loses the content for good.  The slot is stored as served. *)
Theorem C106_lost_refuted : forall (ops : list op) i (w : world) u ops', nth_error (tasks (run start ops)) i = Some (FinCompare u) ->
  fin_slot (sh (run start ops)) < hd_slot (fin_header u) -> w_peers w (KFinality (hd_slot (fin_header u))) = None ->
  apart finality_task (ops ++ Step i w :: ops') ->
  ~ In (hd_slot (fin_header u)) (slots_offered (log (run start (ops ++ Step i w :: ops')))).
Proof.
  intros ops i w u ops' E L P A. change (Step i w :: ops') with ([Step i w] ++ ops') in *. rewrite app_assoc in A |- *.
  apply fin_lost_all; [|exact A]. cbv zeta.
  pose proof (fin_all sha enc_sums ops (apart_prefix _ _ _ _ _ (apart_prefix _ _ _ _ _ A))) as J. cbv zeta in J.
  pose proof (fin_all sha enc_sums (ops ++ [Step i w]) (apart_prefix _ _ _ _ _ A)) as J'. cbv zeta in J'.
  split; [exact J'|]. clear J'. rewrite run_snoc. set (b := run start ops) in *.
  assert (T : step_task w (sh b) (FinCompare u) = (sh b, Some (FinKeep (hd_slot (fin_header u))), [])).
  { cbn [BeaconBridge_Model.step_task step_fin]. apply N.ltb_lt in L. rewrite L. unfold spawn_offer_tasks. rewrite P. reflexivity. }
  destruct (step_split _ _ _ _ _ _ _ _ _ E T) as (l & r & Eb & ->). cbn [sh tasks log]. rewrite app_nil_r.
  rewrite Eb, filter_app in J. cbn [filter finality_task] in J.
  destruct J as [_ [[[Q|[Q|[u' Q]]] F]|[m [Q _]]]]; [destruct (filter finality_task l); discriminate|apply one_mid in Q; destruct Q as (_ & _ & Q); discriminate| |apply one_mid in Q; destruct Q as (_ & _ & Q); discriminate].
  apply one_mid in Q. destruct Q as (Ql & Qr & _). split.
  - intros I. rewrite Forall_forall in F. specialize (F _ I). cbn beta in F. lia.
  - right. eexists. split; [|apply N.le_refl]. rewrite !filter_app, Ql, Qr. reflexivity.
Qed.

(** Refuted: one failed download of the state ends the serving of summaries, whatever happens
    later: the flag stays set. *)
Theorem C106_stuck_refuted : forall (ops : list op) i (w : world) r ops', apart summaries_deciding ops ->
  nth_error (tasks (run start ops)) i = Some (SumLoad r) -> w_state w = None ->
  epochs_offered (log (run start (ops ++ Step i w :: ops'))) = epochs_offered (log (run start ops)).
Proof.
  intros ops i w r ops' A E W. change (Step i w :: ops') with ([Step i w] ++ ops'). rewrite app_assoc, run_app. apply stuck_run. rewrite run_snoc.
  pose proof (sum_all sha enc_sums ops A) as F. cbv zeta in F. set (b := run start ops) in *.
  assert (T : step_task w (sh b) (SumLoad r) = (sh b, None, [])) by (cbn [BeaconBridge_Model.step_task step_sum]; now rewrite W).
  destruct (step_split _ _ _ _ _ _ _ _ _ E T) as (l & rr & Eb & ->). cbn [sh tasks log]. rewrite app_nil_r.
  rewrite Eb, filter_app in F. cbn [filter sum_task summaries_deciding summaries_loading orb] in F.
  pose proof F as F1. apply (sum_where sha) in F1. destruct F1 as [Q|(Q & _)]; [|discriminate]. rewrite Q in F. cbn [app sum_flag] in F. destruct F as [F B].
  split; [exact B|]. split; [|reflexivity]. cbn [opt_list app]. rewrite filter_app, Q. cbn [app]. destruct F as [-> | ->]; repeat constructor.
Qed.

(** Refuted: the state that is loaded may be a later one than the root that was named, and is then
    served again when its own root is named. *)
Theorem C106_epoch_twice_refuted : forall (w1 w2 : world) r1 r2 b ps, w_state_root w1 = Some r1 -> w_state_root w2 = Some r2 ->
  r1 <> repeat 0 32 -> r1 <> r2 -> w_state w2 = Some b -> w_peers w2 (KSummaries (st_slot b / 32)) = Some ps ->
  let serial := [Tick; Step 4 w1; Step 4 w1; Step 4 w2; Step 4 w2; Step 4 w2; Step 4 w2; Step 4 w2] in
  let again := [Tick; Step 8 w2; Step 8 w2; Step 8 w2; Step 8 w2; Step 8 w2; Step 8 w2; Step 8 w2] in
  epochs_offered (log (run start (serial ++ again))) = [st_slot b / 32; st_slot b / 32].
Proof.
  intros w1 w2 r1 r2 b ps E1 E2 Z D S P serial again. subst serial again.
  assert (Q1 : beqb r1 (repeat 0 32) = false) by (destruct (beqb r1 (repeat 0 32)) eqn:Q; [apply beqb_spec in Q; contradiction|reflexivity]).
  assert (Q2 : beqb r2 r1 = false) by (destruct (beqb r2 r1) eqn:Q; [apply beqb_spec in Q; congruence|reflexivity]).
  cbn [app serve_latest]. unfold BeaconBridge_Model.start, fresh. tick. one. one. rewrite E1. cbn [option_map]. done_step. one. rewrite Q1. done_step. one. one. rewrite S. done_step. unfold spawn_offer_tasks. rewrite P. one. one.
  tick. one. one. rewrite E2. cbn [option_map]. done_step. one. rewrite Q2. done_step. one. one. rewrite S. done_step. unfold spawn_offer_tasks. rewrite P. one. one. reflexivity.
Qed.

(** ** A tick that is not disturbed *)
Lemma repeat_step (b : bridge) i (w : world) n m : run b (repeat (Step i w) (n + m)) = run (run b (repeat (Step i w) n)) (repeat (Step i w) m).
Proof. rewrite repeat_app. apply run_app. Qed.
Lemma repeat_done (b : bridge) (w : world) n : tasks b = [] -> run b (repeat (Step 0 w) n) = b.
Proof. intros E. induction n as [|n IH]; [reflexivity|]. cbn [repeat BeaconBridge_Model.run fold_left BeaconBridge_Model.step]. rewrite E. exact IH. Qed.

(** After a history in which the bootstraps of different ticks were apart, with no task left and
    no state that failed to load, a tick that finds something new of every type offers all of it,
    each with its own key; a bootstrap that failed to load before does not matter. *)
Theorem C106_tick : forall (ops : list op) (w : world) root b u rest f o sroot st, apart bootstrap_deciding ops ->
  tasks (run start ops) = [] -> state_busy (sh (run start ops)) = false ->
  let known := sh (run start ops) in
  w_block_root w = Some root -> root <> boot_root known -> w_boot w root = Some b ->
  period known < w_slot w / 8192 -> w_updates w (w_slot w / 8192) 1 = Some (u :: rest) -> upd_slot u / 8192 = w_slot w / 8192 ->
  w_fin w = Some f -> fin_slot known < hd_slot (fin_header f) -> w_opt w = Some o ->
  w_state_root w = Some sroot -> sroot <> state_root known -> w_state w = Some st ->
  (forall k, exists ps, w_peers w k = Some ps) ->
  let b' := run (run start ops) (Tick :: repeat (Step 0 w) 21) in
  tasks b' = [] /\
  sh b' = {| period := w_slot w / 8192; boot_root := root; boot_busy := false; fin_slot := hd_slot (fin_header f); state_root := sroot; state_busy := false |} /\
  map (fun x => (o_key x, o_value x)) (log b') = map (fun x => (o_key x, o_value x)) (log (run start ops)) ++
    [(KBootstrap root, join_fork Electra (boot_ssz b));
     (KUpdates (w_slot w / 8192) 1, encode_var_list [join_fork Electra (upd_ssz u)]);
     (KFinality (hd_slot (fin_header f)), join_fork Electra (fin_ssz f));
     (KOptimistic (opt_slot o), join_fork Electra (opt_ssz o));
     (KSummaries (st_slot st / 32), join_fork Electra (enc_sums (st_slot st / 32) (st_summaries st) (summaries_branch sha st)))].
Proof.
  intros ops w root b u rest f o sroot st A T0 B2 known E1 D1 E2 L1 E3 Q3 E4 L2 E5 E6 D2 E7 P b'.
  pose proof (flag_all sha enc_sums ops A) as B1. cbv zeta in B1. rewrite T0 in B1. cbn [filter boot_flag] in B1.
  subst b' known. destruct (run start ops) as [s ts lg]. cbn [sh tasks log] in *. subst ts. destruct s as [p0 r0 y0 f0 sr0 y1]. cbn [period boot_root boot_busy fin_slot state_root state_busy] in *. subst y0 y1.
  assert (K1 : beqb root r0 = false) by (destruct (beqb root r0) eqn:Q; [apply beqb_spec in Q; contradiction|reflexivity]).
  assert (K2 : beqb sroot sr0 = false) by (destruct (beqb sroot sr0) eqn:Q; [apply beqb_spec in Q; contradiction|reflexivity]).
  apply N.ltb_lt in L1, L2. apply N.eqb_eq in Q3.
  destruct (P (KBootstrap root)) as [ps1 P1]. destruct (P (KUpdates (w_slot w / 8192) 1)) as [ps2 P2]. destruct (P (KFinality (hd_slot (fin_header f)))) as [ps3 P3].
  destruct (P (KOptimistic (opt_slot o))) as [ps4 P4]. destruct (P (KSummaries (st_slot st / 32))) as [ps5 P5]. clear P.
  assert (S1 : forall l lg', run {| sh := {| period := p0; boot_root := r0; boot_busy := false; fin_slot := f0; state_root := sr0; state_busy := false |}; tasks := BootStart :: l; log := lg' |} (repeat (Step 0 w) 7) =
     {| sh := {| period := p0; boot_root := root; boot_busy := false; fin_slot := f0; state_root := sr0; state_busy := false |}; tasks := l;
        log := lg' ++ [{| o_key := KBootstrap root; o_value := join_fork Electra (boot_ssz b); o_peers := ps1 |}] |}).
  { intros l lg'. cbn [repeat]. one. one. rewrite E1. done_step. one. rewrite K1. done_step. one. one. rewrite E2. done_step. unfold spawn_offer_tasks. rewrite P1. one. one. cbn [BeaconBridge_Model.run fold_left app]. rewrite !app_nil_r. reflexivity. }
  assert (S2 : forall l lg', run {| sh := {| period := p0; boot_root := root; boot_busy := false; fin_slot := f0; state_root := sr0; state_busy := false |}; tasks := UpdStart :: l; log := lg' |} (repeat (Step 0 w) 3) =
     {| sh := {| period := w_slot w / 8192; boot_root := root; boot_busy := false; fin_slot := f0; state_root := sr0; state_busy := false |}; tasks := l;
        log := lg' ++ [{| o_key := KUpdates (w_slot w / 8192) 1; o_value := encode_var_list [join_fork Electra (upd_ssz u)]; o_peers := ps2 |}] |}).
  { intros l lg'. cbn [repeat]. one. rewrite L1. done_step. one. rewrite E3, Q3. done_step. unfold spawn_offer_tasks. rewrite P2. one. cbn [BeaconBridge_Model.run fold_left app]. rewrite !app_nil_r. reflexivity. }
  assert (S3 : forall l lg', run {| sh := {| period := w_slot w / 8192; boot_root := root; boot_busy := false; fin_slot := f0; state_root := sr0; state_busy := false |}; tasks := FinLoad :: l; log := lg' |} (repeat (Step 0 w) 3) =
     {| sh := {| period := w_slot w / 8192; boot_root := root; boot_busy := false; fin_slot := hd_slot (fin_header f); state_root := sr0; state_busy := false |}; tasks := l;
        log := lg' ++ [{| o_key := KFinality (hd_slot (fin_header f)); o_value := join_fork Electra (fin_ssz f); o_peers := ps3 |}] |}).
  { intros l lg'. cbn [repeat]. one. rewrite E4. cbn [option_map]. done_step. one. rewrite L2. done_step. unfold spawn_offer_tasks. rewrite P3. one. cbn [BeaconBridge_Model.run fold_left app]. rewrite !app_nil_r. reflexivity. }
  assert (S4 : forall l lg', run {| sh := {| period := w_slot w / 8192; boot_root := root; boot_busy := false; fin_slot := hd_slot (fin_header f); state_root := sr0; state_busy := false |}; tasks := OptLoad :: l; log := lg' |} (repeat (Step 0 w) 1) =
     {| sh := {| period := w_slot w / 8192; boot_root := root; boot_busy := false; fin_slot := hd_slot (fin_header f); state_root := sr0; state_busy := false |}; tasks := l;
        log := lg' ++ [{| o_key := KOptimistic (opt_slot o); o_value := join_fork Electra (opt_ssz o); o_peers := ps4 |}] |}).
  { intros l lg'. cbn [repeat]. one. unfold step_opt. rewrite E5. done_step. unfold spawn_offer_tasks. rewrite P4. reflexivity. }
  assert (S5 : forall lg', run {| sh := {| period := w_slot w / 8192; boot_root := root; boot_busy := false; fin_slot := hd_slot (fin_header f); state_root := sr0; state_busy := false |}; tasks := [SumStart]; log := lg' |} (repeat (Step 0 w) 7) =
     {| sh := {| period := w_slot w / 8192; boot_root := root; boot_busy := false; fin_slot := hd_slot (fin_header f); state_root := sroot; state_busy := false |}; tasks := [];
        log := lg' ++ [{| o_key := KSummaries (st_slot st / 32); o_value := join_fork Electra (enc_sums (st_slot st / 32) (st_summaries st) (summaries_branch sha st)); o_peers := ps5 |}] |}).
  { intros lg'. cbn [repeat]. one. one. rewrite E6. cbn [option_map]. done_step. one. rewrite K2. done_step. one. one. rewrite E7. done_step. unfold spawn_offer_tasks. rewrite P5. one. one. cbn [BeaconBridge_Model.run fold_left app]. rewrite !app_nil_r. reflexivity. }
  change (Tick :: repeat (Step 0 w) 21) with ([Tick] ++ repeat (Step 0 w) (7 + (3 + (3 + (1 + 7))))). rewrite run_app.
  match goal with |- context [run ?b [Tick]] => change (run b [Tick]) with {| sh := sh b; tasks := serve_latest; log := lg |} end. unfold serve_latest. cbn [sh].
  rewrite !repeat_step, S1, S2, S3, S4, S5. cbn [tasks sh log]. split; [reflexivity|]. split; [reflexivity|].
  rewrite <- !app_assoc, !map_app. reflexivity.
Qed.
End Props.

Print Assumptions C106_contents.
Print Assumptions C106_accepted.
Print Assumptions C106_summaries_proof.
Print Assumptions C106_finality.
Print Assumptions C106_updates.
Print Assumptions C106_bootstraps.
Print Assumptions C106_states.
Print Assumptions C106_twice_refuted.
Print Assumptions C106_lost_refuted.
Print Assumptions C106_stuck_refuted.
Print Assumptions C106_epoch_twice_refuted.
Print Assumptions C106_tick.

(** Concrete cases: two ticks, in which the bootstrap of the first is loaded across the second.
    The encodings are the lists of the parts. *)
Module Toy.
Definition sha (b : bytes) : bytes := [fold_left (fun a x => N.land (a * 37 + x) 1048575) b 7].
Definition enc_sums (e : N) (l : list summary) (p : list bytes) : bytes := [e].
Definition hdr (n : N) : lc_header := {| hd_slot := n; hd_rest := [n mod 256] |}.
Definition w (n : N) : world N := {|
  w_slot := n; w_block_root := Some (repeat n 32); w_boot := fun r => Some {| boot_header := hdr n; boot_ssz := hd_slot (hdr n) :: [n mod 256] |};
  w_updates := fun p _ => Some [{| upd_slot := p * 8192 + 5; upd_ssz := [p] |}];
  w_opt := Some {| opt_slot := n; opt_ssz := [n; n] |}; w_fin := Some {| fin_header := hdr n; fin_ssz := [n; n; n mod 256] |};
  w_state_root := Some (repeat (n + 1) 32); w_state := Some {| st_slot := n; st_summaries := []; st_fields := [] |};
  w_peers := fun _ => Some [1; 2] |}.
Definition no_state (n : N) : world N := {|
  w_slot := n; w_block_root := w_block_root (w n); w_boot := w_boot (w n); w_updates := w_updates (w n); w_opt := w_opt (w n); w_fin := w_fin (w n);
  w_state_root := w_state_root (w n); w_state := None; w_peers := w_peers (w n) |}.
Definition no_peers (n : N) : world N := {|
  w_slot := n; w_block_root := w_block_root (w n); w_boot := w_boot (w n); w_updates := w_updates (w n); w_opt := w_opt (w n); w_fin := w_fin (w n);
  w_state_root := w_state_root (w n); w_state := w_state (w n); w_peers := fun _ => None |}.
Definition run := run sha enc_sums (start (peer := N)).
(** The first tick: all but the bootstrap end, and that one is waiting to load. *)
Definition first : list (op N) := Tick :: repeat (Step 1 (w 9000)) 14 ++ repeat (Step 0 (w 9000)) 4.
Definition ops : list (op N) := first ++ Tick :: repeat (Step 1 (w 9032)) 20 ++ repeat (Step 0 (w 9032)) 3.
(** [apart], as a check of every prefix *)
Fixpoint apart_from (is : task -> bool) (b : bridge N) (l : list (op N)) : bool :=
  match l with
  | [] => true
  | o :: l => (match o with Tick => negb (existsb is (tasks b)) | _ => true end) && apart_from is (BeaconBridge_Model.step sha enc_sums b o) l
  end.
Lemma apart_ok is l : apart_from is start l = true -> apart sha enc_sums is l.
Proof.
  intros H before after ->. revert H. generalize (start (peer := N)). induction before as [|o before IH]; intros b H.
  - cbn [app apart_from] in H. apply andb_prop in H. destruct H as [H _]. apply negb_true_iff in H. exact H.
  - cbn [app apart_from] in H. apply andb_prop in H. destruct H as [_ H]. exact (IH _ H).
Qed.
End Toy.

Example C106_apart_example :
  apart Toy.sha Toy.enc_sums finality_task Toy.ops /\ apart Toy.sha Toy.enc_sums update_task Toy.ops /\
  apart Toy.sha Toy.enc_sums bootstrap_deciding Toy.ops /\ apart Toy.sha Toy.enc_sums summaries_deciding Toy.ops /\
  census_works Toy.ops /\ tasks (Toy.run Toy.first) = [BootLoad (repeat 9000 32)] /\
  slots_offered (log (Toy.run Toy.ops)) = [9000; 9032] /\ periods_offered (log (Toy.run Toy.ops)) = [1] /\
  roots_offered (log (Toy.run Toy.ops)) = [repeat 9000 32] /\ epochs_offered (log (Toy.run Toy.ops)) = [281; 282] /\ tasks (Toy.run Toy.ops) = [].
Proof.
  split; [apply Toy.apart_ok; vm_compute; reflexivity|]. split; [apply Toy.apart_ok; vm_compute; reflexivity|].
  split; [apply Toy.apart_ok; vm_compute; reflexivity|]. split; [apply Toy.apart_ok; vm_compute; reflexivity|].
  split.
  { intros w k [i H]. assert (Forall (fun o => match o with Step _ w => forall k, w_peers w k <> None | Tick => True end) Toy.ops) as F.
    { unfold Toy.ops, Toy.first. cbn [repeat app]. repeat constructor; discriminate. }
    rewrite Forall_forall in F. exact (F _ H k). }
  repeat split; vm_compute; reflexivity.
Qed.
Example C106_accepted_example :
  let boot (_ : fork) b := match b with s :: r => Some {| hd_slot := s; hd_rest := r |} | [] => None end in
  let fin (_ : fork) b := match b with a :: s :: r => Some ({| hd_slot := a; hd_rest := r |}, {| hd_slot := s; hd_rest := r |}) | _ => None end in
  let opt (_ : fork) b := match b with a :: s :: r => Some ({| hd_slot := a; hd_rest := r |}, s) | _ => None end in
  let sums b := match b with e :: _ => Some (e, []) | [] => None end in
  let e := {| now := 9100; finalized_header := Some (Toy.hdr 9000); light_client := Some (fun _ => true); summaries_proof := Some (fun _ => true) |} in
  readable Toy.sha Toy.enc_sums boot (fun _ _ => true) fin opt sums (Toy.w 9000) /\
  map (fun o => validate boot (fun _ _ => true) fin opt sums e (o_key o) (o_value o)) (log (Toy.run (Tick :: repeat (Step 0 (Toy.w 9000)) 21))) =
    repeat (Ok true) 5.
Proof.
  cbv zeta. split; [|vm_compute; reflexivity].
  split; [intros r b E; injection E as <-; reflexivity|].
  split. { intros p n l u E I. injection E as <-. destruct I as [<-|[]]. split; reflexivity. }
  split; [intros u E; injection E as <-; eexists; reflexivity|].
  split; [intros u E; injection E as <-; eexists; reflexivity|].
  intros b E. injection E as <-. reflexivity.
Qed.
Example C106_lost_example : let before := [Tick; Step 2 (Toy.w 9000)] in
  nth_error (tasks (Toy.run before)) 2 = Some (FinCompare {| fin_header := Toy.hdr 9000; fin_ssz := [9000; 9000; 40] |}) /\
  apart Toy.sha Toy.enc_sums finality_task (before ++ Step 2 (Toy.no_peers 9000) :: Step 2 (Toy.w 9000) :: Tick :: repeat (Step 6 (Toy.w 9000)) 2) /\
  log (Toy.run (before ++ Step 2 (Toy.no_peers 9000) :: Step 2 (Toy.w 9000) :: Tick :: repeat (Step 6 (Toy.w 9000)) 2)) = [].
Proof. split; [reflexivity|]. split; [apply Toy.apart_ok; vm_compute; reflexivity|]. vm_compute. reflexivity. Qed.
Example C106_stuck_example : let before := Tick :: repeat (Step 4 (Toy.w 9000)) 4 in
  nth_error (tasks (Toy.run before)) 4 = Some (SumLoad (repeat 9001 32)) /\ apart Toy.sha Toy.enc_sums summaries_deciding before /\
  epochs_offered (log (Toy.run (before ++ Step 4 (Toy.no_state 9000) :: Tick :: repeat (Step 0 (Toy.w 9032)) 40))) = [] /\
  epochs_offered (log (Toy.run (before ++ Step 4 (Toy.w 9000) :: Tick :: repeat (Step 0 (Toy.w 9032)) 40))) = [281; 282].
Proof. split; [reflexivity|]. split; [apply Toy.apart_ok; vm_compute; reflexivity|]. split; vm_compute; reflexivity. Qed.
Example C106_tick_example : let b := Toy.run (Tick :: repeat (Step 0 (Toy.w 9000)) 21) in
  tasks b = [] /\ map (fun o => o_key o) (log b) = [KBootstrap (repeat 9000 32); KUpdates 1 1; KFinality 9000; KOptimistic 9000; KSummaries 281].
Proof. split; vm_compute; reflexivity. Qed.
Example C106_summaries_proof_example : let b := {| st_slot := 0; st_summaries := []; st_fields := map (fun i => repeat i 32) (map N.of_nat (seq 0 37)) |} in
  length (st_fields b) = 37%nat /\ nth_error (st_fields b) 27 = Some (repeat 27 32) /\ length (summaries_branch Toy.sha b) = 6%nat.
Proof. repeat split; vm_compute; reflexivity. Qed.
