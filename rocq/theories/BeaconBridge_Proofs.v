(** Lemmas for the bridge of the beacon subnetwork. *)
From Verif Require Import Base Ssz_Model Merkle_Model Header_Model ChainHead_Model BeaconStore_Model BeaconBridge_Model BeaconBridge_Spec.

Section Proofs.
Context {peer : Type}.
Context (sha : bytes -> bytes) (enc_sums : N -> list summary -> list bytes -> bytes).
Notation world := (world peer).
Notation op := (op peer).
Notation offering := (offering peer).
Notation bridge := (bridge peer).
Notation start := (start (peer := peer)).
Notation step := (step sha enc_sums).
Notation run := (run sha enc_sums).
Notation step_task := (step_task sha enc_sums).
Notation apart := (apart sha enc_sums).

Definition opt_list {A} (o : option A) : list A := match o with Some x => [x] | None => [] end.

Lemma split_at {A} (l : list A) i x : nth_error l i = Some x -> l = firstn i l ++ x :: skipn (S i) l.
Proof. revert i. induction l as [|y l IH]; intros [|i] E; try discriminate. - injection E as ->. reflexivity. - cbn [firstn skipn app]. f_equal. apply IH, E. Qed.

Lemma run_app (b : bridge) o o' : run b (o ++ o') = run (run b o) o'. Proof. apply fold_left_app. Qed.
Lemma run_snoc (b : bridge) o x : run b (o ++ [x]) = step (run b o) x. Proof. apply fold_left_app. Qed.
Lemma step_split (b : bridge) i w t s next offers : nth_error (tasks b) i = Some t -> step_task w (sh b) t = (s, next, offers) ->
  exists l r, tasks b = l ++ t :: r /\ step b (Step i w) = {| sh := s; tasks := l ++ opt_list next ++ r; log := log b ++ offers |}.
Proof.
  intros E T. exists (firstn i (tasks b)), (skipn (S i) (tasks b)). split; [apply split_at, E|].
  cbn [BeaconBridge_Model.step]. rewrite E, T. reflexivity.
Qed.
Lemma apart_prefix is (a b : list op) : apart is (a ++ b) -> apart is a.
Proof. intros H x y ->. apply (H x (y ++ b)). now rewrite <- app_assoc. Qed.

(** Induction over executions for one type of task *)
Lemma kind_induction {V X} (K is : task -> bool) (vw : shared -> V) (pj : offering -> list X) (Pw : world -> Prop)
  (I : V -> list task -> list X -> Prop) :
  (forall t, is t = true -> K t = true) ->
  (forall v ts xs, I v ts xs -> existsb is ts = false -> I v (ts ++ filter K serve_latest) xs) ->
  (forall w s s' t next offers a b xs, Pw w -> K t = true -> step_task w s t = (s', next, offers) ->
     I (vw s) (a ++ t :: b) xs -> I (vw s') (a ++ filter K (opt_list next) ++ b) (xs ++ flat_map pj offers)) ->
  (forall w s s' t next offers, K t = false -> step_task w s t = (s', next, offers) ->
     vw s' = vw s /\ filter K (opt_list next) = [] /\ flat_map pj offers = []) ->
  forall ops ops', let at_ o := let b := run start o in I (vw (sh b)) (filter K (tasks b)) (flat_map pj (log b)) in
  at_ ops -> apart is (ops ++ ops') -> (forall w, answered ops' w -> Pw w) -> at_ (ops ++ ops').
Proof.
  intros Sub Tk St Oth ops ops' at_. induction ops' as [|o ops' IH] using rev_ind; intros B A W; [now rewrite app_nil_r|].
  rewrite app_assoc in A |- *.
  assert (IH' : at_ (ops ++ ops')). { apply IH; [exact B|eapply apart_prefix; exact A|]. intros w [i Hi]. apply W. exists i. apply in_or_app. now left. }
  clear IH. unfold at_ in *. rewrite run_snoc. set (b := run start (ops ++ ops')) in *.
  destruct o as [|i w].
  - cbn [BeaconBridge_Model.step sh tasks log]. rewrite filter_app. apply Tk; [exact IH'|].
    specialize (A (ops ++ ops') [] eq_refl). fold b in A.
    destruct (existsb is (filter K (tasks b))) eqn:E; [|reflexivity]. apply existsb_exists in E. destruct E as (t & J & Q).
    apply filter_In in J. rewrite <- A. symmetry. apply existsb_exists. exists t. tauto.
  - destruct (nth_error (tasks b) i) as [t|] eqn:E.
    2:{ cbn [BeaconBridge_Model.step]. rewrite E. exact IH'. }
    destruct (step_task w (sh b) t) as [[s' next] offers] eqn:T.
    destruct (step_split b i w t s' next offers E T) as (l & r & Eb & ->). cbn [sh tasks log].
    rewrite Eb in IH'. rewrite filter_app in IH'. cbn [filter] in IH'. rewrite !filter_app, flat_map_app.
    destruct (K t) eqn:Kt.
    + eapply St; [|exact Kt|exact T|exact IH']. apply W. exists i. apply in_or_app. right. now left.
    + destruct (Oth _ _ _ _ _ _ Kt T) as (-> & -> & ->). cbn [app]. now rewrite app_nil_r.
Qed.

(** The steps, as equations *)
Ltac steps T := match type of T with step_task ?w ?s ?t = _ => destruct t; cbn [BeaconBridge_Model.step_task] in T; try discriminate end.
Ltac open_step T := unfold step_boot, step_upd, step_opt, step_fin, step_sum, spawn_offer_tasks, option_map in T; cbv zeta in T;
  repeat match type of T with context [match ?x with _ => _ end] => let Q := fresh "Q" in destruct x eqn:Q end; apply pair_equal_spec in T; destruct T as [T ?T']; apply pair_equal_spec in T; destruct T as [? ?]; subst.
Ltac other_kind := let T := fresh in let Kt := fresh in intros ? ? ? t ? ? Kt T; destruct t; try discriminate Kt; clear Kt;
  cbn [BeaconBridge_Model.step_task] in T; open_step T; repeat split.

(** ** Finality updates *)
Definition fin_inv (slot : N) (ts : list task) (xs : list N) : Prop :=
  StronglySorted N.lt xs /\
  (((ts = [] \/ ts = [FinLoad] \/ exists u, ts = [FinCompare u]) /\ Forall (fun x => x <= slot) xs) \/
   exists n, ts = [FinKeep n] /\ slot < n /\ Forall (fun x => x <= n) xs).
Lemma sorted_snoc l x : StronglySorted N.lt l -> Forall (fun y => y < x) l -> StronglySorted N.lt (l ++ [x]).
Proof.
  induction 1 as [|y l H IH F]; intros G; cbn [app]; [repeat constructor|]. constructor; [apply IH, (Forall_inv_tail G)|].
  apply Forall_app. split; [exact F|]. repeat constructor. exact (Forall_inv G).
Qed.
Lemma one_mid {A} (a b : list A) x y : a ++ x :: b = [y] -> a = [] /\ b = [] /\ x = y.
Proof. destruct a as [|z [|z' a]]; intros E; [injection E; auto|discriminate|discriminate]. Qed.
Lemma fin_step (w : world) s s' t next offers a b xs : finality_task t = true -> step_task w s t = (s', next, offers) ->
  fin_inv (fin_slot s) (a ++ t :: b) xs ->
  fin_inv (fin_slot s') (a ++ filter finality_task (opt_list next) ++ b) (xs ++ flat_map (fun o => match o_key o with KFinality n => [n] | _ => [] end) offers).
Proof.
  intros K T [Ss J]. destruct t; try discriminate K; cbn [BeaconBridge_Model.step_task step_fin] in T.
  - (* load *) destruct J as [[[E|[E|[u E]]] F]|[n [E _]]]; [destruct a; discriminate|apply one_mid in E; destruct E as (-> & -> & _)|apply one_mid in E; destruct E as (_ & _ & E); discriminate|apply one_mid in E; destruct E as (_ & _ & E); discriminate].
    injection T as <- <- <-. cbn [flat_map app]. rewrite ?app_nil_r. split; [exact Ss|]. left. split; [|exact F].
    destruct (w_fin w) as [u|]; cbn [option_map opt_list filter finality_task app]; [right; right; now exists u|now left].
  - (* compare *) destruct J as [[[E|[E|[u' E]]] F]|[n [E _]]]; [destruct a; discriminate|apply one_mid in E; destruct E as (_ & _ & E); discriminate|apply one_mid in E; destruct E as (-> & -> & E); injection E as <-|apply one_mid in E; destruct E as (_ & _ & E); discriminate].
    destruct (fin_slot s <? hd_slot (fin_header u)) eqn:L.
    + injection T as <- <- <-. cbn [opt_list filter finality_task app]. unfold spawn_offer_tasks.
      assert (Fn : Forall (fun x => x < hd_slot (fin_header u)) xs). { eapply Forall_impl; [|exact F]. cbn. intros. lia. }
      destruct (w_peers w (KFinality (hd_slot (fin_header u)))) as [ps|]; cbn [flat_map o_key app].
      * split; [now apply sorted_snoc|]. right. eexists. split; [reflexivity|]. split; [lia|]. apply Forall_app. split; [|repeat constructor; lia].
        eapply Forall_impl; [|exact Fn]. cbn. intros. lia.
      * rewrite ?app_nil_r. split; [exact Ss|]. right. eexists. split; [reflexivity|]. split; [lia|]. eapply Forall_impl; [|exact Fn]. cbn. intros. lia.
    + injection T as <- <- <-. cbn [opt_list filter app flat_map]. rewrite ?app_nil_r. split; [exact Ss|]. left. split; [now left|exact F].
  - (* keep *) destruct J as [[[E|[E|[u' E]]] F]|[m [E [L F]]]]; [destruct a; discriminate|apply one_mid in E; destruct E as (_ & _ & E); discriminate|apply one_mid in E; destruct E as (_ & _ & E); discriminate|].
    apply one_mid in E. destruct E as (-> & -> & E). injection E as <-.
    injection T as <- <- <-. cbn [opt_list filter app flat_map set_fin fin_slot]. rewrite ?app_nil_r. split; [exact Ss|]. left. split; [now left|exact F].
Qed.
Lemma fin_tick v ts xs : fin_inv v ts xs -> existsb finality_task ts = false -> fin_inv v (ts ++ filter finality_task serve_latest) xs.
Proof.
  intros [Ss J] E. split; [exact Ss|]. destruct J as [[[->|[->|[u ->]]] F]|[n [-> _]]]; try discriminate. left. split; [|exact F]. right. now left.
Qed.
Lemma fin_all ops : apart finality_task ops ->
  let b := run start ops in fin_inv (fin_slot (sh b)) (filter finality_task (tasks b)) (slots_offered (log b)).
Proof.
  intros A. apply (kind_induction finality_task finality_task fin_slot (fun o => match o_key o with KFinality n => [n] | _ => [] end) (fun _ => True) fin_inv) with (ops := []); try exact A; try tauto.
  - apply fin_tick.
  - intros w s s' t next offers a b xs _. apply fin_step.
  - other_kind.
  - split; [constructor|]. left. split; [now left|constructor].
Qed.
(** What was not offered when its turn came is never offered. *)
Definition fin_lost (n : N) (slot : N) (ts : list task) (xs : list N) : Prop :=
  fin_inv slot ts xs /\ ~ In n xs /\ (n <= slot \/ exists m, ts = [FinKeep m] /\ n <= m).
Lemma fin_lost_step n (w : world) s s' t next offers a b xs : finality_task t = true -> step_task w s t = (s', next, offers) ->
  fin_lost n (fin_slot s) (a ++ t :: b) xs ->
  fin_lost n (fin_slot s') (a ++ filter finality_task (opt_list next) ++ b) (xs ++ flat_map (fun o => match o_key o with KFinality n => [n] | _ => [] end) offers).
Proof.
  intros K T (J & Nx & M). split; [eapply fin_step; eassumption|].
  destruct t; try discriminate K; cbn [BeaconBridge_Model.step_task step_fin] in T.
  - injection T as <- <- <-. cbn [flat_map]. rewrite ?app_nil_r. split; [exact Nx|]. left. destruct M as [M|[m [E _]]]; [exact M|].
    apply one_mid in E. destruct E as (_ & _ & E). discriminate.
  - assert (M' : n <= fin_slot s). { destruct M as [M|[m [E _]]]; [exact M|]. apply one_mid in E. destruct E as (_ & _ & E). discriminate. }
    destruct (fin_slot s <? hd_slot (fin_header u)) eqn:L; injection T as <- <- <-; [|cbn [flat_map]; rewrite ?app_nil_r; auto].
    split; [|now left]. unfold spawn_offer_tasks. destruct (w_peers w _); cbn [flat_map o_key app]; [|now rewrite ?app_nil_r].
    rewrite in_app_iff. intros [I|[I|[]]]; [now apply Nx|lia].
  - injection T as <- <- <-. cbn [flat_map set_fin fin_slot]. rewrite ?app_nil_r. split; [exact Nx|]. left.
    destruct J as [_ [[[E|[E|[u E]]] _]|[m [E [L _]]]]]; try (apply one_mid in E; destruct E as (_ & _ & E); discriminate); [destruct a; discriminate|].
    apply one_mid in E. destruct E as (-> & -> & E). injection E as <-.
    destruct M as [M|[m [E M]]]; [lia|]. cbn [app] in E. injection E as ->. exact M.
Qed.
Lemma fin_lost_all n ops ops' : (let b := run start ops in fin_lost n (fin_slot (sh b)) (filter finality_task (tasks b)) (slots_offered (log b))) ->
  apart finality_task (ops ++ ops') -> ~ In n (slots_offered (log (run start (ops ++ ops')))).
Proof.
  intros B A. pose proof (kind_induction finality_task finality_task fin_slot (fun o => match o_key o with KFinality n => [n] | _ => [] end) (fun _ => True) (fin_lost n)) as G.
  refine (proj1 (proj2 (G _ _ _ _ ops ops' B A _))); try tauto; clear G.
  - intros v ts xs (J & Nx & M) E. split; [apply fin_tick; assumption|]. split; [exact Nx|]. left.
    destruct M as [M|[m [-> _]]]; [exact M|discriminate].
  - intros w s s' t next offers a b xs _. apply fin_lost_step.
  - other_kind.
Qed.

(** ** Updates *)
Definition upd_inv (p : N) (ts : list task) (xs : list N) : Prop :=
  StronglySorted N.lt xs /\
  (((ts = [] \/ ts = [UpdStart] \/ exists q, ts = [UpdLoad q] /\ p < q) /\ Forall (fun x => x <= p) xs) \/
   exists q, ts = [UpdKeep q] /\ p < q /\ Forall (fun x => x <= q) xs).
Lemma upd_step (w : world) s s' t next offers a b xs : update_task t = true -> step_task w s t = (s', next, offers) ->
  upd_inv (period s) (a ++ t :: b) xs ->
  upd_inv (period s') (a ++ filter update_task (opt_list next) ++ b) (xs ++ flat_map (fun o => match o_key o with KUpdates n _ => [n] | _ => [] end) offers).
Proof.
  intros K T [Ss J]. destruct t; try discriminate K; cbn [BeaconBridge_Model.step_task step_upd] in T.
  - destruct J as [[[E|[E|[u [E _]]]] F]|[n [E _]]]; [destruct a; discriminate|apply one_mid in E; destruct E as (-> & -> & _)|apply one_mid in E; destruct E as (_ & _ & E); discriminate|apply one_mid in E; destruct E as (_ & _ & E); discriminate].
    injection T as <- <- <-. cbn [flat_map app]. rewrite ?app_nil_r. split; [exact Ss|]. left. split; [|exact F].
    destruct (period s <? w_slot w / 8192) eqn:L; cbn [opt_list filter update_task app]; [right; right|now left].
    eexists. split; [reflexivity|lia].
  - destruct J as [[[E|[E|[u' [E L]]]] F]|[n [E _]]]; [destruct a; discriminate|apply one_mid in E; destruct E as (_ & _ & E); discriminate|apply one_mid in E; destruct E as (-> & -> & E); injection E as <-|apply one_mid in E; destruct E as (_ & _ & E); discriminate].
    assert (Fn : Forall (fun x => x < p) xs). { eapply Forall_impl; [|exact F]. cbn. intros. lia. }
    assert (Fm : Forall (fun x => x <= p) xs). { eapply Forall_impl; [|exact F]. cbn. intros. lia. }
    assert (Stop : upd_inv (period s) ([] ++ filter update_task (opt_list None) ++ []) (xs ++ flat_map (fun o : offering => match o_key o with KUpdates n _ => [n] | _ => [] end) [])).
    { cbn [flat_map opt_list filter app]. rewrite ?app_nil_r. split; [exact Ss|]. left. split; [now left|exact F]. }
    destruct (w_updates w p 1) as [[|u r]|]; try (injection T as <- <- <-; exact Stop).
    destruct (upd_slot u / 8192 =? p); injection T as <- <- <-; [|exact Stop]. clear Stop.
    cbn [opt_list filter update_task app]. unfold spawn_offer_tasks. destruct (w_peers w _) as [ps|]; cbn [flat_map o_key app].
    * split; [now apply sorted_snoc|]. right. eexists. split; [reflexivity|]. split; [exact L|]. apply Forall_app. split; [exact Fm|repeat constructor; lia].
    * rewrite ?app_nil_r. split; [exact Ss|]. right. eexists. split; [reflexivity|]. split; [exact L|exact Fm].
  - destruct J as [[[E|[E|[u' [E _]]]] F]|[m [E [L F]]]]; [destruct a; discriminate|apply one_mid in E; destruct E as (_ & _ & E); discriminate|apply one_mid in E; destruct E as (_ & _ & E); discriminate|].
    apply one_mid in E. destruct E as (-> & -> & E). injection E as <-.
    injection T as <- <- <-. cbn [opt_list filter app flat_map set_period period]. rewrite ?app_nil_r. split; [exact Ss|]. left. split; [now left|exact F].
Qed.
Lemma upd_all ops : apart update_task ops ->
  let b := run start ops in upd_inv (period (sh b)) (filter update_task (tasks b)) (periods_offered (log b)).
Proof.
  intros A. apply (kind_induction update_task update_task period (fun o => match o_key o with KUpdates n _ => [n] | _ => [] end) (fun _ => True) upd_inv) with (ops := []); try exact A; try tauto.
  - intros v ts xs [Ss J] E. split; [exact Ss|]. destruct J as [[[->|[->|[u [-> _]]]] F]|[n [-> _]]]; try discriminate. left. split; [|exact F]. right. now left.
  - intros w s s' t next offers a b xs _. apply upd_step.
  - other_kind.
  - split; [constructor|]. left. split; [now left|constructor].
Qed.

(** ** Bootstraps *)
Definition boot_task (t : task) : bool := bootstrap_deciding t || bootstrap_loading t.
Definition last_is (xs : list bytes) (r : bytes) : Prop := forall l x, xs = l ++ [x] -> x = r.
Definition waits (busy : bool) (l : list task) : Prop := l = [] \/ (l = [BootStart] /\ busy = true).
Definition boot_inv (v : bytes * bool) (ts : list task) (xs : list bytes) : Prop :=
  let '(root, busy) := v in no_repeat xs /\
  match ts with
  | [] => busy = false /\ last_is xs root
  | BootStart :: l | BootAsk :: l | BootCompare _ :: l => l = [] /\ busy = false /\ last_is xs root
  | BootMark r :: l => l = [] /\ busy = false /\ last_is xs root /\ r <> root
  | BootFailed :: l => waits busy l /\ last_is xs root
  | BootLoad r :: l => waits busy l /\ busy = true /\ last_is xs root /\ r <> root
  | BootKeep r :: l => waits busy l /\ busy = true /\ last_is xs r
  | BootDone :: l => waits busy l /\ busy = true /\ last_is xs root
  | _ => False
  end.
Lemma no_repeat_snoc {A} (xs : list A) r : no_repeat xs -> (forall l x, xs = l ++ [x] -> x <> r) -> no_repeat (xs ++ [r]).
Proof.
  intros H L a x y b E. destruct (@exists_last _ (y :: b)) as (b' & z & Eb); [discriminate|].
  destruct b' as [|y' b'].
  - cbn [app] in Eb. injection Eb as -> ->.
    change (a ++ [x; z]) with (a ++ [x] ++ [z]) in E. rewrite app_assoc in E. apply app_inj_tail in E. destruct E as [E <-].
    exact (L a x E).
  - cbn [app] in Eb. injection Eb as <- Eb. rewrite Eb in E.
    change (a ++ x :: y :: b' ++ [z]) with (a ++ (x :: y :: b') ++ [z]) in E. rewrite app_assoc in E. apply app_inj_tail in E. destruct E as [E _].
    exact (H a x y b' E).
Qed.
Lemma last_is_snoc xs r : last_is (xs ++ [r]) r.
Proof. intros l x E. apply app_inj_tail in E. now destruct E. Qed.
(** The task that makes a step is the first, or the new one behind a task that loads. *)
Lemma boot_where v a t b xs : boot_inv v (a ++ t :: b) xs ->
  a = [] \/ (t = BootStart /\ b = [] /\ snd v = true /\ exists g, a = [g]).
Proof.
  destruct v as [root busy]. destruct a as [|g a]; [now left|]. right.
  cbn [app boot_inv] in H. destruct H as [_ H]. cbn [snd].
  assert (W : waits busy (a ++ t :: b) -> t = BootStart /\ b = [] /\ busy = true /\ exists g', g :: a = [g']).
  { intros [E|[E Q]]; [destruct a; discriminate|]. apply one_mid in E. destruct E as (-> & -> & ->). repeat split; [exact Q|now exists g]. }
  destruct g; try contradiction; try (destruct H as [E _]; destruct a; discriminate); apply W; tauto.
Qed.
Lemma beqb_neq a b : beqb a b = false -> a <> b.
Proof. intros E ->. rewrite beqb_refl in E. discriminate. Qed.
Lemma boot_step (w : world) s s' t next offers a b xs : (forall k, w_peers w k <> None) -> boot_task t = true -> step_task w s t = (s', next, offers) ->
  boot_inv (boot_root s, boot_busy s) (a ++ t :: b) xs ->
  boot_inv (boot_root s', boot_busy s') (a ++ filter boot_task (opt_list next) ++ b) (xs ++ flat_map (fun o => match o_key o with KBootstrap n => [n] | _ => [] end) offers).
Proof.
  intros W K T J. destruct (boot_where _ _ _ _ _ J) as [->|(-> & -> & Q & g & ->)].
  2:{ cbn [snd] in Q. cbn [BeaconBridge_Model.step_task step_boot] in T. rewrite Q in T. injection T as <- <- <-. rewrite Q in *. cbn [flat_map opt_list filter app]. rewrite ?app_nil_r.
      cbn [app boot_inv] in J |- *. destruct J as [N J]. split; [exact N|].
      destruct g; try contradiction; try (destruct J as [E _]; discriminate); (split; [now left|]); tauto. }
  cbn [app boot_inv] in J. destruct J as [N J]. cbn [app].
  destruct t; try discriminate K; cbn [BeaconBridge_Model.step_task step_boot] in T.
  - (* start *) destruct J as (-> & Q & J). rewrite Q in T. injection T as <- <- <-. cbn [flat_map opt_list filter app]. rewrite ?app_nil_r, Q. cbn. auto.
  - (* ask *) destruct J as (-> & Q & J). injection T as <- <- <-. cbn [flat_map]. rewrite ?app_nil_r, Q. destruct (w_block_root w); cbn; auto. split; [auto|]. split; [now left|auto].
  - (* compare *) destruct J as (-> & Q & J). injection T as <- <- <-. cbn [flat_map]. rewrite ?app_nil_r, Q. destruct (beqb root (boot_root s)) eqn:E; cbn; auto.
    split; [auto|]. repeat split; auto. now apply beqb_neq.
  - (* mark *) destruct J as (-> & Q & J & D). injection T as <- <- <-. cbn [flat_map set_boot boot_root boot_busy]. rewrite ?app_nil_r. cbn. split; [auto|]. split; [now left|]. auto.
  - (* load *) destruct J as (Wt & Q & J & D). destruct (w_boot w root) as [bt|]; injection T as <- <- <-.
    + unfold spawn_offer_tasks. specialize (W (KBootstrap root)). destruct (w_peers w (KBootstrap root)) as [ps|]; [|congruence]. cbn [flat_map o_key app opt_list filter boot_task bootstrap_deciding bootstrap_loading orb boot_inv].
      split. { apply no_repeat_snoc; [exact N|]. intros l x E ->. apply D. exact (J _ _ E). }
      split; [exact Wt|]. split; [exact Q|]. apply last_is_snoc.
    + cbn [flat_map]. rewrite ?app_nil_r. cbn. auto.
  - (* keep *) destruct J as (Wt & Q & J). injection T as <- <- <-. cbn [flat_map set_boot boot_root boot_busy]. rewrite ?app_nil_r. cbn. auto.
  - (* done *) destruct J as (Wt & Q & J). injection T as <- <- <-. cbn [flat_map set_boot boot_root boot_busy opt_list filter app]. rewrite ?app_nil_r.
    destruct Wt as [->|[-> _]]; cbn; auto.
  - (* failed *) destruct J as (Wt & J). injection T as <- <- <-. cbn [flat_map set_boot boot_root boot_busy opt_list filter app]. rewrite ?app_nil_r.
    destruct Wt as [->|[-> _]]; cbn; auto.
Qed.
Lemma boot_all ops : apart bootstrap_deciding ops -> census_works ops ->
  let b := run start ops in boot_inv (boot_root (sh b), boot_busy (sh b)) (filter boot_task (tasks b)) (roots_offered (log b)).
Proof.
  intros A W. apply (kind_induction boot_task bootstrap_deciding (fun s => (boot_root s, boot_busy s)) (fun o => match o_key o with KBootstrap n => [n] | _ => [] end) (fun w => forall k, w_peers w k <> None) boot_inv) with (ops := []); try exact A.
  - intros t E. unfold boot_task. now rewrite E.
  - intros [root busy] ts xs J E. cbn [boot_inv] in *. destruct J as [N J]. split; [exact N|].
    change (filter boot_task serve_latest) with [BootStart]. destruct ts as [|t ts]; [cbn; tauto|]. cbn [app].
    destruct t; try discriminate E; try contradiction; destruct J as (Wt & Q & J); rewrite Q in *;
      (destruct Wt as [->|[-> _]]; [|discriminate E]); (split; [right; auto|]); auto.
  - intros w s s' t next offers a b xs Wp. now apply boot_step.
  - other_kind.
  - cbn. split; [intros [|? [|]]; discriminate|]. split; [reflexivity|]. intros [|]; discriminate.
  - intros w Hw k. apply W. exact Hw.
Qed.
(** Without the census *)
Definition boot_flag (busy : bool) (ts : list task) (_ : list unit) : Prop :=
  match ts with
  | [] => busy = false
  | BootStart :: l | BootAsk :: l | BootCompare _ :: l | BootMark _ :: l => l = [] /\ busy = false
  | BootFailed :: l => waits busy l
  | BootLoad _ :: l | BootKeep _ :: l | BootDone :: l => waits busy l /\ busy = true
  | _ => False
  end.
Lemma flag_where v a t b xs : boot_flag v (a ++ t :: b) xs ->
  a = [] \/ (t = BootStart /\ b = [] /\ v = true /\ exists g, a = [g]).
Proof.
  destruct a as [|g a]; [now left|]. right. cbn [app boot_flag] in H.
  assert (W : waits v (a ++ t :: b) -> t = BootStart /\ b = [] /\ v = true /\ exists g', g :: a = [g']).
  { intros [E|[E Q]]; [destruct a; discriminate|]. apply one_mid in E. destruct E as (-> & -> & ->). repeat split; [exact Q|now exists g]. }
  destruct g; try contradiction; try (destruct H as [E _]; destruct a; discriminate); apply W; tauto.
Qed.
Lemma flag_all ops : apart bootstrap_deciding ops ->
  let b := run start ops in boot_flag (boot_busy (sh b)) (filter boot_task (tasks b)) (flat_map (fun _ => []) (log b)).
Proof.
  intros A. apply (kind_induction boot_task bootstrap_deciding boot_busy (fun _ => []) (fun _ => True) boot_flag) with (ops := []); try exact A; try tauto.
  - intros t E. unfold boot_task. now rewrite E.
  - intros busy ts xs J E. cbn [boot_flag] in *.
    change (filter boot_task serve_latest) with [BootStart]. destruct ts as [|t ts]; [cbn; tauto|]. cbn [app].
    destruct t; try discriminate E; try contradiction; destruct J as (Wt & Q); rewrite Q in *;
      (destruct Wt as [->|[-> _]]; [|discriminate E]); (split; [right; auto|]); auto.
  - intros w s s' t next offers a b xs _ K T J. destruct (flag_where _ _ _ _ _ J) as [->|(-> & -> & Q & g & ->)].
    + cbn [app boot_flag] in J |- *. destruct t; try discriminate K; cbn [BeaconBridge_Model.step_task step_boot] in T.
      * destruct J as (-> & Q). rewrite Q in T. injection T as <- <- <-. cbn. auto.
      * destruct J as (-> & Q). injection T as <- <- <-. destruct (w_block_root w); cbn; auto. now left.
      * destruct J as (-> & Q). injection T as <- <- <-. destruct (beqb root (boot_root s)) eqn:E; cbn; auto.
      * destruct J as (-> & Q). injection T as <- <- <-. cbn. split; [now left|reflexivity].
      * destruct J as (Wt & Q). destruct (w_boot w root) as [bt|]; injection T as <- <- <-; cbn; auto.
      * destruct J as (Wt & Q). injection T as <- <- <-. cbn. auto.
      * destruct J as (Wt & Q). injection T as <- <- <-. cbn. destruct Wt as [->|[-> _]]; cbn; auto.
      * injection T as <- <- <-. cbn. destruct J as [->|[-> _]]; cbn; auto.
    + cbn [BeaconBridge_Model.step_task step_boot] in T. rewrite Q in T. injection T as <- <- <-. rewrite Q in *. cbn [flat_map opt_list filter app] in *.
      cbn [boot_flag] in J |- *. destruct g; try contradiction; try (destruct J as [E _]; discriminate); try (split; [now left|]; tauto); now left.
  - other_kind.
  - reflexivity.
Qed.

(** ** Summaries *)
Definition sum_task (t : task) : bool := summaries_deciding t || summaries_loading t.
Definition sum_flag (busy : bool) (ts : list task) (_ : list N) : Prop :=
  match ts with
  | [] => True
  | SumStart :: l => l = []
  | SumAsk :: l | SumCompare _ :: l | SumMark _ :: l => l = [] /\ busy = false
  | SumLoad _ :: l | SumKeep _ :: l | SumDone :: l => (l = [] \/ l = [SumStart]) /\ busy = true
  | _ => False
  end.
Lemma sum_where v a t b xs : sum_flag v (a ++ t :: b) xs ->
  a = [] \/ (t = SumStart /\ b = [] /\ v = true /\ exists g, a = [g]).
Proof.
  destruct a as [|g a]; [now left|]. right. cbn [app sum_flag] in H.
  assert (W : (a ++ t :: b = [] \/ a ++ t :: b = [SumStart]) /\ v = true -> t = SumStart /\ b = [] /\ v = true /\ exists g', g :: a = [g']).
  { intros [[E|E] Q]; [destruct a; discriminate|]. apply one_mid in E. destruct E as (-> & -> & ->). repeat split; [exact Q|now exists g]. }
  destruct g; try contradiction; try (destruct a; discriminate); try (destruct H as [E _]; destruct a; discriminate); apply W; tauto.
Qed.
Lemma sum_all ops : apart summaries_deciding ops ->
  let b := run start ops in sum_flag (state_busy (sh b)) (filter sum_task (tasks b)) (epochs_offered (log b)).
Proof.
  intros A. apply (kind_induction sum_task summaries_deciding state_busy (fun o => match o_key o with KSummaries n => [n] | _ => [] end) (fun _ => True) sum_flag) with (ops := []); try exact A; try tauto.
  - intros t E. unfold sum_task. now rewrite E.
  - intros busy ts xs J E. cbn [sum_flag] in *.
    change (filter sum_task serve_latest) with [SumStart]. destruct ts as [|t ts]; [reflexivity|]. cbn [app].
    destruct t; try discriminate E; try contradiction; destruct J as (Wt & Q); (destruct Wt as [->| ->]; [|discriminate E]); cbn; auto.
  - intros w s s' t next offers a b xs _ K T J. destruct (sum_where _ _ _ _ _ J) as [->|(-> & -> & Q & g & ->)].
    + cbn [app sum_flag] in J |- *. destruct t; try discriminate K; cbn [BeaconBridge_Model.step_task step_sum] in T.
      * subst b. injection T as <- <- <-. destruct (state_busy s) eqn:Q; cbn; auto.
      * destruct J as (-> & Q). injection T as <- <- <-. destruct (w_state_root w); cbn; auto.
      * destruct J as (-> & Q). injection T as <- <- <-. destruct (beqb root (state_root s)) eqn:E; cbn; auto.
      * destruct J as (-> & Q). injection T as <- <- <-. cbn. auto.
      * destruct J as (Wt & Q). destruct (w_state w) as [bt|]; injection T as <- <- <-; cbn; auto. destruct Wt as [->| ->]; cbn; auto.
      * destruct J as (Wt & Q). injection T as <- <- <-. cbn. auto.
      * destruct J as (Wt & Q). injection T as <- <- <-. cbn. destruct Wt as [->| ->]; cbn; auto.
    + cbn [BeaconBridge_Model.step_task step_sum] in T. rewrite Q in T. injection T as <- <- <-. rewrite Q in *. cbn [flat_map opt_list filter app] in *.
      cbn [sum_flag] in J |- *. destruct g; try contradiction; try discriminate J; try (destruct J as [E _]; discriminate); auto.
  - other_kind.
  - exact Logic.I.
Qed.
(** With the flag set and nothing loading, nothing is ever served. *)
Definition sum_stuck (xs0 : list N) (busy : bool) (ts : list task) (xs : list N) : Prop :=
  busy = true /\ Forall (fun t => t = SumStart) ts /\ xs = xs0.
Lemma stuck_step (b : bridge) o xs0 : (let stuck b := sum_stuck xs0 (state_busy (sh b)) (filter sum_task (tasks b)) (epochs_offered (log b)) in stuck b -> stuck (step b o)).
Proof.
  cbv zeta. intros (Q & F & E). destruct o as [|i w].
  - cbn [BeaconBridge_Model.step sh tasks log]. split; [exact Q|]. split; [|exact E]. rewrite filter_app. apply Forall_app. split; [exact F|].
    change (filter sum_task serve_latest) with [SumStart]. repeat constructor.
  - destruct (nth_error (tasks b) i) as [t|] eqn:Et.
    2:{ cbn [BeaconBridge_Model.step]. rewrite Et. now split. }
    destruct (step_task w (sh b) t) as [[s' next] offers] eqn:T.
    destruct (step_split b i w t s' next offers Et T) as (l & r & Eb & ->). cbn [sh tasks log].
    rewrite Eb, filter_app in F. cbn [filter] in F. apply Forall_app in F. destruct F as [Fl Fr].
    unfold epochs_offered in *. rewrite flat_map_app, E, !filter_app.
    destruct (sum_task t) eqn:K.
    + assert (Ht := Forall_inv Fr). cbn beta in Ht. apply Forall_inv_tail in Fr. subst t. cbn [BeaconBridge_Model.step_task step_sum] in T. rewrite Q in T. injection T as <- <- <-.
      cbn [opt_list filter app flat_map]. rewrite ?app_nil_r. split; [exact Q|]. split; [|reflexivity]. now apply Forall_app.
    + assert (O : state_busy s' = state_busy (sh b) /\ filter sum_task (opt_list next) = [] /\ flat_map (fun o : offering => match o_key o with KSummaries e => [e] | _ => [] end) offers = []).
      { clear - K T. destruct t; try discriminate K; clear K; cbn [BeaconBridge_Model.step_task] in T; open_step T; repeat split. }
      destruct O as (-> & -> & ->). cbn [app]. rewrite ?app_nil_r. split; [exact Q|]. split; [|reflexivity]. now apply Forall_app.
Qed.
Lemma stuck_run (ops : list op) : forall (b : bridge) xs0, sum_stuck xs0 (state_busy (sh b)) (filter sum_task (tasks b)) (epochs_offered (log b)) ->
  epochs_offered (log (run b ops)) = xs0.
Proof.
  induction ops as [|o ops IH]; intros b xs0 H; [exact (proj2 (proj2 H))|]. cbn [BeaconBridge_Model.run fold_left].
  apply IH. apply (stuck_step b o xs0 H).
Qed.
End Proofs.
