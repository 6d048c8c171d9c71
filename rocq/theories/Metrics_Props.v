(** Property C123: what a node reports of itself. *)
From Coq Require Import ZArith QArith Lqa.
From Verif Require Store_Proofs.
From Verif Require Import Base Distance_Model Distance_Proofs F64_Model F64_Proofs Header_Model ChainHead_Model BeaconStore_Model BridgeTools_Model Metrics_Model Metrics_Spec Metrics_Proofs.
Local Open Scope N_scope.

(** ** Transfers *)
(** In whatever order the tasks go on: the gauges are the transfers that wait, and each total is the number of callers that were told so. *)
Theorem C123_transfers : forall l s log, transfer_run no_transfers l = (s, log) ->
  let o := outcomes (counts s) in
  streams (counts s) Inbound = Z.of_N (count waits_in (tasks s)) /\ streams (counts s) Outbound = Z.of_N (count waits_out (tasks s)) /\
  o Inbound Success = count told_data log /\ o Inbound FailedConnection = count told_no_stream log /\
  o Inbound FailedDataTx = count told_no_data log /\ o Inbound FailedShutdown = 0 /\
  o Outbound Success = count told_sent log /\ o Outbound FailedConnection = count told_unconnected log /\
  o Outbound FailedDataTx = count told_unwritten log /\ o Outbound FailedShutdown = count told_unclosed log.
Proof. intros l s log R. destruct (numbers_run _ _ _ R) as [_ ? ? ? ? ? ? ? ? ? ?]. cbv zeta. auto 12. Qed.

(** A caller is told of data exactly as it was read, and that data was sent only if all of it was written and the stream was closed. *)
Theorem C123_answers : forall l s log x, transfer_run no_transfers l = (s, log) -> In x log -> explained l x.
Proof. intros l s log x R. exact (proj2 (run_history _ _ _ R) x). Qed.

Lemma find_app {A} (f : A -> bool) l l' : find f (l ++ l') = match find f l with Some x => Some x | None => find f l' end.
Proof. induction l as [|x l IH]; cbn; [reflexivity|]. destruct (f x); [reflexivity|exact IH]. Qed.
Lemma find_without id i (l : list (N * phase)) : find (fun x => fst x =? i) (without id l) = if i =? id then None else find (fun x => fst x =? i) l.
Proof.
  unfold without. induction l as [|[j q] l IH]; cbn; [destruct (i =? id); reflexivity|].
  destruct (j =? id) eqn:E; cbn [negb].
  - rewrite IH. apply N.eqb_eq in E. subst j. rewrite (N.eqb_sym id i). destruct (i =? id); reflexivity.
  - cbn. rewrite IH. destruct (j =? i) eqn:F; [|reflexivity]. apply N.eqb_eq in F. subst j. rewrite E. reflexivity.
Qed.
Lemma task_go_on s id p i : task (fst (go_on s id p)) i = if i =? id then Some p else task s i.
Proof.
  unfold task, go_on. cbn [fst tasks]. rewrite find_app, find_without. cbn. rewrite (N.eqb_sym id i).
  destruct (i =? id); [reflexivity|]. destruct (find _ (tasks s)); reflexivity.
Qed.
Lemma task_over s id d r a i : task (fst (over s id d r a)) i = if i =? id then None else task s i.
Proof. unfold task, over. cbn [fst tasks]. rewrite find_without. destruct (i =? id); reflexivity. Qed.

(** A transfer goes on as the socket says, its caller is told at the end, and what happens to others does not change it. *)
Theorem C123_told : forall s id,
  (forall data, task s id = None ->
     task (fst (transfer_step s (Begin id data))) id = Some (match data with None => ConnectingIn | Some b => ConnectingOut b end)) /\
  (task s id = Some ConnectingIn -> task (fst (transfer_step s (Connected id true))) id = Some Reading) /\
  (forall b, task s id = Some (ConnectingOut b) -> task (fst (transfer_step s (Connected id true))) id = Some (Writing b)) /\
  (forall b, task s id = Some (Writing b) -> task (fst (transfer_step s (Wrote id (Some (blen b))))) id = Some Closing) /\
  (task s id = Some Reading -> forall b, snd (transfer_step s (Read id (Some b))) = Some (Received b)) /\
  (task s id = Some Closing -> snd (transfer_step s (Closed id true)) = Some Sent) /\
  (forall e a, snd (transfer_step s e) = Some a -> about e = id -> task (fst (transfer_step s e)) id = None) /\
  (forall e, about e <> id -> task (fst (transfer_step s e)) id = task s id).
Proof.
  intros s id. split.
  { intros data T. cbn [transfer_step]. rewrite T. cbn [fst]. unfold task in *. cbn [tasks]. rewrite find_app.
    destruct (find _ (tasks s)); [discriminate|]. cbn. rewrite N.eqb_refl. reflexivity. }
  split; [intros T; cbn [transfer_step]; rewrite T, task_go_on, N.eqb_refl; reflexivity|].
  split; [intros b T; cbn [transfer_step]; rewrite T, task_go_on, N.eqb_refl; reflexivity|].
  split; [intros b T; cbn [transfer_step]; rewrite T, N.eqb_refl; cbn [negb]; rewrite task_go_on, N.eqb_refl; reflexivity|].
  split; [intros T b; cbn [transfer_step]; rewrite T; reflexivity|]. split; [intros T; cbn [transfer_step]; rewrite T; reflexivity|]. split.
  - intros e a H <-. revert H. destruct e as [i data|i ok|i r|i r|i ok]; cbn [transfer_step about].
    + destruct (task s i); discriminate.
    + destruct (task s i) as [[| |b|b|]|]; try destruct ok; try discriminate; intros _; rewrite task_over, N.eqb_refl; reflexivity.
    + destruct (task s i) as [[| |b|b|]|]; try destruct r; try discriminate; intros _; rewrite task_over, N.eqb_refl; reflexivity.
    + destruct (task s i) as [[| |b|b|]|]; try destruct r as [n|]; try destruct (n =? _); cbn [negb]; try discriminate; intros _; rewrite task_over, N.eqb_refl; reflexivity.
    + destruct (task s i) as [[| |b|b|]|]; try destruct ok; try discriminate; intros _; rewrite task_over, N.eqb_refl; reflexivity.
  - intros e D. assert (E : id =? about e = false) by (apply N.eqb_neq; congruence).
    destruct e as [i data|i ok|i r|i r|i ok]; cbn [transfer_step about] in *.
    + destruct (task s i); [reflexivity|]. cbn [fst]. unfold task. cbn [tasks]. rewrite find_app. cbn. rewrite (N.eqb_sym i id), E.
      destruct (find _ (tasks s)); reflexivity.
    + destruct (task s i) as [[| |b|b|]|]; try destruct ok; rewrite ?task_over, ?task_go_on, ?E; reflexivity.
    + destruct (task s i) as [[| |b|b|]|]; try destruct r; rewrite ?task_over, ?task_go_on, ?E; reflexivity.
    + destruct (task s i) as [[| |b|b|]|]; try destruct r as [n|]; try destruct (n =? _); cbn [negb]; rewrite ?task_over, ?task_go_on, ?E; reflexivity.
    + destruct (task s i) as [[| |b|b|]|]; try destruct ok; rewrite ?task_over, ?task_go_on, ?E; reflexivity.
Qed.

Lemma cons_eq {A} (x y : A) l l' : x = y -> l = l' -> x :: l = y :: l'.
Proof. intros -> ->. reflexivity. Qed.
Lemma count_le {A} (p : A -> bool) (l : list A) : count p l <= blen l.
Proof. unfold count, blen. assert (H : (length (filter p l) <= length l)%nat) by (induction l as [|x l IH]; cbn; [lia|]; destruct (p x); cbn; lia). lia. Qed.

(** The line that is logged: of the transfers that began, those that are active, have succeeded and have failed; its parts add up. *)
Theorem C123_summary : forall l s log, NoDup (begun_ids l) -> blen l < 2 ^ 63 -> transfer_run no_transfers l = (s, log) ->
  let ain := count waits_in (tasks s) in let aout := count waits_out (tasks s) in
  let gin := count told_data log in let gout := count told_sent log in
  let cin := count told_no_stream log in let cout := count told_unconnected log in
  let din := count told_no_data log in let dout := count told_unwritten log in
  let sout := count told_unclosed log in
  utp_summary (counts s) = [ain + aout; ain; aout; gin + gout; gin; gout;
    (cin + din) + (cout + dout + sout); cin + din; cout + dout + sout; cin + cout; cin; cout; din + dout; din; dout; sout; 0; sout] /\
  count begins_in l = ain + gin + (cin + din) /\ count begins_out l = aout + gout + (cout + dout + sout).
Proof.
  intros l s log D L R. pose proof (numbers_run _ _ _ R) as [_ Hi Ho H1 H2 H3 H4 H5 H6 H7 H8].
  pose proof (run_sum _ _ _ D R Inbound) as Bi. pose proof (run_sum _ _ _ D R Outbound) as Bo.
  unfold ended in Bi, Bo. rewrite Hi, H1, H2, H3, H4 in Bi. rewrite Ho, H5, H6, H7, H8 in Bo.
  change (begins Inbound) with begins_in in Bi. change (begins Outbound) with begins_out in Bo.
  pose proof (count_le begins_in l) as Ci. pose proof (count_le begins_out l) as Co.
  cbv zeta. split; [|split; lia].
  unfold utp_summary. rewrite Hi, Ho, H1, H2, H3, H4, H5, H6, H7, H8. unfold gauge_u64.
  rewrite !Z.mod_small by lia. rewrite !N2Z.id.
  repeat (apply cons_eq; [lia|]). reflexivity.
Qed.

(** A node that sends two values and asks for one: one transfer waits, one was cut, one is told. *)
Example C123_example :
  let l := [Begin 1 (Some [7; 8]); Begin 2 None; Connected 1 true; Begin 3 (Some [9]); Wrote 1 (Some 1); Connected 2 true; Connected 3 true;
            Wrote 3 (Some 1); Read 2 (Some [5])] in
  NoDup (begun_ids l) /\ map snd (snd (transfer_run no_transfers l)) = [None; None; None; None; Some NotSent; None; None; None; Some (Received [5])] /\
  utp_summary (counts (fst (transfer_run no_transfers l))) = [1; 0; 1; 1; 1; 0; 1; 0; 1; 0; 0; 0; 1; 0; 1; 0; 0; 0].
Proof. cbv zeta. split; [|split; vm_compute; reflexivity]. repeat constructor; cbn; intuition discriminate. Qed.

(** ** Messages *)
Theorem C123_messages : forall l,
  message_summary (fold_left traffic_step l no_messages) =
  [count accept_received l; count offer_sent l; count accept_sent l; count offer_received l; count found_valid l; count was_validated l].
Proof.
  assert (G : forall l m, let m' := fold_left traffic_step l m in
    received m' LAccept = received m LAccept + count accept_received l /\ sent m' LOffer = sent m LOffer + count offer_sent l /\
    sent m' LAccept = sent m LAccept + count accept_sent l /\ received m' LOffer = received m LOffer + count offer_received l /\
    validations m' true = validations m true + count found_valid l /\
    validations m' true + validations m' false = validations m true + validations m false + count was_validated l).
  { induction l as [|e l IH]; intros m; cbv zeta; [cbn; rewrite !count_nil; lia|].
    cbn [fold_left]. specialize (IH (traffic_step m e)). cbv zeta in IH. destruct IH as (I1 & I2 & I3 & I4 & I5 & I6).
    rewrite I6, I1, I2, I3, I4, I5. change (e :: l) with ([e] ++ l). rewrite !count_app, !count_one.
    destruct e as [[] [[]|]|[]|[] [[]|]|[]]; cbn [traffic_step count_received count_sent count_validation request_label response_label label_eqb Bool.eqb
      received sent validations accept_received offer_sent accept_sent offer_received found_valid was_validated is_offer]; lia. }
  intros l. destruct (G l no_messages) as (G1 & G2 & G3 & G4 & G5 & G6). unfold message_summary. rewrite G6, G5, G1, G2, G3, G4. reflexivity.
Qed.
(** The counter of each kind of message is the number of messages of that kind. *)
Theorem C123_labels : forall l k, let m := fold_left traffic_step l no_messages in
  sent m k = count (sends k) l /\ received m k = count (receives k) l /\
  validations m true = count found_valid l /\ validations m false = count (fun e => was_validated e && negb (found_valid e)) l.
Proof.
  assert (G : forall l k m, let m' := fold_left traffic_step l m in
    sent m' k = sent m k + count (sends k) l /\ received m' k = received m k + count (receives k) l /\
    validations m' true = validations m true + count found_valid l /\
    validations m' false = validations m false + count (fun e => was_validated e && negb (found_valid e)) l).
  { induction l as [|e l IH]; intros k m; cbv zeta; [cbn; rewrite !count_nil; lia|].
    cbn [fold_left]. specialize (IH k (traffic_step m e)). cbv zeta in IH. destruct IH as (I1 & I2 & I3 & I4).
    rewrite I1, I2, I3, I4. change (e :: l) with ([e] ++ l). rewrite !count_app, !count_one.
    destruct k, e as [[] [[]|]|[]|[] [[]|]|[]]; cbn [traffic_step count_received count_sent count_validation request_label response_label label_eqb Bool.eqb
      received sent validations sends receives found_valid was_validated negb andb]; lia. }
  intros l k. destruct (G l k no_messages) as (G1 & G2 & G3 & G4). cbv zeta. rewrite G1, G2, G3, G4. cbn. lia.
Qed.
Example C123_messages_example :
  message_summary (fold_left traffic_step [Asks PopulatedOffer; Answered true (Some Accept); Answered false (Some Accept); Asked Offer (Some Accept); Asked Offer None;
    Validated true; Validated false] no_messages) = [1; 1; 1; 2; 1; 2].
Proof. reflexivity. Qed.

(** ** The head of the chain *)
Record good (start slot : N) (gauge lag : Z) (delays : list Z) : Prop := {
  g_start : start <= slot;
  g_small : slot < 2 ^ 63;
  g_gauge : gauge = if start <? slot then Z.of_N slot else 0%Z;
  g_none : start = slot -> lag = 0%Z /\ delays = [];
  g_pos : Forall (fun d => (0 < d)%Z) delays;
  g_sum : start < slot -> exists first, start < first /\ Z.of_N slot = (Z.of_N first + total delays)%Z }.
Lemma total_app l l' : total (l ++ l') = (total l + total l')%Z.
Proof. unfold total. induction l as [|x l IH]; cbn; [reflexivity|]. rewrite IH. lia. Qed.
Lemma as_i64_small n : n < 2 ^ 63 -> as_i64 n = Z.of_N n.
Proof. intros H. unfold as_i64. apply N.ltb_lt in H. rewrite H. reflexivity. Qed.
Lemma good_new start slot gauge lag delays n : good start slot gauge lag delays -> slot < n -> n < 2 ^ 63 ->
  good start n (as_i64 n) lag (if (0 <? gauge)%Z then delays ++ [(Z.of_N n - gauge)%Z] else delays).
Proof.
  intros [G1 G2 G3 G4 G5 G6] L S. rewrite as_i64_small by exact S.
  assert (E : start <? n = true) by (apply N.ltb_lt; lia).
  constructor; [lia|exact S|rewrite E; reflexivity|lia|..].
  - destruct (0 <? gauge)%Z eqn:P; [|exact G5]. apply Forall_app. split; [exact G5|]. constructor; [|constructor].
    rewrite G3. destruct (start <? slot); lia.
  - intros _. destruct (start <? slot) eqn:F.
    + apply N.ltb_lt in F. destruct (G6 F) as [first [A B]]. assert (P : (0 <? gauge)%Z = true) by (rewrite G3; apply Z.ltb_lt; lia).
      rewrite P. exists first. split; [exact A|]. rewrite total_app, G3. cbn [total fold_right]. lia.
    + apply N.ltb_ge in F. assert (Q : start = slot) by lia. destruct (G4 Q) as [_ ->]. rewrite G3. cbn. exists n. split; [lia|]. cbn. lia.
Qed.
Lemma good_tick start slot gauge lag delays c : good start slot gauge lag delays ->
  good start slot gauge (if (0 <? gauge)%Z then (c - gauge)%Z else lag) delays.
Proof.
  intros [G1 G2 G3 G4 G5 G6]. constructor; try assumption. intros E. destruct (G4 E) as [-> ->]. split; [|reflexivity].
  rewrite G3, E, N.ltb_irrefl. reflexivity.
Qed.
Definition all_good (start : N) (s : reported) : Prop :=
  good start (hd_slot (latest (chain s))) (opt_slot (shown s)) (opt_lag (shown s)) (opt_delays (shown s)) /\
  good start (hd_slot (finalized (chain s))) (fin_slot (shown s)) (fin_lag (shown s)) (fin_delays (shown s)).
Lemma see_latest_good start s h : hd_slot h < 2 ^ 63 -> all_good start s -> all_good start (see_latest s h).
Proof.
  intros S [A B]. unfold see_latest. destruct (hd_slot (latest (chain s)) <? hd_slot h) eqn:E; [|split; assumption].
  unfold update_latest_if_newer. rewrite E. split; [|exact B]. apply N.ltb_lt in E. exact (good_new _ _ _ _ _ _ A E S).
Qed.
Lemma see_finalized_good start s h : hd_slot h < 2 ^ 63 -> all_good start s -> all_good start (see_finalized s h).
Proof.
  intros S [A B]. unfold see_finalized. destruct (hd_slot (finalized (chain s)) <? hd_slot h) eqn:E; [|split; assumption].
  unfold update_finalized_if_newer. rewrite E. split; [exact A|]. apply N.ltb_lt in E. exact (good_new _ _ _ _ _ _ B E S).
Qed.
Lemma see_good start s o : Forall (fun n => n < 2 ^ 63) (slots_of o) -> all_good start s -> all_good start (see s o).
Proof.
  intros F G. destruct o as [[a f|a|a f|l]|c]; cbn [see slots_of] in *.
  - inversion F as [|? ? F1 F2]; subst. inversion F2; subst. apply see_finalized_good, see_latest_good; assumption.
  - inversion F; subst. apply see_latest_good; assumption.
  - inversion F as [|? ? F1 F2]; subst. inversion F2; subst. apply see_finalized_good, see_latest_good; assumption.
  - destruct G as [A B]. split; cbn [chain shown]; unfold update_summaries_if_newer; destruct (blen (summaries (chain s)) <? blen l); assumption.
  - destruct G as [A B]. split; cbn [chain shown on_slot opt_slot fin_slot opt_lag fin_lag opt_delays fin_delays]; apply good_tick; assumption.
Qed.
Lemma see_all_good l start s : Forall (fun n => n < 2 ^ 63) (flat_map slots_of l) -> all_good start s -> all_good start (fold_left see l s).
Proof.
  revert s. induction l as [|o l IH]; intros s F G; [exact G|]. cbn [flat_map fold_left] in *. apply Forall_app in F as [F1 F2].
  apply IH; [exact F2|]. apply see_good; assumption.
Qed.
Lemma report_from_good h sums : hd_slot h < 2 ^ 63 -> all_good (hd_slot h) (report_from h sums).
Proof.
  intros S. split; cbn; (constructor; [lia|exact S|rewrite N.ltb_irrefl; reflexivity|auto|constructor|lia]).
Qed.
Lemma see_latest_chain s h : chain (see_latest s h) = update_latest_if_newer (chain s) h.
Proof. unfold see_latest, update_latest_if_newer. destruct (_ <? _) eqn:E; [|reflexivity]. cbn [chain]. reflexivity. Qed.
Lemma see_finalized_chain s h : chain (see_finalized s h) = update_finalized_if_newer (chain s) h.
Proof. unfold see_finalized, update_finalized_if_newer. destruct (_ <? _) eqn:E; [|reflexivity]. cbn [chain]. reflexivity. Qed.
Lemma see_chain l s : chain (fold_left see l s) = head_run (chain s) (updates_of l).
Proof.
  revert s. induction l as [|o l IH]; intros s; [reflexivity|]. cbn [fold_left]. rewrite IH. unfold updates_of. cbn [flat_map].
  destruct o as [o|c]; cbn [app]; [|reflexivity]. unfold head_run. cbn [fold_left]. f_equal.
  destruct o as [a f|a|a f|x]; cbn [see head_step]; rewrite ?see_finalized_chain, ?see_latest_chain; reflexivity.
Qed.

(** Reporting does not change what the head is.  The gauges show the slots of the two headers from the first update on. *)
Theorem C123_head : forall h sums l, hd_slot h < 2 ^ 63 -> Forall (fun n => n < 2 ^ 63) (flat_map slots_of l) ->
  let s := fold_left see l (report_from h sums) in
  chain s = head_run (new_head h sums) (updates_of l) /\
  (hd_slot h < hd_slot (latest (chain s)) -> opt_slot (shown s) = Z.of_N (hd_slot (latest (chain s)))) /\
  (hd_slot h < hd_slot (finalized (chain s)) -> fin_slot (shown s) = Z.of_N (hd_slot (finalized (chain s)))).
Proof.
  intros h sums l S F. cbv zeta. split; [apply (see_chain l (report_from h sums))|].
  destruct (see_all_good l _ _ F (report_from_good h sums S)) as [A B]. split; intros L; apply N.ltb_lt in L.
  - rewrite (g_gauge _ _ _ _ _ A), L. reflexivity.
  - rewrite (g_gauge _ _ _ _ _ B), L. reflexivity.
Qed.

(** The lags are those of the last tick: how many slots the headers were behind then. *)
Theorem C123_lag : forall h sums l c, hd_slot h < 2 ^ 63 -> c < 2 ^ 63 -> Forall (fun n => n < 2 ^ 63) (flat_map slots_of l) ->
  let s := fold_left see l (report_from h sums) in
  forall os, let s' := fold_left see (map Update os) (see s (Tick c)) in
  (hd_slot h < hd_slot (latest (chain s)) -> opt_lag (shown s') = (Z.of_N c - Z.of_N (hd_slot (latest (chain s))))%Z) /\
  (hd_slot h < hd_slot (finalized (chain s)) -> fin_lag (shown s') = (Z.of_N c - Z.of_N (hd_slot (finalized (chain s))))%Z).
Proof.
  intros h sums l c S C F. cbv zeta. intros os.
  assert (K : forall os t, opt_lag (shown (fold_left see (map Update os) t)) = opt_lag (shown t) /\ fin_lag (shown (fold_left see (map Update os) t)) = fin_lag (shown t)).
  { clear. induction os as [|o os IH]; intros t; [split; reflexivity|]. cbn [map fold_left]. destruct (IH (see t (Update o))) as [-> ->].
    assert (L : forall t h, opt_lag (shown (see_latest t h)) = opt_lag (shown t) /\ fin_lag (shown (see_latest t h)) = fin_lag (shown t))
      by (intros t' h'; unfold see_latest; destruct (_ <? _); split; reflexivity).
    assert (M : forall t h, opt_lag (shown (see_finalized t h)) = opt_lag (shown t) /\ fin_lag (shown (see_finalized t h)) = fin_lag (shown t))
      by (intros t' h'; unfold see_finalized; destruct (_ <? _); split; reflexivity).
    destruct o as [a f|a|a f|x]; cbn [see]; rewrite ?(proj1 (M _ _)), ?(proj2 (M _ _)), ?(proj1 (L _ _)), ?(proj2 (L _ _)); split; reflexivity. }
  destruct (K os (see (fold_left see l (report_from h sums)) (Tick c))) as [-> ->].
  destruct (see_all_good l _ _ F (report_from_good h sums S)) as [A B]. cbn [see shown on_slot opt_lag fin_lag].
  rewrite as_i64_small by exact C. split; intros L; apply N.ltb_lt in L.
  - rewrite (g_gauge _ _ _ _ _ A), L. apply N.ltb_lt in L. assert (P : (0 <? Z.of_N (hd_slot (latest (chain (fold_left see l (report_from h sums))))))%Z = true) by (apply Z.ltb_lt; lia).
    rewrite P. reflexivity.
  - rewrite (g_gauge _ _ _ _ _ B), L. apply N.ltb_lt in L. assert (P : (0 <? Z.of_N (hd_slot (finalized (chain (fold_left see l (report_from h sums))))))%Z = true) by (apply Z.ltb_lt; lia).
    rewrite P. reflexivity.
Qed.

(** The delays are positive and add up to the way from the first header that was reported to the last. *)
Theorem C123_delays : forall h sums l, hd_slot h < 2 ^ 63 -> Forall (fun n => n < 2 ^ 63) (flat_map slots_of l) ->
  let s := fold_left see l (report_from h sums) in
  Forall (fun d => (0 < d)%Z) (opt_delays (shown s)) /\ Forall (fun d => (0 < d)%Z) (fin_delays (shown s)) /\
  (hd_slot h < hd_slot (latest (chain s)) -> exists first, hd_slot h < first /\ Z.of_N (hd_slot (latest (chain s))) = (Z.of_N first + total (opt_delays (shown s)))%Z) /\
  (hd_slot h < hd_slot (finalized (chain s)) -> exists first, hd_slot h < first /\ Z.of_N (hd_slot (finalized (chain s))) = (Z.of_N first + total (fin_delays (shown s)))%Z).
Proof.
  intros h sums l S F. cbv zeta. destruct (see_all_good l _ _ F (report_from_good h sums S)) as [A B].
  split; [exact (g_pos _ _ _ _ _ A)|]. split; [exact (g_pos _ _ _ _ _ B)|]. split; [exact (g_sum _ _ _ _ _ A)|exact (g_sum _ _ _ _ _ B)].
Qed.

(** Not so: before the first update the gauges show slot 0 and a lag of 0, however far behind the node is. *)
Theorem C123_lag_refuted : forall h sums ticks,
  let s := fold_left see (map Tick ticks) (report_from h sums) in
  latest (chain s) = h /\ opt_slot (shown s) = 0%Z /\ opt_lag (shown s) = 0%Z /\ fin_slot (shown s) = 0%Z /\ fin_lag (shown s) = 0%Z.
Proof.
  intros h sums ticks. cbv zeta.
  assert (E : fold_left see (map Tick ticks) (report_from h sums) = report_from h sums).
  { induction ticks as [|c ticks IH]; [reflexivity|]. cbn [map fold_left]. exact IH. }
  rewrite E. repeat split; reflexivity.
Qed.

(** ** The tick of a slot *)
(** The first tick is at the start of the slot after the current one, and after it there is one at the start of each slot. *)
Theorem C123_ticks : forall now now', now <= now' -> now' < 12000000000 * (2 ^ 32 - 1) ->
  exists d, until_next_slot now now' = Ok d /\ 0 < d /\ d <= now' - now + 12000000000 /\
  forall k, exists slot, now + d + k * slot_length = 12000000000 * slot /\ now' < 12000000000 * slot.
Proof.
  intros now now' L B. unfold until_next_slot, slot_time, current_slot, slot_length, second.
  rewrite N.div_div by lia. change (10 ^ 9 * 12) with 12000000000. change (12 * 10 ^ 9) with 12000000000.
  pose proof (N.div_mod now' 12000000000 ltac:(lia)) as E. pose proof (N.mod_lt now' 12000000000 ltac:(lia)) as M.
  set (q := now' / 12000000000) in *. set (r := now' mod 12000000000) in *. clearbody q r.
  change (2 ^ 32) with 4294967296 in *. rewrite (N.mod_small (q + 1)) by nia.
  assert (C : now <=? 12000000000 * (q + 1) = true) by (apply N.leb_le; nia). rewrite C.
  exists (12000000000 * (q + 1) - now). split; [reflexivity|]. split; [nia|]. split; [nia|].
  intros k. exists (q + 1 + k). split; nia.
Qed.
(** If the clock is set back between its two readings, the task that follows the head of the chain may end. *)
Theorem C123_ticks_refuted : forall now' now, now' < 12000000000 -> 12000000000 < now -> until_next_slot now now' = Panic.
Proof.
  intros now' now A B. unfold until_next_slot, slot_time, current_slot, slot_length, second.
  rewrite N.div_div by lia. change (10 ^ 9 * 12) with 12000000000. change (12 * 10 ^ 9) with 12000000000.
  rewrite (N.div_small now') by exact A. change ((0 + 1) mod 2 ^ 32) with 1.
  assert (C : now <=? 12000000000 * 1 = false) by (apply N.leb_gt; lia). rewrite C. reflexivity.
Qed.
Example C123_head_example :
  let h n := {| hd_slot := n; hd_rest := [] |} in
  let s := fold_left see [Tick 900; Update (ProcessOptimistic (h 1000)); Tick 1001; Update (ProcessUpdate (h 1003) (h 990)); Update (ProcessOptimistic (h 1002)); Tick 1007] (report_from (h 800) []) in
  (opt_slot (shown s), opt_lag (shown s), opt_delays (shown s)) = (1003, 4, [3])%Z /\ (fin_slot (shown s), fin_lag (shown s), fin_delays (shown s)) = (990, 17, [])%Z /\
  Forall (fun n => n < 2 ^ 63) (flat_map slots_of [Tick 900; Update (ProcessOptimistic (h 1000)); Tick 1001; Update (ProcessUpdate (h 1003) (h 990))]).
Proof. cbv zeta. split; [reflexivity|]. split; [reflexivity|]. repeat constructor. Qed.
Example C123_ticks_example : until_next_slot 1000 1001 = Ok 11999999000 /\ until_next_slot 24000000000 23999999999 = Ok 0 /\ until_next_slot 24000000001 23999999999 = Panic.
Proof. vm_compute. auto. Qed.

(** ** Storage *)
Section Radius.
Local Open Scope Q_scope.
(** The ratio that is shown is within 2^-31 of the radius as a part of the largest. *)
Theorem C123_radius : forall r, (r <= u256_max)%N ->
  inject_Z (Z.of_N r) / inject_Z (2 ^ 256) - (1 # 2 ^ 31) <= radius_ratio r /\ radius_ratio r <= inject_Z (Z.of_N r) / inject_Z (2 ^ 256) + (1 # 2 ^ 31).
Proof.
  intros r L. apply le_max in L. unfold radius_ratio. rewrite big_endian_u32_div by exact L.
  set (n := (r / 2 ^ 224)%N).
  assert (A1 : (n * 2 ^ 224 <= r)%N) by (unfold n; rewrite N.mul_comm; apply N.mul_div_le; discriminate).
  assert (A2 : (r < (n + 1) * 2 ^ 224)%N) by (unfold n; pose proof (N.mul_succ_div_gt r (2 ^ 224) ltac:(discriminate)) as M; rewrite <- N.add_1_r in M; lia).
  clearbody n. set (R := inject_Z (Z.of_N r) / inject_Z (2 ^ 256)).
  assert (W : R * inject_Z (2 ^ 32) == inject_Z (Z.of_N r) / inject_Z (2 ^ 224)).
  { unfold R. change (2 ^ 256)%Z with (2 ^ 224 * 2 ^ 32)%Z. rewrite inject_Z_mult. field. split; discriminate. }
  assert (B1 : inject_Z (Z.of_N n) <= R * inject_Z (2 ^ 32)).
  { apply Qle_trans with (inject_Z (Z.of_N r) / inject_Z (2 ^ 224)); [|apply Qle_lteq; right; try (rewrite W; reflexivity); symmetry; exact W].
    apply Qle_shift_div_l; [reflexivity|]. rewrite <- inject_Z_mult, <- Zle_Qle. lia. }
  assert (B2 : R * inject_Z (2 ^ 32) <= inject_Z (Z.of_N n) + 1).
  { apply Qle_trans with (inject_Z (Z.of_N r) / inject_Z (2 ^ 224)); [apply Qle_lteq; right; try (rewrite W; reflexivity); symmetry; exact W|].
    apply Qle_shift_div_r; [reflexivity|]. change 1 with (inject_Z 1). rewrite <- inject_Z_plus, <- inject_Z_mult, <- Zle_Qle. lia. }
  assert (B3 : 0 <= inject_Z (Z.of_N n)) by apply Store_Proofs.injN_0.
  assert (B4 : inject_Z (Z.of_N n) <= 4294967295).
  { change 4294967295 with (inject_Z 4294967295). rewrite <- Zle_Qle. change (2 ^ 256)%N with (4294967296 * 2 ^ 224)%N in L. nia. }
  clearbody R. destruct (Store_Proofs.f64_of_bounds n) as (F1 & F2 & F3).
  assert (K : f64_of (2 ^ 32 - 1) == 4294967295) by (vm_compute; reflexivity).
  unfold fdiv. set (m := f64_of n) in *. clearbody m.
  assert (P : 0 <= m / f64_of (2 ^ 32 - 1)) by (rewrite K; apply Qle_shift_div_l; [reflexivity|lra]).
  destruct (round53_bounds _ P) as (G1 & G2 & _). revert P G1 G2. generalize (round53 (m / f64_of (2 ^ 32 - 1))). intros w. rewrite K.
  assert (E : m / 4294967295 == m * (1 # 4294967295)) by reflexivity. rewrite E. intros P G1 G2.
  set (x := inject_Z (Z.of_N n)) in *. clearbody x. unfold u in *.
  change (inject_Z (2 ^ 32)) with 4294967296 in *. change (2 ^ 53)%positive with 9007199254740992%positive in *. change (2 ^ 31)%positive with 2147483648%positive.
  split; lra.
Qed.
(** It is 1 for the largest radius.  It is 0 for each radius below 2^224. *)
Theorem C123_radius_ends : radius_ratio u256_max == 1 /\ forall r, (r < 2 ^ 224)%N -> radius_ratio r == 0.
Proof.
  split; [vm_compute; reflexivity|]. intros r L. unfold radius_ratio.
  rewrite big_endian_u32_div by (apply N.lt_trans with (2 ^ 224)%N; [exact L|reflexivity]). rewrite N.div_small by exact L. vm_compute. reflexivity.
Qed.
(** A percentage of at least 0.01 is shown with two or three of its digits; there are never more than four decimals. *)
Theorem C123_precision : forall p, (precision p <= 4)%nat /\
  (flit (1 # 100) <= p -> 1 / inject_Z (10 ^ Z.of_nat (precision p)) <= p * (101 # 1000)) /\
  (p <= 100 -> p * (99 # 100) <= 100 / inject_Z (10 ^ Z.of_nat (precision p))) /\
  forall q, p <= q -> (precision q <= precision p)%nat.
Proof.
  assert (V1 : flit (1 # 100) == 5764607523034235 # 576460752303423488) by (vm_compute; reflexivity).
  assert (V2 : flit (1 # 10) == 3602879701896397 # 36028797018963968) by (vm_compute; reflexivity).
  intros p. unfold precision. revert V1 V2. generalize (flit (1 # 100)), (flit (1 # 10)). intros b a V1 V2.
  assert (T : forall a b, a <= b -> Qle_bool a b = true) by (intros; apply Qle_bool_iff; assumption).
  assert (D : forall a, {a <= p /\ Qle_bool a p = true} + {p < a /\ Qle_bool a p = false}).
  { intros x. destruct (Qlt_le_dec p x) as [X|X]; [right|left; auto]. split; [exact X|]. destruct (Qle_bool x p) eqn:E; [|reflexivity]. apply Qle_bool_iff in E. lra. }
  destruct (D 10) as [[L1 E1]|[L1 E1]]; rewrite E1.
  { split; [lia|]. split; [intros _; setoid_replace (1 / inject_Z (10 ^ Z.of_nat 0)) with (1) by reflexivity; lra|]. split; [intros P; setoid_replace (100 / inject_Z (10 ^ Z.of_nat 0)) with (100) by reflexivity; lra|]. intros q Q. rewrite (T 10 q) by lra. lia. }
  destruct (D 1) as [[L2 E2]|[L2 E2]]; rewrite E2.
  { split; [lia|]. split; [intros _; setoid_replace (1 / inject_Z (10 ^ Z.of_nat 1)) with (1 # 10) by reflexivity; lra|]. split; [intros P; setoid_replace (100 / inject_Z (10 ^ Z.of_nat 1)) with (10) by reflexivity; lra|]. intros q Q. rewrite (T 1 q) by lra. destruct (Qle_bool 10 q); lia. }
  destruct (D a) as [[L3 E3]|[L3 E3]]; rewrite E3.
  { split; [lia|]. split; [intros _; setoid_replace (1 / inject_Z (10 ^ Z.of_nat 2)) with (1 # 100) by reflexivity; lra|]. split; [intros P; setoid_replace (100 / inject_Z (10 ^ Z.of_nat 2)) with (1) by reflexivity; lra|]. intros q Q. rewrite (T a q) by lra. destruct (Qle_bool 10 q), (Qle_bool 1 q); lia. }
  destruct (D b) as [[L4 E4]|[L4 E4]]; rewrite E4.
  { split; [lia|]. split; [intros _; setoid_replace (1 / inject_Z (10 ^ Z.of_nat 3)) with (1 # 1000) by reflexivity; lra|]. split; [intros P; setoid_replace (100 / inject_Z (10 ^ Z.of_nat 3)) with (1 # 10) by reflexivity; lra|]. intros q Q. rewrite (T b q) by lra. destruct (Qle_bool 10 q), (Qle_bool 1 q), (Qle_bool a q); lia. }
  split; [lia|]. split; [intros F; lra|]. split; [intros P; setoid_replace (100 / inject_Z (10 ^ Z.of_nat 4)) with (1 # 100) by reflexivity; lra|]. intros q Q. destruct (Qle_bool 10 q), (Qle_bool 1 q), (Qle_bool a q), (Qle_bool b q); lia.
Qed.
End Radius.
Example C123_radius_example : Qeq_bool (radius_ratio (2 ^ 255)) (radius_ratio (2 ^ 255 + 1)) = true /\ precision (radius_ratio (2 ^ 255)) = 2%nat.
Proof. vm_compute. auto. Qed.

Section Entries.
Variable boot_view : fork -> bytes -> option lc_header.
Variable update_view : fork -> bytes -> bool.
Variable fin_view : fork -> bytes -> option (lc_header * lc_header).
Variable opt_view : fork -> bytes -> option (lc_header * N).
Variable sums_view : bytes -> option (N * list summary).
Variable header_root : lc_header -> bytes.
Notation bstep := (beacon_step boot_view update_view fin_view opt_view sums_view header_root).
Notation grow := (counted boot_view update_view sums_view).
Lemma insert_updates_rows l s :
  rows (fold_left (fun s pv => insert_update s (fst pv) (snd pv)) l s) <= rows s + blen (filter (fun x => sql_int (fst x)) l).
Proof.
  revert s. induction l as [|[p v] l IH]; intros s; cbn [fold_left filter fst snd]; [unfold blen; cbn; lia|].
  eapply N.le_trans; [apply IH|]. unfold insert_update. destruct (sql_int p); cbn [negb].
  - destruct (find_update s p); unfold rows, blen; cbn [bootstraps BeaconStore_Model.updates sums_row length]; rewrite ?app_length; cbn [length]; lia.
  - lia.
Qed.
Lemma put_rows s k v : rows (fst (put boot_view update_view fin_view opt_view sums_view header_root s k v)) <= rows s + grow k v.
Proof.
  destruct k as [r|start count|f|o|e]; cbn [put counted].
  - destruct (decode_boot boot_view v) as [[f h]| |]; cbn [fst]; [|lia|lia]. destruct (sql_int (hd_slot h)); cbn [fst]; [|lia].
    unfold insert_boot. destruct (find_boot s (header_root h)); unfold rows, blen; cbn [bootstraps BeaconStore_Model.updates sums_row]; rewrite ?app_length; cbn [length]; lia.
  - destruct (decode_updates update_view v) as [l| |]; cbn [fst]; [|lia|lia]. apply insert_updates_rows.
  - destruct (decode_fin fin_view v) as [[f' [a h]]| |]; cbn; unfold rows; cbn; lia.
  - destruct (decode_opt opt_view v) as [[f' [a h]]| |]; cbn; unfold rows; cbn; lia.
  - destruct (decode_sums sums_view v) as [[f' [a h]]| |]; cbn [fst]; [|lia|lia]. destruct (sql_int e); unfold rows, set_sums, set_head; cbn; [|lia].
    destruct (sums_row s); lia.
Qed.
Lemma prune_rows s now : rows (prune s now) <= rows s.
Proof.
  unfold rows, prune, blen. cbn [bootstraps BeaconStore_Model.updates sums_row].
  assert (G : forall A (f : A -> bool) l, (length (filter f l) <= length l)%nat) by (intros A f l; induction l as [|x l IH]; cbn; [lia|destruct (f x); cbn; lia]).
  specialize (G _ (fun r => negb (snd (snd r) <? now - four_months)) (bootstraps s)). lia.
Qed.
(** In one run from an empty store, the gauge is never below the number of rows. *)
Theorem C123_entries : forall h l, let s := fold_left bstep l (beacon_started (empty_store h)) in rows (fst s) <= snd s.
Proof.
  intros h l. cbv zeta.
  assert (G : forall s, rows (fst s) <= snd s -> rows (fst (fold_left bstep l s)) <= snd (fold_left bstep l s)).
  { induction l as [|e l IH]; intros s L; [exact L|]. cbn [fold_left]. apply IH. destruct e as [k v|now]; cbn [beacon_step fst snd].
    - pose proof (put_rows (fst s) k v). lia.
    - pose proof (prune_rows (fst s) now). lia. }
  apply G. apply N.le_refl.
Qed.
(** Not so: that it is that number.  Storing a bootstrap again leaves the rows as they are, and the gauge grows each time. *)
Theorem C123_entries_refuted : forall s g k v f h, decode_boot boot_view v = Ok (f, h) -> sql_int (hd_slot h) = true ->
  forall n, let once := bstep (s, g) (Stored (KBootstrap k) v) in let again := fold_left bstep (repeat (Stored (KBootstrap k) v) n) once in
  fst again = fst once /\ snd again = g + 1 + N.of_nat n.
Proof.
  intros s g k v f h D S n. cbv zeta.
  assert (O : bstep (s, g) (Stored (KBootstrap k) v) = (insert_boot s (header_root h) v (hd_slot h), g + 1))
    by (cbn [beacon_step put counted fst snd]; rewrite D, S; reflexivity).
  rewrite O. set (s' := insert_boot s (header_root h) v (hd_slot h)).
  assert (F : insert_boot s' (header_root h) v (hd_slot h) = s').
  { assert (Q : find_boot s' (header_root h) <> None).
    { unfold s', insert_boot. destruct (find_boot s (header_root h)) eqn:E; [rewrite E; discriminate|]. unfold find_boot. cbn [bootstraps].
      destruct (find (fun r => beqb (fst r) (header_root h)) (bootstraps s ++ [(header_root h, (v, hd_slot h))])) eqn:X; [discriminate|].
      exfalso. pose proof (List.find_none _ _ X (header_root h, (v, hd_slot h)) ltac:(apply in_or_app; right; left; reflexivity)) as Y. cbn [fst] in Y.
      rewrite beqb_refl in Y. discriminate. }
    unfold insert_boot at 1. destruct (find_boot s' (header_root h)); [reflexivity|contradiction]. }
  clearbody s'. generalize (g + 1). clear O g. induction n as [|n IH]; intros g; cbn [repeat fold_left fst snd]; [split; [reflexivity|lia]|].
  assert (O : bstep (s', g) (Stored (KBootstrap k) v) = (s', g + 1)) by (cbn [beacon_step put counted fst snd]; rewrite D, S, F; reflexivity).
  rewrite O. destruct (IH (g + 1)) as [I1 I2]. rewrite I1, I2. split; [reflexivity|lia].
Qed.
(** Nor is it at least that number after a restart: the rows are still there, and the gauge starts at 0. *)
Theorem C123_entries_restart_refuted : forall embedded s s', rows s > 0 -> restart sums_view embedded s = Ok s' ->
  snd (beacon_started s') < rows (fst (beacon_started s')) /\ rows (fst (beacon_started s')) = rows s.
Proof.
  intros embedded s s' P R. assert (E : rows s' = rows s).
  { unfold restart in R. destruct (sums_row s) as [[e v]|] eqn:Q.
    - destruct (decode_sums sums_view v) as [[f [a l]]| |]; [|discriminate..]. inversion R; subst s'. unfold rows, set_head. cbn. rewrite Q. reflexivity.
    - inversion R; subst s'. unfold rows. cbn. rewrite Q. reflexivity. }
  cbn [beacon_started fst snd]. split; lia.
Qed.
End Entries.
Example C123_entries_example :
  let h := {| hd_slot := 7; hd_rest := [1] |} in
  let v := join_fork Electra [9] in
  let run := fold_left (beacon_step (fun _ _ => Some h) (fun _ _ => true) (fun _ _ => None) (fun _ _ => None) (fun _ => None) hd_rest)
    [Stored (KBootstrap [1]) v; Stored (KBootstrap [1]) v; Pruned 1000000] (beacon_started (empty_store (new_head h []))) in
  rows (fst run) = 0 /\ snd run = 2.
Proof. vm_compute. auto. Qed.

Print Assumptions C123_transfers.
Print Assumptions C123_answers.
Print Assumptions C123_told.
Print Assumptions C123_summary.
Print Assumptions C123_messages.
Print Assumptions C123_head.
Print Assumptions C123_lag.
Print Assumptions C123_delays.
Print Assumptions C123_lag_refuted.
Print Assumptions C123_ticks.
Print Assumptions C123_ticks_refuted.
Print Assumptions C123_radius.
Print Assumptions C123_radius_ends.
Print Assumptions C123_precision.
Print Assumptions C123_entries.
Print Assumptions C123_entries_refuted.
Print Assumptions C123_entries_restart_refuted.
Print Assumptions C123_labels.
