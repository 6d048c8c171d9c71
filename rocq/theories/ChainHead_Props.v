From Verif Require Import Base Header_Model ChainHead_Model ChainHead_Spec.

Lemma first_newest_end {A} (size : A -> N) l x y : first_newest size l x ->
  first_newest size (l ++ [y]) (if size x <? size y then y else x).
Proof.
  intros (b & a & -> & B & Af). destruct (size x <? size y) eqn:E.
  - exists (b ++ x :: a), []. split; [now rewrite app_nil_r || reflexivity|]. split; [|intros z []].
    intros z Z. apply in_app_iff in Z. destruct Z as [Z|[->|Z]]; [specialize (B _ Z)| |specialize (Af _ Z)]; lia.
  - exists b, (a ++ [y]). split; [now rewrite <- app_assoc|]. split; [exact B|].
    intros z Z. apply in_app_iff in Z. destruct Z as [Z|[->|[]]]; [auto|lia].
Qed.

Lemma head_run_snoc s ops o : head_run s (ops ++ [o]) = head_step (head_run s ops) o.
Proof. unfold head_run. rewrite fold_left_app. reflexivity. Qed.
Lemma attested_app a b : attested_in (a ++ b) = attested_in a ++ attested_in b.
Proof. induction a as [|[] a IH]; cbn [attested_in app]; now rewrite ?IH. Qed.
Lemma final_app a b : final_in (a ++ b) = final_in a ++ final_in b.
Proof. induction a as [|[] a IH]; cbn [final_in app]; now rewrite ?IH. Qed.
Lemma lists_app a b : lists_in (a ++ b) = lists_in a ++ lists_in b.
Proof. induction a as [|[] a IH]; cbn [lists_in app]; now rewrite ?IH. Qed.

Lemma ufin_latest s h : latest (update_finalized_if_newer s h) = latest s.
Proof. unfold update_finalized_if_newer. now destruct (_ <? _). Qed.
Lemma ufin_final s h : finalized (update_finalized_if_newer s h) = if hd_slot (finalized s) <? hd_slot h then h else finalized s.
Proof. unfold update_finalized_if_newer. now destruct (_ <? _). Qed.
Lemma ufin_sums s h : summaries (update_finalized_if_newer s h) = summaries s.
Proof. unfold update_finalized_if_newer. now destruct (_ <? _). Qed.
Lemma ulat_latest s h : latest (update_latest_if_newer s h) = if hd_slot (latest s) <? hd_slot h then h else latest s.
Proof. unfold update_latest_if_newer. now destruct (_ <? _). Qed.
Lemma ulat_final s h : finalized (update_latest_if_newer s h) = finalized s.
Proof. unfold update_latest_if_newer. now destruct (_ <? _). Qed.
Lemma ulat_sums s h : summaries (update_latest_if_newer s h) = summaries s.
Proof. unfold update_latest_if_newer. now destruct (_ <? _). Qed.
Lemma usum_latest s h : latest (update_summaries_if_newer s h) = latest s.
Proof. unfold update_summaries_if_newer. now destruct (_ <? _). Qed.
Lemma usum_final s h : finalized (update_summaries_if_newer s h) = finalized s.
Proof. unfold update_summaries_if_newer. now destruct (_ <? _). Qed.
Lemma usum_sums s h : summaries (update_summaries_if_newer s h) = if blen (summaries s) <? blen h then h else summaries s.
Proof. unfold update_summaries_if_newer. now destruct (_ <? _). Qed.
#[local] Hint Rewrite ufin_latest ufin_final ufin_sums ulat_latest ulat_final ulat_sums usum_latest usum_final usum_sums : head.

(** Each of the three parts is the newest of what it started with and all that was reported since;
    of several equally new ones the first is kept. *)
Theorem C24_newest : forall s ops,
  first_newest hd_slot (latest s :: attested_in ops) (latest (head_run s ops)) /\
  first_newest hd_slot (finalized s :: final_in ops) (finalized (head_run s ops)) /\
  first_newest blen (summaries s :: lists_in ops) (summaries (head_run s ops)).
Proof.
  intros s ops. induction ops as [|o ops (IL & IF & IS)] using rev_ind.
  - cbn. split; [|split]; exists [], []; (split; [reflexivity|split; intros y []]).
  - rewrite head_run_snoc, attested_app, final_app, lists_app, !app_comm_cons.
    destruct o; cbn [head_step attested_in final_in lists_in]; autorewrite with head; rewrite ?app_nil_r;
      (split; [|split]); try assumption; apply first_newest_end; assumption.
Qed.
Print Assumptions C24_newest.

(** Whatever arrives in whatever order, nothing ever goes back: the headers stay or move to a
    larger slot, the list stays or becomes longer. *)
Theorem C24_monotone : forall s ops1 ops2,
  let before := head_run s ops1 in
  let after := head_run s (ops1 ++ ops2) in
  (latest after = latest before \/ hd_slot (latest before) < hd_slot (latest after)) /\
  (finalized after = finalized before \/ hd_slot (finalized before) < hd_slot (finalized after)) /\
  (summaries after = summaries before \/ blen (summaries before) < blen (summaries after)).
Proof.
  intros s ops1 ops2. unfold head_run. rewrite fold_left_app. fold (head_run s ops1). set (t := head_run s ops1). clearbody t.
  cbv zeta. induction ops2 as [|o ops IH] using rev_ind; [cbn; auto|].
  rewrite fold_left_app. cbn [fold_left]. set (u := fold_left head_step ops t) in *. clearbody u. clear ops.
  destruct IH as (A & B & C).
  destruct o; cbn [head_step]; autorewrite with head; (split; [|split]); auto;
    match goal with |- (if ?a <? ?b then _ else _) = _ \/ _ => destruct (a <? b) eqn:E; [right|auto] end;
    match goal with H : _ = _ \/ _ |- _ => destruct H as [H|H]; [rewrite <- H|]; lia end.
Qed.
Print Assumptions C24_monotone.

(** If every update's final header is not newer than the header that attests to it, the final
    header never overtakes the latest. *)
Theorem C24_final_not_ahead : forall s ops,
  hd_slot (finalized s) <= hd_slot (latest s) ->
  (forall a f, In (ProcessUpdate a f) ops \/ In (ProcessFinality a f) ops -> hd_slot f <= hd_slot a) ->
  hd_slot (finalized (head_run s ops)) <= hd_slot (latest (head_run s ops)).
Proof.
  intros s ops I. induction ops as [|o ops IH] using rev_ind; intros H; [exact I|].
  rewrite head_run_snoc.
  assert (IH' : hd_slot (finalized (head_run s ops)) <= hd_slot (latest (head_run s ops))).
  { apply IH. intros a f F. apply H. rewrite !in_app_iff. tauto. }
  assert (O : forall a f, o = ProcessUpdate a f \/ o = ProcessFinality a f -> hd_slot f <= hd_slot a).
  { intros a f F. apply H. rewrite !in_app_iff. cbn [In]. destruct F as [->| ->]; tauto. }
  clear IH H. set (u := head_run s ops) in *. clearbody u.
  destruct o; cbn [head_step]; autorewrite with head; try exact IH';
    try (specialize (O _ _ (or_introl eq_refl))); try (specialize (O _ _ (or_intror eq_refl)));
    repeat match goal with |- context [?a <? ?b] => destruct (a <? b) eqn:? end; lia.
Qed.
Print Assumptions C24_final_not_ahead.

(** The summary for a slot, once known, stays known; and if all lists are beginnings of one list
    (the chain's), the answer is always the entry of that list. *)
Theorem C24_summary : forall s ops1 ops2 slot x,
  historical_summary (head_run s ops1) slot = Some x ->
  (exists y, historical_summary (head_run s (ops1 ++ ops2)) slot = Some y) /\
  (forall whole,
     (forall l, In l (summaries s :: lists_in (ops1 ++ ops2)) -> exists rest, whole = l ++ rest) ->
     historical_summary (head_run s (ops1 ++ ops2)) slot = Some x /\
     exists i, historical_summary_index slot = Some i /\ nth_error whole (N.to_nat i) = Some x).
Proof.
  intros s ops1 ops2 slot x H.
  pose proof (C24_monotone s ops1 ops2) as (_ & _ & M). cbv zeta in M.
  unfold historical_summary in *. destruct (historical_summary_index slot) as [i|]; [|discriminate].
  set (l1 := summaries (head_run s ops1)) in *. set (l2 := summaries (head_run s (ops1 ++ ops2))) in *.
  assert (K : (N.to_nat i < length l2)%nat).
  { assert (N.to_nat i < length l1)%nat by (apply nth_error_Some; congruence).
    destruct M as [->|M]; [assumption|]. unfold blen in M. lia. }
  split.
  - destruct (nth_error l2 (N.to_nat i)) eqn:E; [eauto|]. apply nth_error_None in E. lia.
  - intros whole W.
    assert (P1 : In l1 (summaries s :: lists_in (ops1 ++ ops2))).
    { pose proof (C24_newest s ops1) as (_ & _ & b & a & E & _). fold l1 in E.
      rewrite lists_app, app_comm_cons. apply in_or_app. left. rewrite E. apply in_elt. }
    assert (P2 : In l2 (summaries s :: lists_in (ops1 ++ ops2))).
    { pose proof (C24_newest s (ops1 ++ ops2)) as (_ & _ & b & a & E & _). fold l2 in E. rewrite E. apply in_elt. }
    destruct (W _ P1) as [r1 E1]. destruct (W _ P2) as [r2 E2].
    assert (X : nth_error whole (N.to_nat i) = Some x).
    { rewrite E1, nth_error_app1; [exact H|]. apply nth_error_Some. congruence. }
    split; [|eauto]. rewrite <- X, E2, nth_error_app1 by assumption. reflexivity.
Qed.
Print Assumptions C24_summary.

Definition hd n : lc_header := {| hd_slot := n; hd_rest := [n] |}.
Definition sm n : summary := {| block_summary_root := [n]; state_summary_root := [n] |}.
Example C24_case :
  let s := new_head (hd 10) [sm 1] in
  let ops := [ProcessOptimistic (hd 20); ProcessFinality (hd 15) (hd 12); UpdateSummaries [sm 1; sm 2; sm 3];
              ProcessUpdate (hd 20) (hd 11); UpdateSummaries [sm 1; sm 2]] in
  latest (head_run s ops) = hd 20 /\ finalized (head_run s ops) = hd 12 /\ summaries (head_run s ops) = [sm 1; sm 2; sm 3] /\
  historical_summary (head_run s ops) (6209536 + 8192 * 2) = Some (sm 3) /\
  (forall l, In l (summaries s :: lists_in ops) -> exists rest, [sm 1; sm 2; sm 3; sm 4] = l ++ rest).
Proof.
  cbv zeta. split; [|split; [|split; [|split]]]; try (vm_compute; reflexivity).
  cbn [lists_in summaries new_head In]. intros l [<-|[<-|[<-|[]]]]; eexists; reflexivity.
Qed.
