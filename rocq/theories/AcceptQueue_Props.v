(** Properties C09, C10 and C58. *)
From Verif Require Import Base AcceptQueue_Model AcceptQueue_Spec AcceptQueue_Proofs.

(** C09: in every history, while a transfer of a key is in progress no offer of that key is
    accepted, unless some offer came two minutes or more after the last offer of that key
    (so that the entry had expired). *)
Theorem C09_no_second_transfer :
  forall ops h e h2 k p t since p',
    history queue_default ops = h ++ e :: h2 ->
    in_progress h k p t since -> accepted k p' e -> timed_out k t (since ++ [e]).
Proof. exact no_second_transfer. Qed.
Print Assumptions C09_no_second_transfer.

(** C09: an offer is refused only if a transfer of that same key is in progress; offers of
    other keys have no influence. *)
Theorem C09_refused_only_in_progress :
  forall ops h e h2 k p,
    history queue_default ops = h ++ e :: h2 -> refused k p e ->
    exists p0 t since, in_progress h k p0 t since.
Proof. exact refused_in_progress. Qed.
Print Assumptions C09_refused_only_in_progress.

(** C09, C10: once a transfer has ended, in either way, the next offer of the key is accepted. *)
Theorem C09_accepted_after_end :
  forall ops h x mid e h2 now c k p,
    history queue_default ops = h ++ x :: mid ++ e :: h2 ->
    ends k x -> (forall y p', In y mid -> ~ accepted k p' y) -> fst e = Offer now c k p ->
    accepted k p e.
Proof. exact accepted_after_end. Qed.
Print Assumptions C09_accepted_after_end.

(** C10: a fallback peer offered this key while the transfer that failed was in progress and
    is not the peer of that transfer, whatever the random choice. *)
Theorem C10_fallback_offered :
  forall ops h c k q h2,
    history queue_default ops = h ++ (Failed c k, FailedResult (Some q)) :: h2 ->
    exists p t since, in_progress h k p t since /\ q <> p /\ exists x, In x since /\ refused k q x.
Proof. exact fallback_some. Qed.
Print Assumptions C10_fallback_offered.

(** C10: no fallback is handed out only if nobody else offered the key meanwhile (or the
    entry had expired). *)
Theorem C10_no_fallback_only_if_none :
  forall ops h c k p t since h2,
    history queue_default ops = h ++ (Failed c k, FailedResult None) :: h2 ->
    in_progress h k p t since ->
    (forall q x, In x since -> refused k q x -> q = p) \/ timed_out k t since.
Proof. exact fallback_none. Qed.
Print Assumptions C10_no_fallback_only_if_none.

(** C10: no peer is recorded twice for a key. *)
Theorem C10_no_peer_twice :
  forall ops e, In e (final queue_default ops) -> NoDup (e_origin e :: e_fallback e).
Proof. exact fallback_nodup. Qed.
Print Assumptions C10_no_peer_twice.

(** C10 (finding): peers are compared as whole records, so the node whose transfer failed can
    be its own fallback after publishing a newer record. *)
Theorem C10_fallback_is_other_node_refuted :
  exists ops h c k q h2 p t since,
    history queue_default ops = h ++ (Failed c k, FailedResult (Some q)) :: h2 /\
    in_progress h k p t since /\ enr_node q = enr_node p.
Proof.
  exists [Offer 0 0%nat [7] (mk_enr 1 1 1); Offer 10 0%nat [7] (mk_enr 1 2 2); Failed 0%nat [7]].
  exists [(Offer 0 0%nat [7] (mk_enr 1 1 1), OfferResult true); (Offer 10 0%nat [7] (mk_enr 1 2 2), OfferResult false)].
  exists 0%nat, [7], (mk_enr 1 2 2), [], (mk_enr 1 1 1), 0, [(Offer 10 0%nat [7] (mk_enr 1 2 2), OfferResult false)].
  split; [reflexivity|]. split; [|reflexivity].
  exists [], 0%nat. split; [reflexivity|]. split.
  - intros e [<-|[]]. intros [].
  - intros e p' [<-|[]]. intros (n & c & H). discriminate.
Qed.
Print Assumptions C10_fallback_is_other_node_refuted.

Definition ex_ops : list op :=
  [Offer 0 0%nat [1] (mk_enr 1 1 1); Offer 5 0%nat [2] (mk_enr 1 1 1); Offer 10 0%nat [1] (mk_enr 2 1 2);
   Offer 20 0%nat [1] (mk_enr 1 1 1); Offer 30 0%nat [1] (mk_enr 3 1 3); Failed 1%nat [1];
   Offer 40 0%nat [1] (mk_enr 3 1 3); Done [1]; Offer 50 0%nat [1] (mk_enr 2 1 2)].
Example C09_C10_example :
  map snd (history queue_default ex_ops) =
    [OfferResult true; OfferResult true; OfferResult false; OfferResult false; OfferResult false;
     FailedResult (Some (mk_enr 3 1 3)); OfferResult true; DoneResult; OfferResult true].
Proof. vm_compute. reflexivity. Qed.

(** C58: a key whose two minutes are over is accepted at its next offer provided that no
    other key is overdue. *)
Theorem C58_stuck_key_released_partial :
  forall q now c k p,
    NoDup (map e_key q) ->
    (forall e, In e q -> e_key e = k -> e_deadline e <= now) ->
    (forall e, In e q -> e_key e <> k -> now < e_deadline e) ->
    snd (add_key_to_queue now c k p q) = true.
Proof. exact released_alone. Qed.
Print Assumptions C58_stuck_key_released_partial.

(** C58 (finding): every refused offer restarts the two minutes, so a key whose transfer got
    lost is refused for an unlimited time while peers keep offering it. *)
Theorem C58_stuck_key_released_refuted :
  forall (k : bytes) (p : enr) (n : nat),
  exists ops h now,
    history queue_default ops = (Offer 0 0%nat k p, OfferResult true) :: h ++ [(Offer now 0%nat k p, OfferResult false)] /\
    N.of_nat n <= now /\
    (forall e, In e h -> ~ ends k e).
Proof. exact stuck_for_ever. Qed.
Print Assumptions C58_stuck_key_released_refuted.

(** C58 (finding): one poll removes one overdue key, so an overdue key is refused (and its
    two minutes start again) while another key is overdue too. *)
Theorem C58_overdue_key_refused :
  exists q now c k p,
    (forall e, In e q -> e_deadline e <= now) /\ NoDup (map e_key q) /\
    snd (add_key_to_queue now c k p q) = false.
Proof.
  exists (final queue_default [Offer 0 0%nat [1] (mk_enr 1 1 1); Offer 1 0%nat [2] (mk_enr 1 1 1)]).
  exists 500000, 1%nat, [2], (mk_enr 2 1 2). split; [|split].
  - intros e [<-|[<-|[]]]; vm_compute; discriminate.
  - vm_compute. repeat constructor; cbn; intuition discriminate.
  - vm_compute. reflexivity.
Qed.
Print Assumptions C58_overdue_key_refused.

Example C58_example :
  let q := final queue_default [Offer 0 0%nat [1] (mk_enr 1 1 1); Offer 100000 0%nat [2] (mk_enr 1 1 1)] in
  snd (add_key_to_queue 120000 0%nat [1] (mk_enr 2 1 2) q) = true /\
  snd (add_key_to_queue 119999 0%nat [1] (mk_enr 2 1 2) q) = false.
Proof. vm_compute. split; reflexivity. Qed.
