(** Properties C44 and C60. *)
From Verif Require Import Base Payload_Model OfferAccept_Model Receive_Model Receive_Spec Receive_Proofs.

(** C44: in every history of transfers, fallback answers and lookup answers, starting from a
    store with only canonical content, only canonical content is written to the store or
    propagated, only valid content is handed to a lookup or poked, and the store still holds
    only canonical content at the end. *)
Theorem C44_only_valid_content :
  forall (S : Type) (ops : store_ops S) validate gossip_dropped disable_poke,
    sane_store ops ->
    forall arrivals s s' effects,
      all_canonical ops validate s ->
      receive_all ops validate gossip_dropped disable_poke s arrivals = (s', effects) ->
      all_canonical ops validate s' /\ Forall (effect_ok validate) effects.
Proof. intros. eapply receive_all_ok; eassumption. Qed.
Print Assumptions C44_only_valid_content.

(** What arrives later finds the store as the earlier arrivals left it, and its effects come after theirs *)
Theorem C44_in_order :
  forall (S : Type) (ops : store_ops S) validate gossip_dropped disable_poke earlier later s s1 s2 e1 e2,
    receive_all ops validate gossip_dropped disable_poke s earlier = (s1, e1) ->
    receive_all ops validate gossip_dropped disable_poke s1 later = (s2, e2) ->
    receive_all ops validate gossip_dropped disable_poke s (earlier ++ later) = (s2, e1 ++ e2).
Proof.
  intros S ops v g d earlier later. induction earlier as [|a l IH]; intros s s1 s2 e1 e2 H1 H2; cbn [receive_all app] in *; [injection H1 as <- <-; exact H2|].
  destruct (receive ops v g d s a) as (s0, e0). destruct (receive_all ops v g d s0 l) as (s0', e0') eqn:E. injection H1 as <- <-. rewrite (IH s0 s0' s2 e0' e2 E H2), app_assoc. reflexivity.
Qed.
Print Assumptions C44_in_order.

(** C44: canonical content that arrives is used: it is propagated, and it is written to the
    store unless the store said it does not want it. *)
Theorem C44_offered_content_used :
  forall (S : Type) (ops : store_ops S) validate gossip_dropped s accepted data items k v,
    decode_payload accepted data = Ok items -> In (k, v) items -> validate k v = CanonicallyValid ->
    let effects := snd (receive_offer ops validate gossip_dropped s accepted (Some data)) in
    (exists p, In (EPropagate p) effects /\ In (k, v) p) /\
    (In (EPut k v) effects \/ exists earlier, s_should ops (after_puts ops s earlier) k <> Ok Store).
Proof. exact @offer_canonical_used. Qed.
Print Assumptions C44_offered_content_used.

Theorem C44_fallback_content_used :
  forall (S : Type) (ops : store_ops S) validate gossip_dropped s k v,
    validate k v = CanonicallyValid ->
    let effects := snd (receive_fallback ops validate gossip_dropped s k (Some v)) in
    (exists p, In (EPropagate p) effects /\ In (k, v) p) /\
    (s_should ops s k = Ok Store -> In (EPut k v) effects).
Proof. exact @fallback_canonical_used. Qed.
Print Assumptions C44_fallback_content_used.

(** C44: a lookup gets the stored value if there is one; otherwise the received value if it
    is valid, and a rejection if it is not. *)
Theorem C44_lookup_answer :
  forall (S : Type) (ops : store_ops S) validate gossip_dropped disable_poke s k v,
    let effects := snd (receive_lookup ops validate gossip_dropped disable_poke s k v) in
    match s_get ops s k with
    | Ok (Some local) => In (EReply k (Some local)) effects
    | _ => match validate k v with
           | Invalid => In (EReply k None) effects
           | Valid => In (EReply k (Some v)) effects
           | CanonicallyValid =>
               In (EReply k (Some v)) effects /\ (s_should ops s k = Ok Store -> In (EPut k v) effects)
           end
    end.
Proof. exact @lookup_reply. Qed.
Print Assumptions C44_lookup_answer.

(** C60: however the transfer of accepted keys ends, every one of them is either taken out of
    the accept queue or passed to the fallback procedure. *)
Theorem C60_accepted_keys_accounted_partial :
  forall (S : Type) (ops : store_ops S) validate gossip_dropped s accepted data k,
    In k accepted ->
    let effects := snd (receive_offer ops validate gossip_dropped s accepted data) in
    In (ERemoveKey k) effects \/ In (EFallback k) effects.
Proof. exact @offer_keys_accounted. Qed.
Print Assumptions C60_accepted_keys_accounted_partial.

(** C60 does not hold in full: the fallback procedure leaves a key that is not subject to the
    radius (all beacon keys) in the accept queue. *)
Theorem C60_accepted_keys_released_refuted :
  exists (S : Type) (ops : store_ops S) validate affected_by_radius s accepted data k,
    In k accepted /\
    let effects := snd (receive_offer ops validate false s accepted data) in
    ~ In (ERemoveKey k) effects /\ (In (EFallback k) effects -> fallback_releases affected_by_radius k = false).
Proof.
  exists unit, (mk_ops (fun _ _ => Ok None) (fun _ _ => Ok Store) (fun s _ _ => (s, Ok []))),
    (fun _ _ => CanonicallyValid), (fun _ => false), tt, [[16]], None, [16].
  split; [left; reflexivity|]. cbn. split; [|reflexivity]. intros [H|[]]. discriminate H.
Qed.
Print Assumptions C60_accepted_keys_released_refuted.

(** The hypotheses are met: a store for one value that drops the old value for a new one. *)
Module Example_store.
Definition st := option (bytes * bytes).
Definition beq (a b : bytes) : bool := if list_eq_dec N.eq_dec a b then true else false.
Definition one : store_ops st := mk_ops
  (fun s k => Ok (match s with Some (k', v) => if beq k k' then Some v else None | None => None end))
  (fun s k => Ok (match s with Some (k', _) => if beq k k' then DAlreadyStored else Store | None => Store end))
  (fun s k v => (Some (k, v), Ok (match s with Some (k', v') => if beq k k' then [] else [(k', v')] | None => [] end))).

Lemma one_sane : sane_store one.
Proof.
  split; cbn.
  - intros s k v s' r k' v' [= <- <-] G. destruct (beq k' k) eqn:E; [|discriminate].
    injection G as <-. unfold beq in E. destruct list_eq_dec; [|discriminate]. right; auto.
  - intros [[k0 v0]|] k v s' d k' v' [= <- <-] H; [|destruct H].
    destruct (beq k k0); [destruct H|]. destruct H as [[= <- <-]|[]]. left. unfold beq.
    destruct list_eq_dec; [reflexivity|contradiction].
Qed.

(** A value is canonical if it repeats its key, valid if it starts with a zero. *)
Definition check (k v : bytes) : validation :=
  if beq k v then CanonicallyValid else match v with 0 :: _ => Valid | _ => Invalid end.

(** An offer of two values, one of them wrong; a lookup with a merely valid value; one with
    an invalid value; and a fallback answer that drops the stored value. *)
Example C44_example :
  receive_all one check true false None
    [AOffer [[1]; [2]] (Some [1; 1; 1; 3]); ALookup [5] [0; 1]; ALookup [6] [7]; AFallback [2] (Some [2])] =
  (Some ([2], [2]),
   [ERemoveKey [1]; EPut [1] [1]; EFallback [2]; EPropagate [([1], [1])];
    EReply [5] (Some [0; 1]); EPoke [5] [0; 1];
    EReply [6] None;
    EPut [2] [2]; EPropagate [([2], [2]); ([1], [1])]]).
Proof. vm_compute. reflexivity. Qed.
Example C44_example_start : all_canonical one check None.
Proof. intros k v. discriminate. Qed.
End Example_store.
