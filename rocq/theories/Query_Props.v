(** Properties C31, C32, C33, C34 and C35: recursive lookups. *)
From Verif Require Import Base.
From Verif Require Import Payload_Model Query_Model Query_Spec Query_Proofs.


(** ** C31: parallelism, and each peer once *)
(** In every history of a node lookup, no call panics; no peer is contacted twice; never more
    requests are out than the larger of parallelism and result count. *)
Theorem C31_node_lookup : forall c target initial q t,
  history c target initial q t ->
  let v := observe_all c target initial t in
  (forall a, exists q' r, step q a = Ok (q', r)) /\
  NoDup (asked v) /\ incl (asked v) (known v) /\
  in_flight c v <= N.max (parallelism c) (num_results c).
Proof.
  intros c target initial q t H v. pose proof (history_inv _ _ _ _ _ H) as I. fold v in I.
  split; [|split; [|split]].
  - intros a. destruct (step_inv c target q v a I) as (q' & r & e & E & _). now exists q', r.
  - exact (r_asked_nodup _ _ _ _ (proj1 I)).
  - exact (r_asked_known _ _ _ _ (proj1 I)).
  - pose proof (in_flight_le _ _ _ _ (proj1 I)). pose proof (r_cap _ _ _ _ (proj1 I)). lia.
Qed.
Print Assumptions C31_node_lookup.

(** A new request is made only to a peer not contacted before, and when it is made at most
    [allowance] requests are out: the parallelism, or once that many replies in a row brought
    no progress, the result count. *)
Theorem C31_node_lookup_contact : forall c target initial q t now id q',
  history c target initial q t -> 0 < parallelism c ->
  step q (CPoll now) = Ok (q', Some (QWaiting (Some id))) ->
  let v := observe_all c target initial t in
  In id (known v) /\ ~ In id (asked v) /\
  in_flight c (observe c target v (EPoll now (QWaiting (Some id)))) <= allowance c v.
Proof.
  intros c target initial q t now id q' H Hp Hs v. pose proof (history_inv _ _ _ _ _ H) as I. fold v in I.
  destruct (poll_inv c target q v now I) as (q2 & s & Hpoll & I2 & Hcontact & _).
  cbn [step] in Hs. rewrite Hpoll in Hs. cbn in Hs. injection Hs as -> ->.
  destruct (Hcontact id eq_refl) as (Hcap & Hw & Hk & Ha & _). split; [exact Hk|]. split; [exact Ha|].
  pose proof (in_flight_le _ _ _ _ (proj1 I2)). pose proof (allowance_waiting _ _ _ _ (proj1 I) Hp Hcap). lia.
Qed.
Print Assumptions C31_node_lookup_contact.

(** The same for content lookups, if verdicts are only sent for announced content. *)
Theorem C31_content_lookup : forall c target initial f t,
  content_history c target initial f t ->
  let v := observe_all c target initial t in
  (forall a, verdict_allowed t a -> exists f' r, content_step f a = Ok (f', r)) /\
  NoDup (asked v) /\ incl (asked v) (known v) /\
  in_flight c v <= N.max (parallelism c) (num_results c).
Proof.
  intros c target initial f t H v. pose proof (content_history_inv _ _ _ _ _ H) as I. pose proof (i_rel _ _ _ _ _ I) as R. fold v in R.
  split; [|split; [|split]].
  - intros a Ha. destruct (content_step_inv c target initial f t a I Ha) as (q' & r & e & E & _). now exists q', r.
  - exact (r_asked_nodup _ _ _ _ R).
  - exact (r_asked_known _ _ _ _ R).
  - pose proof (in_flight_le _ _ _ _ R). pose proof (r_cap _ _ _ _ R). lia.
Qed.
Print Assumptions C31_content_lookup.

Theorem C31_content_lookup_contact : forall c target initial f t now id f',
  content_history c target initial f t -> 0 < parallelism c ->
  content_step f (CCPoll now) = Ok (f', Some (QWaiting (Some id))) ->
  let v := observe_all c target initial t in
  In id (known v) /\ ~ In id (asked v) /\
  in_flight c (observe c target v (EPoll now (QWaiting (Some id)))) <= allowance c v.
Proof.
  intros c target initial f t now id f' H Hp Hs v. pose proof (content_history_inv _ _ _ _ _ H) as I.
  destruct (content_poll_inv c target initial f t now I) as (f2 & s & Hpoll & I2 & _ & Hcontact & _).
  cbn [content_step] in Hs. rewrite Hpoll in Hs. cbn in Hs. injection Hs as -> ->.
  destruct (Hcontact id eq_refl) as (Hcap & Hw & Hk & Ha & _). split; [exact Hk|]. split; [exact Ha|].
  pose proof (in_flight_le _ _ _ _ (i_rel _ _ _ _ _ I2)) as Hfl. rewrite observe_all_snoc in Hfl. fold v in Hfl.
  pose proof (allowance_waiting _ _ _ _ (i_rel _ _ _ _ _ I) Hp Hcap) as Hal. fold v in Hal. lia.
Qed.
Print Assumptions C31_content_lookup_contact.

(** ** C32: results *)
(** The result lists the closest peers that answered, closest first.  When the lookup is over,
    every known peer that is closer than some returned peer, and every known peer at all if
    fewer than [num_results] are returned, was contacted and answered, failed or ran out of
    time. *)
Theorem C32_result : forall c target initial q t,
  history c target initial q t ->
  let v := observe_all c target initial t in
  (exists l, closest_first target l (answered v) /\ into_result q = firstn (N.to_nat (num_results c)) l) /\
  (over v = true ->
   forall id, In id (known v) ->
     (blen (into_result q) < num_results c \/
      exists r, In r (into_result q) /\ distance_to target id <= distance_to target r) ->
     settled c v id).
Proof.
  intros c target initial q t H v. destruct (history_inv _ _ _ _ _ H) as [R W]. fold v in R, W. split; [|exact W].
  exists (succeeded_ids (q_peers q)). split; [exact (result_sorted _ _ _ _ R)|].
  unfold into_result. now rewrite (r_config _ _ _ _ R).
Qed.
Print Assumptions C32_result.

(** Peers are contacted nearest first: when a peer is contacted, every known peer that is closer
    to the target was contacted before. *)
Theorem C32_nearest_first : forall c target initial q t now id q',
  history c target initial q t ->
  step q (CPoll now) = Ok (q', Some (QWaiting (Some id))) ->
  let v := observe_all c target initial t in
  forall k, In k (known v) -> distance_to target k < distance_to target id -> In k (asked v).
Proof.
  intros c target initial q t now id q' H Hs v. pose proof (history_inv _ _ _ _ _ H) as I. fold v in I.
  destruct (poll_inv c target q v now I) as (q2 & s & Hpoll & I2 & Hcontact & _).
  cbn [step] in Hs. rewrite Hpoll in Hs. cbn in Hs. injection Hs as -> ->.
  destruct (Hcontact id eq_refl) as (_ & _ & _ & _ & Hn). exact Hn.
Qed.
Print Assumptions C32_nearest_first.

(** ** C33: termination *)
(** If all peers ever named belong to [all], at most [blen all] requests are made, and at most
    that many replies and failures count.  A poll made when all requests are answered or
    failed either makes a request or finishes the lookup, so at most [blen all] such polls do
    not finish it. *)
Theorem C33_terminates : forall c target initial q t all,
  history c target initial q t -> 0 < parallelism c -> 0 < num_results c ->
  incl (named initial t) all ->
  let v := observe_all c target initial t in
  blen (contacted v) <= blen all /\
  blen (answered v) + blen (failed v) <= blen (contacted v) /\
  idle_polls c target initial t <= blen (contacted v) /\
  (idle v = true -> forall now, exists q' s, step q (CPoll now) = Ok (q', Some s) /\
     (s = QFinished \/ exists id, s = QWaiting (Some id) /\ ~ In id (asked v))).
Proof.
  intros c target initial q t all H Hp Hn Hall v.
  assert (Poll : forall q t, history c target initial q t -> idle (observe_all c target initial t) = true ->
    forall now, exists q' s, step q (CPoll now) = Ok (q', Some s) /\
     (s = QFinished \/ exists id, s = QWaiting (Some id) /\ ~ In id (asked (observe_all c target initial t)))).
  { clear -Hp Hn. intros q t H Hi now. pose proof (history_inv _ _ _ _ _ H) as I.
    destruct (poll_inv c target q _ now I) as (q2 & s & Hpoll & I2 & Hcontact & Hz).
    exists q2, s. cbn [step]. rewrite Hpoll. split; [reflexivity|].
    assert (H0 : q_waiting q = 0) by (apply (none_waiting c target q _ (proj1 I)); now apply idle_spec).
    destruct Hz as [Hz|(id & Hz)]; [exact H0| |now left|].
    - intros Hf. apply at_capacity_zero; try assumption; now rewrite (r_config _ _ _ _ (proj1 I)).
    - right. exists id. split; [exact Hz|]. apply (Hcontact id Hz). }
  pose proof (history_inv _ _ _ _ _ H) as I. destruct (rel_counts _ _ _ _ (proj1 I)) as [C1 C2]. fold v in C1, C2.
  split; [|split; [exact C2|split; [|exact (Poll q t H)]]].
  - assert (blen (known v) <= blen all); [|lia].
    apply nodup_incl_blen; [exact (r_known_nodup _ _ _ _ (proj1 I))|].
    intros x Hx. apply Hall. now apply (known_named c target).
  - clear C1 C2 Hall I. unfold v. clear v. induction H as [|q t a q' r e H IH Hs He]; [reflexivity|].
    rewrite observe_all_snoc, idle_snoc.
    assert (Mono : blen (contacted (observe_all c target initial t)) <= blen (contacted (observe c target (observe_all c target initial t) e))).
    { destruct e as [now [[x|]| | |]|id [l|u]|id|y]; cbn [observe contacted]; try destruct (counts _ id); cbn [contacted]; rewrite ?blen_app; lia. }
    destruct e as [now s|id r0|id|y]; try lia. destruct (idle (observe_all c target initial t)) eqn:Hi; [|destruct s; lia].
    destruct a; destruct r; try discriminate He. injection He as -> ->.
    destruct (Poll q t H Hi now) as (q2 & s2 & Hs2 & Hor). rewrite Hs in Hs2. injection Hs2 as <- <-.
    destruct Hor as [->|(id & -> & _)]; [lia|]. cbn [observe contacted]. rewrite blen_app, blen_cons. change (blen (@nil (N * N))) with 0. lia.
Qed.
Print Assumptions C33_terminates.

(** The same for content lookups; there a poll may also announce content for validation, at
    most once per peer that answered. *)
Theorem C33_content_terminates : forall c target initial f t all,
  content_history c target initial f t -> 0 < parallelism c -> 0 < num_results c ->
  incl (named initial t) all ->
  let v := observe_all c target initial t in
  blen (contacted v) <= blen all /\
  blen (answered v) + blen (failed v) <= blen (contacted v) /\
  blen (announced t) <= blen (answered v) /\
  (idle v = true -> blen (verdicts t) = blen (announced t) ->
   forall now, exists f' s, content_step f (CCPoll now) = Ok (f', Some s) /\
     (s = QFinished \/ (exists id, s = QValidating id /\ ~ In id (announced t)) \/
      exists id, s = QWaiting (Some id) /\ ~ In id (asked v))).
Proof.
  intros c target initial f t all H Hp Hn Hall v.
  pose proof (content_history_inv _ _ _ _ _ H) as I. pose proof (i_rel _ _ _ _ _ I) as R.
  destruct (rel_counts _ _ _ _ R) as [C1 C2]. fold v in C1, C2, R.
  assert (Nq : NoDup (announced t ++ fc_pending f)) by (rewrite (i_queue _ _ _ _ _ I); exact (i_nodup _ _ _ _ _ I)).
  split; [|split; [exact C2|split]].
  - assert (blen (known v) <= blen all); [|lia].
    apply nodup_incl_blen; [exact (r_known_nodup _ _ _ _ R)|].
    intros x Hx. apply Hall. now apply (known_named c target).
  - assert (E : blen (announced t ++ fc_pending f) <= blen (answered v)).
    { apply nodup_incl_blen; [exact Nq|]. rewrite (i_queue _ _ _ _ _ I). exact (i_suppliers _ _ _ _ _ I). }
    rewrite blen_app in E. lia.
  - intros Hi Hv now. destruct (content_poll_inv c target initial f t now I) as (f' & s & E & I' & A1 & A2 & A3 & _).
    exists f', s. cbn [content_step]. rewrite E. split; [reflexivity|].
    assert (H0 : q_waiting (fc_query f) = 0) by (apply (none_waiting c target _ v R); now apply idle_spec).
    destruct A3 as [A3|[(id & A3)|(id & A3)]]; [exact H0| |exact Hv|now left| |].
    + intros Hf. apply at_capacity_zero; try assumption; now rewrite (r_config _ _ _ _ R).
    + right. left. exists id. split; [exact A3|].
      pose proof (i_queue _ _ _ _ _ I') as Q. pose proof (i_nodup _ _ _ _ _ I') as N'. rewrite <- Q in N'. rewrite announced_snoc, A3 in N'.
      rewrite <- app_assoc in N'. intros Hin. apply NoDup_remove_2 in N'. apply N'. apply in_app_iff. now left.
    + right. right. exists id. split; [exact A3|]. apply (A2 id A3).
Qed.
Print Assumptions C33_content_terminates.

Definition slow : config := {| parallelism := 1; num_results := 3; peer_timeout := 2 |}.
Definition slow_calls : list call := [CPoll 0; CPoll 5; CPoll 6; CSuccess 8 [4]].
Fixpoint run (q : query) (t : list event) (l : list call) : outcome (query * list event) :=
  match l with
  | [] => Ok (q, t)
  | a :: l' =>
      match step q a with
      | Ok (q', r) => match event_of a r with Some e => run q' (t ++ [e]) l' | None => Err end
      | _ => Err
      end
  end.
Lemma run_history c target initial : forall l q t q' t', history c target initial q t -> run q t l = Ok (q', t') ->
  history c target initial q' t'.
Proof.
  induction l as [|a l IH]; intros q t q' t' H; cbn [run]; [intros [= <- <-]; exact H|].
  destruct (step q a) as [[q1 r]| |] eqn:Hs; try discriminate.
  destruct (event_of a r) as [e|] eqn:He; [|discriminate]. apply IH. exact (H_step c target initial q t a q1 r e H Hs He).
Qed.
(** Peer timeouts alone do not get a lookup going again: a lookup can be waiting for one silent
    peer, know another peer it never contacted, and answer every later poll, however late, that
    it is at capacity. *)
Theorem C33_peer_timeout_refuted :
  exists c target initial q t,
    history c target initial q t /\ 0 < parallelism c /\ 0 < num_results c /\
    let v := observe_all c target initial t in
    over v = false /\ (exists id, In id (known v) /\ ~ In id (asked v)) /\
    (exists late, forall now, late <= now ->
       in_flight c (observe c target v (EPoll now QAtCapacity)) = 0 /\ step q (CPoll now) = Ok (q, Some QAtCapacity)).
Proof.
  exists slow, 0, [8; 16].
  assert (E : exists x, run (new_query slow 0 [8; 16]) [] slow_calls = Ok x) by (eexists; vm_compute; reflexivity). destruct E as [[q t] E].
  exists q, t. split; [exact (run_history _ _ _ _ _ _ _ _ (H_start _ _ _) E)|].
  injection E as <- <-. split; [reflexivity|]. split; [reflexivity|]. cbn zeta.
  split; [reflexivity|]. split; [exists 4; split; [right; right; now left|intros [X|[X|[]]]; discriminate X]|].
  exists 8. intros now Hnow. split; [|reflexivity].
  match goal with |- context [observe_all ?a ?b ?c ?d] => let x := eval vm_compute in (observe_all a b c d) in change (observe_all a b c d) with x end.
  unfold in_flight, out_at. cbn [observe contacted answered failed clock filter mem existsb fst snd negb andb orb slow peer_timeout].
  change (8 =? 8) with true. change (16 =? 8) with false. cbn [negb andb orb].
  assert (N.max 6 now <? 6 + 2 = false) as -> by (apply N.ltb_ge; lia). reflexivity.
Qed.
Print Assumptions C33_peer_timeout_refuted.

(** ** C34: validated content *)
(** A content lookup reports content only if it was given a positive verdict, the first one
    given; the peers reported as cancelled are contacted peers that neither answered nor
    failed. *)
Theorem C34_only_validated : forall c target initial f t val cancelled,
  content_history c target initial f t -> fc_into_result f = Some (val, cancelled) ->
  let v := observe_all c target initial t in
  (exists before after, verdicts t = before ++ Some val :: after /\ Forall (fun x => x = None) before) /\
  forall id, In id cancelled -> In id (asked v) /\ ~ In id (answered v) /\ ~ In id (failed v) /\ id <> v_peer val.
Proof.
  intros c target initial f t val cancelled H Hr v. pose proof (content_history_inv _ _ _ _ _ H) as I.
  unfold fc_into_result in Hr. destruct (fc_validated f) as [w|] eqn:Hv; [|discriminate]. injection Hr as -> <-.
  split.
  - destruct (i_channel _ _ _ _ _ I) as (past & Hp & Hm). rewrite Hv in Hm. destruct Hm as (_ & past0 & -> & Hn & _).
    exists past0, (fc_channel f). split; [|exact Hn]. rewrite Hp, <- app_assoc. reflexivity.
  - intros id Hid. unfold pending_peers in Hid. apply in_flat_map in Hid. destruct Hid as (e & He & Hid).
    pose proof (r_entries _ _ _ _ (i_rel _ _ _ _ _ I)) as E. rewrite Forall_forall in E. specialize (E e He). fold v in E. unfold entry_ok in E.
    destruct (p_state (snd e)); try now destruct Hid. destruct (p_id (snd e) =? v_peer val) eqn:Hne; [destruct Hid|].
    destruct Hid as [<-|[]]. apply N.eqb_neq in Hne. destruct E as ((n & Hc & _) & Ha & Hf).
    split; [apply in_asked; now exists n|]. auto.
Qed.
Print Assumptions C34_only_validated.

(** Content is announced for validation in the order it was supplied, each supplier at most
    once, and never while an earlier announcement has no verdict; what the lookup then hands
    over for a supplier is what that peer supplied. *)
Theorem C34_one_at_a_time : forall c target initial f t,
  content_history c target initial f t ->
  NoDup (announced t) /\
  (exists waiting, map fst (supplied c target initial t) = announced t ++ waiting) /\
  blen (announced t) <= blen (verdicts t) + 1 /\
  (forall id u, In (id, u) (supplied c target initial t) ->
     exists poke, pending_validation_result f id = Some (u, poke) /\ ~ In id poke).
Proof.
  intros c target initial f t H. pose proof (content_history_inv _ _ _ _ _ H) as I.
  split; [|split; [|split]].
  - pose proof (i_nodup _ _ _ _ _ I) as N. rewrite <- (i_queue _ _ _ _ _ I) in N. clear -N.
    induction (announced t) as [|a l IH]; [constructor|]. cbn in N. inversion N as [|x y Hx Hy]; subst.
    constructor; [|now apply IH]. intros Hi. apply Hx. apply in_app_iff. now left.
  - exists (fc_pending f). symmetry. exact (i_queue _ _ _ _ _ I).
  - destruct (i_channel _ _ _ _ _ I) as (past & Hp & Hm). pose proof (i_one _ _ _ _ _ I). rewrite Hp, blen_app.
    destruct (fc_validated f).
    + destruct Hm as (_ & past0 & -> & _ & Hc). rewrite blen_app. lia.
    + destruct Hm as (_ & Hc). lia.
  - intros id u Hin. unfold pending_validation_result. rewrite (i_unchecked _ _ _ _ _ I).
    assert (Hf : find_unchecked id (rev (supplied c target initial t)) = Some u).
    { pose proof (i_nodup _ _ _ _ _ I) as N. apply NoDup_rev in N. rewrite <- map_rev in N. apply in_rev in Hin. revert N Hin.
      generalize (rev (supplied c target initial t)). induction l as [|[k w] l IH]; [intros _ []|].
      cbn [map fst find_unchecked]. intros N Hin. inversion N as [|x y Hx Hy]; subst. destruct (id =? k) eqn:E.
      - apply N.eqb_eq in E. subst k. destruct Hin as [Hin|Hin]; [injection Hin as ->; reflexivity|].
        exfalso. apply Hx. apply in_map_iff. now exists (id, u).
      - apply N.eqb_neq in E. destruct Hin as [Hin|Hin]; [injection Hin as -> ->; now destruct E|now apply IH]. }
    rewrite Hf. exists (nodes_to_poke f id). split; [reflexivity|].
    intros Hi. unfold nodes_to_poke in Hi. apply firstn_incl in Hi. apply in_flat_map in Hi. destruct Hi as (e & _ & Hi).
    destruct (p_state (snd e)); try now destruct Hi. destruct (p_id (snd e) =? id) eqn:E; [destruct Hi|].
    destruct Hi as [Hi|[]]. apply N.eqb_neq in E. now apply E.
Qed.
Print Assumptions C34_one_at_a_time.

(** Whatever is announced was supplied by that peer in this lookup. *)
Theorem C34_announces_supplied : forall c target initial f t now id f',
  content_history c target initial f t -> content_step f (CCPoll now) = Ok (f', Some (QValidating id)) ->
  exists u, In (id, u) (supplied c target initial t).
Proof.
  intros c target initial f t now id f' H Hs. pose proof (content_history_inv _ _ _ _ _ H) as I.
  destruct (content_poll_inv c target initial f t now I) as (f2 & s & E & I' & A1 & _).
  cbn [content_step] in Hs. rewrite E in Hs. cbn in Hs. injection Hs as -> ->. exact (A1 id eq_refl).
Qed.
Print Assumptions C34_announces_supplied.

(** A positive verdict ends the lookup at the next poll with that content. *)
Theorem C34_valid_content_returned : forall c target initial f t val now,
  content_history c target initial f (t ++ [EVerdict (Some val)]) ->
  over (observe_all c target initial t) = false ->
  exists f', content_step f (CCPoll now) = Ok (f', Some QFinished) /\ exists cancelled, fc_into_result f' = Some (val, cancelled).
Proof.
  intros c target initial f t val now H Ho.
  inversion H as [E0|f0 t0 a f1 r e H0 Ha Hs He Ef Et]; [now destruct t|].
  apply app_inj_tail in Et. destruct Et as [-> ->]. subst f1.
  destruct a as [n|id r0|id|v]; destruct r as [s0|]; cbn in He; try discriminate He. injection He as ->.
  cbn [content_step] in Hs. injection Hs as <-.
  pose proof (content_history_inv _ _ _ _ _ H0) as I0.
  pose proof (content_history_inv _ _ _ _ _ H) as I.
  destruct (content_poll_inv c target initial (fc_send f0 (Some val)) _ now I) as (f' & s & E & I' & _ & _ & _ & A).
  assert (Hf : is_finished (fc_query (fc_send f0 (Some val))) = false).
  { cbn. rewrite <- (r_over _ _ _ _ (i_rel _ _ _ _ _ I0)). exact Ho. }
  assert (Hch : fc_channel (fc_send f0 (Some val)) = [Some val]).
  { cbn [fc_send fc_channel]. destruct (i_channel _ _ _ _ _ I0) as (past & Hp & Hm).
    destruct (fc_validated f0); [destruct Hm; congruence|]. destruct Hm as [_ Hm]. cbn in Ha.
    pose proof (i_one _ _ _ _ _ I0). rewrite Hp, blen_app in Ha. destruct (fc_channel f0); [reflexivity|].
    exfalso. rewrite blen_cons in Ha. lia. }
  destruct (A val Hf Hch) as [-> Hval]. exists f'. cbn [content_step]. rewrite E. split; [reflexivity|].
  unfold fc_into_result. rewrite Hval. eauto.
Qed.
Print Assumptions C34_valid_content_returned.

(** A content lookup gives up only when every known peer was contacted and is settled, and every
    value supplied got a negative verdict. *)
Theorem C34_gives_up_late : forall c target initial f t,
  content_history c target initial f t ->
  let v := observe_all c target initial t in
  over v = true -> fc_into_result f = None ->
  (forall id, In id (known v) -> settled c v id) /\
  blen (verdicts t) = blen (supplied c target initial t) /\ Forall (fun x => x = None) (verdicts t).
Proof.
  intros c target initial f t H v Ho Hr. pose proof (content_history_inv _ _ _ _ _ H) as I.
  assert (Hv : fc_validated f = None) by (unfold fc_into_result in Hr; destruct (fc_validated f); [discriminate|reflexivity]).
  destruct (i_over _ _ _ _ _ I Ho Hv) as (A & B & C). split; [exact C|].
  destruct (i_channel _ _ _ _ _ I) as (past & Hp & Hm). rewrite Hv, B in Hm. destruct Hm as [Hn Hc].
  pose proof (i_queue _ _ _ _ _ I) as Q. rewrite A, app_nil_r in Q. pose proof (i_verdicts _ _ _ _ _ I) as L.
  assert (Lq : blen (announced t) = blen (supplied c target initial t)) by (rewrite Q; unfold blen; now rewrite map_length).
  assert (Hch : fc_channel f = []).
  { rewrite Hp, blen_app in L. destruct (fc_channel f); [reflexivity|]. rewrite blen_cons in L. lia. }
  rewrite Hp, Hch, app_nil_r. split; [lia|exact Hn].
Qed.
Print Assumptions C34_gives_up_late.

(** ** C35: every validation is told an outcome *)
(** It is, exactly one, for content sent inline, and for transfers from a peer whose record is
    found and with which a protocol version is shared. *)
Theorem C35_one_verdict_partial : forall judge peer u enr_known version transfer,
  (forall id, u = UConnection id -> enr_known = true /\ version <> None) ->
  exists v, verdicts_sent judge peer (Some u) enr_known version transfer = [v] /\
    forall val, v = Some val -> v_peer val = peer /\ exists content, judge content = Some (v_content val).
Proof.
  intros judge peer u known version transfer H.
  assert (P : forall utp content, exists v,
    [match judge content with Some c => Some {| v_content := c; v_utp := utp; v_peer := peer |} | None => None end] = [v] /\
    forall val, v = Some val -> v_peer val = peer /\ exists content, judge content = Some (v_content val)).
  { intros utp content. eexists. split; [reflexivity|]. destruct (judge content) as [x|] eqn:E; [|discriminate].
    intros val [= <-]. split; [reflexivity|]. now exists content. }
  assert (Nn : exists v : option validated, [None] = [v] /\ forall val, v = Some val -> v_peer val = peer /\ exists content, judge content = Some (v_content val)).
  { exists None. split; [reflexivity|discriminate]. }
  destruct u as [content|id]; cbn [verdicts_sent]; [apply P|].
  destruct (H id eq_refl) as [-> Hv]. destruct version as [v1|]; [|now destruct Hv].
  destruct transfer as [data|]; [|exact Nn]. destruct v1; [|apply P].
  destruct (decode_single_content_payload data); [apply P|exact Nn|exact Nn].
Qed.
Print Assumptions C35_one_verdict_partial.

(** Otherwise no verdict is sent, and then the lookup makes no request, starts no validation and
    does not finish, whatever else happens: every poll answers that it is at capacity. *)
Definition not_verdict (a : content_call) : Prop := match a with CCVerdict _ => False | _ => True end.
Fixpoint content_run (f : content_query) (l : list content_call) : outcome content_query :=
  match l with
  | [] => Ok f
  | a :: l' => match content_step f a with Ok (f', _) => content_run f' l' | Err => Err | Panic => Panic end
  end.
Lemma stuck_run : forall l f f', Forall not_verdict l -> content_run f l = Ok f' ->
  is_finished (fc_query f) = false -> fc_channel f = [] -> 0 < fc_validating f ->
  is_finished (fc_query f') = false /\ fc_channel f' = [] /\ 0 < fc_validating f'.
Proof.
  induction l as [|a l IH]; intros f f' Hl Hr H1 H2 H3; cbn [content_run] in Hr; [injection Hr as <-; auto|].
  destruct (content_step f a) as [[f1 r]| |] eqn:Hs; try discriminate.
  assert (Hl' : Forall not_verdict l) by (inversion Hl; assumption). assert (Ha : not_verdict a) by (inversion Hl; assumption).
  enough (is_finished (fc_query f1) = false /\ fc_channel f1 = [] /\ 0 < fc_validating f1) by (apply (IH f1); tauto).
  assert (Settle : forall id s q', settle (fc_query f) id s = Ok (Some q') -> is_finished q' = false).
  { intros id s q'. unfold settle. rewrite H1. destruct (find_peer _ _) as [p|]; [|discriminate].
    destruct (p_state p); try discriminate; [destruct (_ =? 0); try discriminate|]; intros [= <-]; exact H1. }
  assert (Learn : forall q nodes, is_finished q = false -> is_finished (learn q nodes) = false).
  { intros q nodes Hq. unfold learn. destruct (incorporate _ _ _ _ _ _) as [m flag]. unfold is_finished, next_progress in *. cbn [with_progress q_progress].
    destruct (q_progress q); [|now destruct flag|discriminate]. now destruct (_ <=? _). }
  destruct a as [now|id r0|id|v]; cbn [content_step] in Hs; [| | |destruct Ha].
  - unfold fc_poll in Hs. rewrite H1, H2 in Hs. unfold fc_advance in Hs.
    assert (0 <? fc_validating f = true) as E by (apply N.ltb_lt; exact H3). rewrite E in Hs. cbn in Hs. injection Hs as <- <-. auto.
  - unfold fc_on_success in Hs. destruct (settle (fc_query f) id Succeeded) as [[q'|]| |] eqn:E; try discriminate; cbn in Hs; injection Hs as <- <-; [|auto].
    specialize (Settle _ _ _ E). destruct r0; cbn [with_query fc_query fc_channel fc_validating]; auto.
  - unfold fc_on_failure, on_failure in Hs. destruct (settle (fc_query f) id Failed) as [[q'|]| |] eqn:E; try discriminate; cbn in Hs; injection Hs as <- <-; cbn [with_query fc_query fc_channel fc_validating]; [|auto].
    specialize (Settle _ _ _ E). auto.
Qed.
Theorem C35_no_verdict_refuted :
  (forall judge peer id version transfer,
     verdicts_sent judge peer (Some (UConnection id)) false version transfer = []) /\
  (forall judge peer id enr_known transfer,
     verdicts_sent judge peer (Some (UConnection id)) enr_known None transfer = []) /\
  forall c target initial f t,
    content_history c target initial f t ->
    over (observe_all c target initial t) = false -> blen (verdicts t) < blen (announced t) ->
    forall calls f', Forall not_verdict calls -> content_run f calls = Ok f' ->
    forall now, content_step f' (CCPoll now) = Ok (f', Some QAtCapacity).
Proof.
  split; [reflexivity|]. split; [intros; cbn; now destruct enr_known|].
  intros c target initial f t H Ho Hv calls f' Hc Hr now. pose proof (content_history_inv _ _ _ _ _ H) as I.
  pose proof (i_one _ _ _ _ _ I) as H1.
  destruct (i_channel _ _ _ _ _ I) as (past & Hp & Hm). destruct (fc_validated f); [destruct Hm; congruence|]. destruct Hm as [_ Hm].
  rewrite Hp, blen_app in Hv.
  destruct (stuck_run calls f f' Hc Hr) as (A & B & C).
  - rewrite <- (r_over _ _ _ _ (i_rel _ _ _ _ _ I)). exact Ho.
  - destruct (fc_channel f); [reflexivity|]. exfalso. rewrite blen_cons in Hv. lia.
  - lia.
  - cbn [content_step]. unfold fc_poll. rewrite A, B. unfold fc_advance.
    assert (0 <? fc_validating f' = true) as -> by (apply N.ltb_lt; exact C). reflexivity.
Qed.
Print Assumptions C35_no_verdict_refuted.

(** ** Examples *)
(** A node lookup: two peers are known; the nearer answers with a third one, which answers too,
    while the other fails. *)
Example node_lookup_example :
  let c := {| parallelism := 2; num_results := 2; peer_timeout := 10 |} in
  exists q t, history c 0 [8; 16] q t /\
    run (new_query c 0 [8; 16]) [] [CPoll 0; CPoll 1; CPoll 2; CSuccess 8 [1; 99]; CPoll 3; CFailure 16; CSuccess 1 [8]; CPoll 4; CPoll 5] = Ok (q, t) /\
    let v := observe_all c 0 [8; 16] t in
    known v = [8; 16; 1; 99] /\ asked v = [8; 16; 1] /\ answered v = [8; 1] /\ failed v = [16] /\ over v = true /\
    into_result q = [1; 8] /\ idle_polls c 0 [8; 16] t = 1.
Proof.
  cbn zeta. set (c := {| parallelism := 2; num_results := 2; peer_timeout := 10 |}).
  assert (E : exists x, run (new_query c 0 [8; 16]) [] [CPoll 0; CPoll 1; CPoll 2; CSuccess 8 [1; 99]; CPoll 3; CFailure 16; CSuccess 1 [8]; CPoll 4; CPoll 5] = Ok x) by (eexists; vm_compute; reflexivity). destruct E as [[q t] E].
  exists q, t. split; [exact (run_history _ _ _ _ _ _ _ _ (H_start _ _ _) E)|]. split; [exact E|].
  vm_compute in E. injection E as <- <-. repeat split; vm_compute; reflexivity.
Qed.

(** A content lookup: the first value is rejected, the second accepted. *)
Fixpoint content_runs (f : content_query) (t : list event) (l : list content_call) : outcome (content_query * list event) :=
  match l with
  | [] => Ok (f, t)
  | a :: l' =>
      match content_step f a with
      | Ok (f', r) => match content_event_of a r with Some e => content_runs f' (t ++ [e]) l' | None => Err end
      | _ => Err
      end
  end.
Definition allowedb (t : list event) (a : content_call) : bool :=
  match a with CCVerdict _ => blen (verdicts t) <? blen (announced t) | _ => true end.
Fixpoint all_allowed (f : content_query) (t : list event) (l : list content_call) : bool :=
  match l with
  | [] => true
  | a :: l' =>
      allowedb t a && match content_step f a with
      | Ok (f', r) => match content_event_of a r with Some e => all_allowed f' (t ++ [e]) l' | None => false end
      | _ => false
      end
  end.
Lemma content_runs_history c target initial : forall l f t f' t', content_history c target initial f t ->
  all_allowed f t l = true -> content_runs f t l = Ok (f', t') -> content_history c target initial f' t'.
Proof.
  induction l as [|a l IH]; intros f t f' t' H; cbn [content_runs all_allowed]; [intros _ [= <- <-]; exact H|].
  intros Ha. apply andb_true_iff in Ha. destruct Ha as [Ha Hl].
  destruct (content_step f a) as [[f1 r]| |] eqn:Hs; try discriminate.
  destruct (content_event_of a r) as [e|] eqn:He; [|discriminate]. apply IH; [|exact Hl].
  apply (CH_step c target initial f t a f1 r e H); [|exact Hs|exact He].
  destruct a; try exact Logic.I. cbn in *. now apply N.ltb_lt.
Qed.
Definition good : validated := {| v_content := [7]; v_utp := false; v_peer := 16 |}.
Definition content_calls : list content_call :=
  [CCPoll 0; CCPoll 0; CCSuccess 8 (Found (UContent [9])); CCSuccess 16 (Found (UContent [7])); CCPoll 1; CCPoll 2; CCVerdict None;
   CCPoll 3; CCVerdict (Some good); CCPoll 4].
Example content_lookup_example :
  let c := {| parallelism := 2; num_results := 2; peer_timeout := 10 |} in
  exists f t, content_history c 0 [8; 16] f t /\
    announced t = [8; 16] /\ verdicts t = [None; Some good] /\ fc_into_result f = Some (good, []) /\
    over (observe_all c 0 [8; 16] t) = true.
Proof.
  cbn zeta. set (c := {| parallelism := 2; num_results := 2; peer_timeout := 10 |}).
  assert (E : exists x, content_runs (new_content_query c 0 [8; 16]) [] content_calls = Ok x) by (eexists; vm_compute; reflexivity). destruct E as [[f t] E].
  exists f, t. split; [refine (content_runs_history _ _ _ _ _ _ _ _ (CH_start _ _ _) _ E); vm_compute; reflexivity|].
  vm_compute in E. injection E as <- <-. repeat split; vm_compute; reflexivity.
Qed.
(** A lookup that gives up, and one stuck after an announcement without verdict. *)
Example content_lookup_gives_up :
  let c := {| parallelism := 2; num_results := 2; peer_timeout := 10 |} in
  exists f t, content_history c 0 [8] f t /\ over (observe_all c 0 [8] t) = true /\ fc_into_result f = None /\
    verdicts t = [None].
Proof.
  cbn zeta. set (c := {| parallelism := 2; num_results := 2; peer_timeout := 10 |}).
  assert (E : exists x, content_runs (new_content_query c 0 [8]) [] [CCPoll 0; CCSuccess 8 (Found (UConnection 3)); CCPoll 0; CCVerdict None; CCPoll 1] = Ok x) by (eexists; vm_compute; reflexivity). destruct E as [[f t] E].
  exists f, t. split; [refine (content_runs_history _ _ _ _ _ _ _ _ (CH_start _ _ _) _ E); vm_compute; reflexivity|].
  vm_compute in E. injection E as <- <-. repeat split; vm_compute; reflexivity.
Qed.
Example content_lookup_stuck :
  let c := {| parallelism := 2; num_results := 2; peer_timeout := 10 |} in
  exists f t, content_history c 0 [8; 16] f t /\ over (observe_all c 0 [8; 16] t) = false /\
    blen (verdicts t) < blen (announced t).
Proof.
  cbn zeta. set (c := {| parallelism := 2; num_results := 2; peer_timeout := 10 |}).
  assert (E : exists x, content_runs (new_content_query c 0 [8; 16]) [] [CCPoll 0; CCSuccess 8 (Found (UConnection 3)); CCPoll 0] = Ok x) by (eexists; vm_compute; reflexivity). destruct E as [[f t] E].
  exists f, t. split; [refine (content_runs_history _ _ _ _ _ _ _ _ (CH_start _ _ _) _ E); vm_compute; reflexivity|].
  vm_compute in E. injection E as <- <-. repeat split; vm_compute; reflexivity.
Qed.
