(** Transfer slots. *)
From Verif Require Import Base.
From Verif Require Import Query_Proofs Permits_Model.

(** ** Vocabulary *)
(** Every activity has its own name. *)
Inductive reach (limit : N) : slots -> Prop :=
  | R_new : reach limit (new_slots limit)
  | R_step s o : reach limit s -> (forall id a, fresh_id o = Some id -> In a (active s) -> a_id a <> id) -> reach limit (step s o).
Definition kind_eqb (a b : kind) : bool :=
  match a, b with ReceiveOffer, ReceiveOffer | ServeContent, ServeContent | OfferPending, OfferPending | SendOffer, SendOffer | Download, Download => true | _, _ => false end.
(** How many transfers of offered content are being received. *)
Definition receiving (s : slots) : N := blen (filter (fun a => kind_eqb (a_kind a) ReceiveOffer) (active s)).
(** How many transfers are being sent, or may be because a gossiped offer is open, apart from those
    users asked for. *)
Definition sending (s : slots) : N :=
  blen (filter (fun a => kind_eqb (a_kind a) ServeContent || ((kind_eqb (a_kind a) OfferPending || kind_eqb (a_kind a) SendOffer) && holds_out a)) (active s)).

(** ** Invariant *)
Definition count (p : activity -> bool) (l : list activity) : N := blen (filter p l).
Lemma count_app p l r : count p (l ++ r) = count p l + count p r.
Proof. unfold count. rewrite filter_app, blen_app. reflexivity. Qed.
Definition shaped (a : activity) : Prop :=
  match a_kind a with
  | ReceiveOffer => holds_in a = true /\ holds_out a = false
  | ServeContent => holds_in a = false /\ holds_out a = true
  | Download => holds_in a = false /\ holds_out a = false
  | _ => holds_in a = false
  end.
Record inv (limit : N) (s : slots) : Prop := {
  inv_ids : NoDup (map a_id (active s));
  inv_shape : Forall shaped (active s);
  inv_in : free_in s + count holds_in (active s) = limit;
  inv_out : free_out s + count holds_out (active s) = limit }.

Lemma count_remove p id : forall l a, NoDup (map a_id l) -> find (fun a => a_id a =? id) l = Some a ->
  count p l = count p (filter (fun a => negb (a_id a =? id)) l) + if p a then 1 else 0.
Proof.
  induction l as [|b l IH]; intros a Nd F; [discriminate|]. cbn [find] in F. cbn [map] in Nd. inversion Nd as [|x y Hx Hy]; subst. cbn [filter].
  destruct (a_id b =? id) eqn:E.
  - injection F as ->. apply N.eqb_eq in E. cbn [negb].
    assert (X : filter (fun a => negb (a_id a =? id)) l = l).
    { clear -Hx E. subst id. induction l as [|c l IH]; [reflexivity|]. cbn [filter]. destruct (a_id c =? a_id a) eqn:Q; [apply N.eqb_eq in Q; destruct Hx; left; exact Q|].
      cbn [negb]. f_equal. apply IH. intros H. apply Hx. now right. }
    rewrite X. unfold count. cbn [filter]. destruct (p a); [rewrite blen_cons|]; lia.
  - cbn [negb]. specialize (IH a Hy F). unfold count in *. cbn [filter]. destruct (p b); rewrite ?blen_cons; lia.
Qed.
Lemma filter_ids id l : NoDup (map a_id l) -> NoDup (map a_id (filter (fun a => negb (a_id a =? id)) l)).
Proof.
  induction l as [|a l IH]; intros H; [constructor|]. cbn [map] in H. inversion H as [|x y Hx Hy]; subst. cbn [filter]. destruct (negb (a_id a =? id)); [|now apply IH].
  cbn [map]. constructor; [|now apply IH]. intros X. apply Hx. apply in_map_iff in X. destruct X as (b & E & Hb). apply filter_In in Hb. apply in_map_iff. exists b. tauto.
Qed.

Lemma start_inv limit s a : inv limit s -> ~ In (a_id a) (map a_id (active s)) -> shaped a ->
  holds_in a = false -> holds_out a = false -> inv limit (start s a).
Proof.
  intros I Hn Hs Hi Ho. constructor; cbn [start active free_in free_out].
  - rewrite map_app. apply nodup_app_end; [apply (inv_ids _ _ I)|exact Hn].
  - apply Forall_app. split; [apply (inv_shape _ _ I)|]. constructor; [exact Hs|constructor].
  - rewrite count_app. unfold count at 2. cbn [filter]. rewrite Hi. change (blen (@nil activity)) with 0. pose proof (inv_in _ _ I). lia.
  - rewrite count_app. unfold count at 2. cbn [filter]. rewrite Ho. change (blen (@nil activity)) with 0. pose proof (inv_out _ _ I). lia.
Qed.
Lemma finish_inv limit s id a : inv limit s -> find (fun a => a_id a =? id) (active s) = Some a -> inv limit (released a (forget id s)).
Proof.
  intros I F. constructor; cbn [released forget active free_in free_out].
  - apply filter_ids, (inv_ids _ _ I).
  - apply Forall_forall. intros b Hb. apply filter_In in Hb. pose proof (inv_shape _ _ I) as S. rewrite Forall_forall in S. now apply S.
  - pose proof (count_remove holds_in id _ _ (inv_ids _ _ I) F) as C. pose proof (inv_in _ _ I). destruct (holds_in a); lia.
  - pose proof (count_remove holds_out id _ _ (inv_ids _ _ I) F) as C. pose proof (inv_out _ _ I). destruct (holds_out a); lia.
Qed.

Lemma step_inv limit s o : inv limit s -> (forall id a, fresh_id o = Some id -> In a (active s) -> a_id a <> id) -> inv limit (step s o).
Proof.
  intros I Fr. pose proof (inv_in _ _ I) as Ii. pose proof (inv_out _ _ I) as Io.
  assert (New : forall id, fresh_id o = Some id -> ~ In id (map a_id (active s))).
  { intros id E H. apply in_map_iff in H. destruct H as (a & Ea & Ha). exact (Fr id a E Ha Ea). }
  assert (One : forall p a, count p [a] = if p a then 1 else 0) by (intros p a; unfold count; cbn [filter]; destruct (p a); reflexivity).
  destruct o as [id c|id c|id|id|id|id acc|id]; cbn [step fresh_id] in *.
  - specialize (New id eq_refl). unfold handle_offer, get_inbound. destruct c; cbn [fst]; try exact I; (destruct (free_in s =? 0) eqn:Z; cbn [fst]; [exact I|]); apply N.eqb_neq in Z;
      try (constructor; cbn [drop_inbound free_in free_out active]; [apply (inv_ids _ _ I)|apply (inv_shape _ _ I)|lia|lia]).
    constructor; cbn [start free_in free_out active].
    + rewrite map_app. apply nodup_app_end; [apply (inv_ids _ _ I)|exact New].
    + apply Forall_app. split; [apply (inv_shape _ _ I)|]. constructor; [|constructor]. split; reflexivity.
    + rewrite count_app, One. cbn [holds_in]. lia.
    + rewrite count_app, One. cbn [holds_out]. lia.
  - specialize (New id eq_refl). unfold handle_find_content, get_outbound. destruct c as [| | | |k]; cbn [fst]; try exact I; (destruct (free_out s =? 0) eqn:Z; cbn [fst]; [exact I|]); apply N.eqb_neq in Z;
      try (constructor; cbn [drop_outbound free_in free_out active]; [apply (inv_ids _ _ I)|apply (inv_shape _ _ I)|lia|lia]).
    destruct k; cbn [fst]; [|constructor; cbn [drop_outbound free_in free_out active]; [apply (inv_ids _ _ I)|apply (inv_shape _ _ I)|lia|lia]].
    constructor; cbn [start free_in free_out active].
    + rewrite map_app. apply nodup_app_end; [apply (inv_ids _ _ I)|exact New].
    + apply Forall_app. split; [apply (inv_shape _ _ I)|]. constructor; [|constructor]. split; reflexivity.
    + rewrite count_app, One. cbn [holds_in]. lia.
    + rewrite count_app, One. cbn [holds_out]. lia.
  - specialize (New id eq_refl). unfold gossip_offer, get_outbound. destruct (free_out s =? 0) eqn:Z; cbn [fst]; [exact I|]. apply N.eqb_neq in Z. constructor; cbn [start free_in free_out active].
    + rewrite map_app. apply nodup_app_end; [apply (inv_ids _ _ I)|exact New].
    + apply Forall_app. split; [apply (inv_shape _ _ I)|]. constructor; [|constructor]. reflexivity.
    + rewrite count_app, One. cbn [holds_in]. lia.
    + rewrite count_app, One. cbn [holds_out]. lia.
  - apply start_inv; [exact I|exact (New id eq_refl)|reflexivity|reflexivity|reflexivity].
  - apply start_inv; [exact I|exact (New id eq_refl)|split; reflexivity|reflexivity|reflexivity].
  - unfold offer_answered. destruct (find _ (active s)) as [a|] eqn:F; [|exact I]. destruct (a_kind a) eqn:K; try exact I.
    destruct acc; [|now apply finish_inv]. pose proof (find_some _ _ F) as [Ha Ea]. apply N.eqb_eq in Ea.
    assert (Sa : holds_in a = false). { pose proof (inv_shape _ _ I) as S. rewrite Forall_forall in S. specialize (S a Ha). unfold shaped in S. now rewrite K in S. }
    constructor; cbn [start forget free_in free_out active].
    + rewrite map_app. apply nodup_app_end; [apply filter_ids, (inv_ids _ _ I)|]. cbn. intros H. apply in_map_iff in H. destruct H as (b & Eb & Hb). apply filter_In in Hb. destruct Hb as [_ Hb].
      rewrite Eb, N.eqb_refl in Hb. discriminate.
    + apply Forall_app. split; [|constructor; [exact Sa|constructor]]. apply Forall_forall. intros b Hb. apply filter_In in Hb. pose proof (inv_shape _ _ I) as S. rewrite Forall_forall in S. now apply S.
    + rewrite count_app, One. cbn [holds_in]. pose proof (count_remove holds_in id _ _ (inv_ids _ _ I) F) as C. lia.
    + rewrite count_app, One. cbn [holds_out]. pose proof (count_remove holds_out id _ _ (inv_ids _ _ I) F) as C. lia.
  - unfold finish. destruct (find _ (active s)) as [a|] eqn:F; [|exact I]. now apply finish_inv.
Qed.
Lemma reach_inv limit s : reach limit s -> inv limit s.
Proof. induction 1 as [|s o R IH Fr]; [|now apply step_inv]. constructor; cbn; [constructor|constructor|unfold count; cbn; unfold blen; cbn; lia|unfold count; cbn; unfold blen; cbn; lia]. Qed.

Lemma count_ext p q l : (forall a, In a l -> p a = q a) -> count p l = count q l.
Proof. intros H. unfold count. f_equal. apply filter_ext_in. exact H. Qed.
Lemma receiving_holds limit s : inv limit s -> receiving s = count holds_in (active s).
Proof.
  intros I. apply count_ext. intros a Ha. pose proof (inv_shape _ _ I) as S. rewrite Forall_forall in S. specialize (S a Ha). unfold shaped in S.
  destruct (a_kind a); cbn [kind_eqb]; try (destruct S as [S1 S2]; now rewrite S1); now rewrite S.
Qed.
Lemma sending_holds limit s : inv limit s -> sending s = count holds_out (active s).
Proof.
  intros I. apply count_ext. intros a Ha. pose proof (inv_shape _ _ I) as S. rewrite Forall_forall in S. specialize (S a Ha). unfold shaped in S.
  destruct (a_kind a); cbn [kind_eqb orb andb]; try (destruct S as [S1 S2]; now rewrite S2); reflexivity.
Qed.

(** ** Theorems *)
(** C45: at no time are more offers being received, or more transfers being sent or prepared for
    gossip and requests, than the limit. *)
Theorem C45_bounded : forall limit s, reach limit s -> receiving s <= limit /\ sending s <= limit.
Proof.
  intros limit s R. pose proof (reach_inv limit s R) as I. rewrite (receiving_holds limit s I), (sending_holds limit s I). pose proof (inv_in _ _ I). pose proof (inv_out _ _ I). lia.
Qed.
(** An offer is turned away for lack of a slot exactly when the limit is reached; likewise a gossip
    offer is skipped, and stored content too large for a packet is not served. *)
Theorem C45_refused_iff_full : forall limit s id, reach limit s ->
  (forall c, c <> NoRecordOrVersion -> snd (handle_offer s id c) = RateLimited <-> receiving s = limit) /\
  (snd (gossip_offer s id) = false <-> sending s = limit) /\
  (snd (handle_find_content s id (Large true)) = ContentRecords <-> sending s = limit).
Proof.
  intros limit s id R. pose proof (reach_inv limit s R) as I. rewrite (receiving_holds limit s I), (sending_holds limit s I). pose proof (inv_in _ _ I). pose proof (inv_out _ _ I).
  unfold handle_offer, gossip_offer, handle_find_content, get_inbound, get_outbound.
  split; [|split].
  - intros c Hc. destruct (free_in s =? 0) eqn:Z.
    + apply N.eqb_eq in Z. destruct c; [now destruct Hc|..]; (split; [intros _; lia|reflexivity]).
    + apply N.eqb_neq in Z. destruct c; [now destruct Hc|..]; (split; [discriminate|intros X; lia]).
  - destruct (free_out s =? 0) eqn:Z; [apply N.eqb_eq in Z; split; [intros _; lia|reflexivity]|apply N.eqb_neq in Z; split; [discriminate|intros X; lia]].
  - destruct (free_out s =? 0) eqn:Z; [apply N.eqb_eq in Z; split; [intros _; lia|reflexivity]|apply N.eqb_neq in Z; split; [discriminate|intros X; lia]].
Qed.
(** The slots are those of the activities going on: when an activity ends, in whatever way, its slot is free again;
    when nothing is going on, all are. *)
Theorem C45_released : forall limit s, reach limit s ->
  (forall a, In a (active s) -> (a_kind a = ReceiveOffer -> receiving (step s (Ended (a_id a))) = receiving s - 1 /\ 0 < receiving s) /\
     (a_kind a = ServeContent \/ a_kind a = SendOffer \/ a_kind a = OfferPending -> receiving (step s (Ended (a_id a))) = receiving s /\
        sending (step s (Ended (a_id a))) = sending s - (if holds_out a then 1 else 0))) /\
  (forall a, In a (active s) -> a_kind a = OfferPending -> active (step s (Answered (a_id a) false)) = active (step s (Ended (a_id a))) /\
     free_out (step s (Answered (a_id a) false)) = free_out (step s (Ended (a_id a)))) /\
  (active s = [] -> free_in s = limit /\ free_out s = limit).
Proof.
  intros limit s R. pose proof (reach_inv limit s R) as I. rewrite (receiving_holds limit s I), (sending_holds limit s I).
  assert (Fd : forall a, In a (active s) -> find (fun b => a_id b =? a_id a) (active s) = Some a).
  { intros a Ha. pose proof (inv_ids _ _ I) as Nd. revert Ha Nd. generalize (active s). clear. induction l as [|b l IH]; intros H Nd; [destruct H|]. cbn [find]. cbn [map] in Nd. inversion Nd as [|x y Hx Hy]; subst.
    destruct H as [->|H]; [now rewrite N.eqb_refl|]. destruct (a_id b =? a_id a) eqn:E; [|now apply IH]. apply N.eqb_eq in E. destruct Hx. rewrite E. now apply in_map. }
  split; [|split].
  - intros a Ha. pose proof (Fd a Ha) as F. assert (I2 : inv limit (step s (Ended (a_id a)))) by (apply step_inv; [exact I|discriminate]).
    rewrite (receiving_holds limit _ I2), (sending_holds limit _ I2). cbn [step]. unfold finish. rewrite F. cbn [released forget active].
    pose proof (count_remove holds_in (a_id a) _ _ (inv_ids _ _ I) F) as C1. pose proof (count_remove holds_out (a_id a) _ _ (inv_ids _ _ I) F) as C2.
    pose proof (inv_shape _ _ I) as S. rewrite Forall_forall in S. specialize (S a Ha). unfold shaped in S. split.
    + intros K. rewrite K in S. destruct S as [S1 S2]. rewrite S1 in C1. lia.
    + intros [K|[K|K]]; rewrite K in S; [destruct S as [S1 S2]|..]; try (rewrite S in C1); try (rewrite S1 in C1); lia.
  - intros a Ha K. cbn [step]. unfold finish, offer_answered. rewrite (Fd a Ha), K. auto.
  - intros E. pose proof (inv_in _ _ I) as A. pose proof (inv_out _ _ I) as B. rewrite E in A, B. unfold count in A, B. cbn in A, B. change (blen (@nil activity)) with 0 in A, B. lia.
Qed.
(** Receiving does not use slots for sending, and the other way round. *)
Theorem C45_independent : forall limit s o, reach limit s ->
  (match o with OfferReceived _ _ => True | _ => False end -> free_out (step s o) = free_out s) /\
  (match o with ContentAsked _ _ | Gossip _ | Answered _ _ => True | _ => False end -> free_in (step s o) = free_in s).
Proof.
  intros limit s o R. pose proof (reach_inv limit s R) as I. split.
  - destruct o as [id c| | | | | |]; try (now intros []). intros _. cbn [step]. unfold handle_offer, get_inbound. destruct c; try reflexivity; destruct (free_in s =? 0); reflexivity.
  - destruct o as [|id c|id| | |id acc|]; try (now intros []); intros _; cbn [step].
    + unfold handle_find_content, get_outbound. destruct c as [| | | |k]; try reflexivity; destruct (free_out s =? 0); try reflexivity. destruct k; reflexivity.
    + unfold gossip_offer, get_outbound. destruct (free_out s =? 0); reflexivity.
    + unfold offer_answered. destruct (find _ (active s)) as [a|] eqn:F; [|reflexivity]. destruct (a_kind a) eqn:K; try reflexivity. destruct acc; [reflexivity|].
      cbn [released forget free_in]. pose proof (find_some _ _ F) as [Ha _]. pose proof (inv_shape _ _ I) as S. rewrite Forall_forall in S. specialize (S a Ha). unfold shaped in S. rewrite K in S. now rewrite S.
Qed.

(** The limit does not bound all transfers: downloads of lookups and offers made by users take no slot. *)
Theorem C45_all_transfers_refuted : forall limit, exists s, reach limit s /\
  limit < blen (filter (fun a => kind_eqb (a_kind a) ReceiveOffer || kind_eqb (a_kind a) Download) (active s)) /\
  limit < blen (filter (fun a => kind_eqb (a_kind a) SendOffer) (active s)).
Proof.
  intros limit.
  assert (X : forall n, exists s, reach limit s /\ (forall a, In a (active s) -> a_id a < 2 * N.of_nat n) /\
    blen (filter (fun a => kind_eqb (a_kind a) ReceiveOffer || kind_eqb (a_kind a) Download) (active s)) = N.of_nat n /\
    blen (filter (fun a => kind_eqb (a_kind a) SendOffer) (active s)) = N.of_nat n).
  { induction n as [|n (s & R & B & C1 & C2)].
    - exists (new_slots limit). split; [constructor|]. split; [intros a []|]. split; reflexivity.
    - set (i := 2 * N.of_nat n). set (s1 := step s (LookupDownload i)). set (s2 := step s1 (UserOffer (i + 1))).
      assert (R1 : reach limit s1). { apply R_step; [exact R|]. cbn [fresh_id]. intros id a E Ha. injection E as <-. specialize (B a Ha). unfold i. lia. }
      assert (B1 : forall a, In a (active s1) -> a_id a <= i).
      { intros a Ha. cbn in Ha. apply in_app_iff in Ha. destruct Ha as [Ha|[<-|[]]]; [specialize (B a Ha); unfold i; lia|cbn; lia]. }
      assert (R2 : reach limit s2). { apply R_step; [exact R1|]. cbn [fresh_id]. intros id a E Ha. injection E as <-. specialize (B1 a Ha). lia. }
      exists (step s2 (Answered (i + 1) true)).
      assert (E : active (step s2 (Answered (i + 1) true)) = active s1 ++ [{| a_id := i + 1; a_kind := SendOffer; holds_in := false; holds_out := false |}]).
      { cbn [step]. unfold offer_answered. unfold s2. cbn [step]. unfold api_offer. cbn [start active].
        assert (F : find (fun a => a_id a =? i + 1) (active s1 ++ [{| a_id := i + 1; a_kind := OfferPending; holds_in := false; holds_out := false |}]) = Some {| a_id := i + 1; a_kind := OfferPending; holds_in := false; holds_out := false |}).
        { revert B1. generalize (active s1). clear. induction l as [|a l IH]; intros B; cbn [app find].
          - cbn [a_id]. now rewrite N.eqb_refl.
          - pose proof (B a (or_introl eq_refl)). destruct (a_id a =? i + 1) eqn:E; [apply N.eqb_eq in E; lia|]. apply IH. intros b Hb. apply B. now right. }
        rewrite F. cbn [a_kind start forget active holds_in holds_out]. f_equal. rewrite filter_app. cbn [filter a_id]. rewrite N.eqb_refl. cbn [negb]. rewrite app_nil_r.
        revert B1. generalize (active s1). clear. induction l as [|a l IH]; intros B; [reflexivity|]. cbn [filter]. pose proof (B a (or_introl eq_refl)). destruct (a_id a =? i + 1) eqn:E; [apply N.eqb_eq in E; lia|].
        cbn [negb]. f_equal. apply IH. intros b Hb. apply B. now right. }
      split; [apply R_step; [exact R2|discriminate]|]. rewrite E. split.
      { intros a Ha. apply in_app_iff in Ha. destruct Ha as [Ha|[<-|[]]]; [specialize (B1 a Ha); unfold i in B1; lia|cbn [a_id]; unfold i; lia]. }
      assert (A : active s1 = active s ++ [{| a_id := i; a_kind := Download; holds_in := false; holds_out := false |}]) by reflexivity.
      rewrite A, !filter_app, !blen_app, C1, C2. cbn [filter a_kind kind_eqb orb]. unfold blen. cbn [length]. lia. }
  destruct (X (S (N.to_nat limit))) as (s & R & _ & C1 & C2). exists s. split; [exact R|]. rewrite C1, C2. lia.
Qed.

(** An example: one slot each. *)
Example slots_example :
  let s := step (step (new_slots 1) (OfferReceived 1 SomethingAccepted)) (ContentAsked 2 (Large true)) in
  receiving s = 1 /\ sending s = 1 /\ snd (handle_offer s 3 SomethingAccepted) = RateLimited /\ snd (gossip_offer s 3) = false /\
  snd (handle_offer (step s (Ended 1)) 3 SomethingAccepted) = AcceptedSome /\ reach 1 s.
Proof.
  cbv zeta. do 5 (split; [vm_compute; reflexivity|]). apply R_step; [apply R_step; [constructor|]|].
  - intros id a _ H. destruct H.
  - intros id a E H. injection E as <-. vm_compute in H. destruct H as [<-|[]]. discriminate.
Qed.
Print Assumptions C45_bounded.
Print Assumptions C45_refused_iff_full.
Print Assumptions C45_released.
Print Assumptions C45_independent.
Print Assumptions C45_all_transfers_refuted.
