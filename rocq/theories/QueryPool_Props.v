(** Properties C36 and C37. *)
From Verif Require Import Base.
From Verif Require Import Distance_Model Distance_Proofs Query_Model Query_Proofs QueryPool_Model QueryPool_Spec.

Section Pool.
Context {Q : Type} (qpoll : Q -> N -> Q * query_state) (overall_timeout : Q -> N).
Notation loop := (poll_loop qpoll overall_timeout).

Lemma loop_ids now : forall l, map (@e_id Q) (fst (loop now l)) = map (@e_id Q) l.
Proof.
  induction l as [|e r IH]; cbn [poll_loop]; [reflexivity|].
  destruct (qpoll (e_query e) now) as [q' s]. destruct s as [[peer|]| |peer|]; try reflexivity;
    destruct (overall_timeout q' <=? _); try reflexivity; destruct (loop now r) as [r' x]; cbn in *; now rewrite IH.
Qed.
Definition event_id (ev : pool_event) : N :=
  match ev with PContact id _ | PValidate id _ | PFinished id | PTimeout id => id end.
Lemma loop_event now : forall l ev, snd (loop now l) = Some ev -> In (event_id ev) (map (@e_id Q) l).
Proof.
  induction l as [|e r IH]; intros ev; cbn [poll_loop]; [discriminate|].
  destruct (qpoll (e_query e) now) as [q' s]. destruct s as [[peer|]| |peer|];
    try (intros [= <-]; now left);
    (destruct (overall_timeout q' <=? _); [intros [= <-]; now left|]); destruct (loop now r) as [r' x]; cbn in *; auto.
Qed.
Lemma remove_ids id l : NoDup (map (@e_id Q) l) -> In id (map (@e_id Q) l) ->
  Permutation (map (@e_id Q) l) (id :: map (@e_id Q) (remove_id id l)).
Proof.
  induction l as [|e r IH]; [intros _ []|]. cbn [map remove_id filter]. intros N H. inversion N as [|x y Hx Hy]; subst.
  destruct (e_id e =? id) eqn:E; cbn [negb].
  - apply N.eqb_eq in E. rewrite E. apply perm_skip. fold (remove_id id r).
    assert (R : remove_id id r = r); [|now rewrite R].
    clear -Hx E. induction r as [|e2 r IH]; [reflexivity|]. cbn [remove_id filter].
    destruct (e_id e2 =? id) eqn:E2.
    + apply N.eqb_eq in E2. exfalso. apply Hx. left. congruence.
    + cbn [negb]. f_equal. apply IH. intros H. apply Hx. now right.
  - cbn [map]. apply N.eqb_neq in E. destruct H as [H|H]; [now destruct E|].
    transitivity (e_id e :: id :: map (@e_id Q) (remove_id id r)); [apply perm_skip; now apply IH|apply perm_swap].
Qed.
Lemma remove_absent id l : ~ In id (map (@e_id Q) l) -> remove_id id l = l.
Proof.
  induction l as [|e r IH]; [reflexivity|]. cbn [map remove_id filter]. intros H.
  destruct (e_id e =? id) eqn:E; [apply N.eqb_eq in E; exfalso; apply H; now left|].
  cbn [negb]. f_equal. apply IH. intros Hi. apply H. now right.
Qed.

(** The lines of a transcript that [p] has seen, as long as fewer than 2^64 lookups were added. *)
Definition pool_inv (p : pool Q) (t : list (@pool_line Q)) : Prop :=
  Permutation (added t) (held p ++ reported t) /\ NoDup (added t) /\ next_id p = blen (added t) /\
  Forall (fun id => id < next_id p) (added t).
Lemma snoc_lines t (l : @pool_line Q) :
  added (t ++ [l]) = added t ++ match l with LAdd id => [id] | _ => [] end /\
  reported (t ++ [l]) = reported t ++ match l with LPoll _ (SFinished id _) | LPoll _ (STimeout id _) => [id] | _ => [] end.
Proof. unfold added, reported. rewrite !flat_map_app. cbn [flat_map]. now rewrite !app_nil_r. Qed.
Lemma poll_ids p now shuffled p' s : Permutation (entries p) shuffled -> NoDup (held p) ->
  pool_poll qpoll overall_timeout p now shuffled = (p', s) ->
  next_id p' = next_id p /\
  match s with
  | SFinished id _ | STimeout id _ => Permutation (held p) (id :: held p')
  | _ => Permutation (held p) (held p')
  end.
Proof.
  intros P N. unfold pool_poll. pose proof (loop_ids now shuffled) as L. pose proof (loop_event now shuffled) as E.
  destruct (loop now shuffled) as [l ev]. cbn [fst snd] in *.
  assert (Pm : Permutation (held p) (map (@e_id Q) l)) by (rewrite L; unfold held; now apply Permutation_map).
  assert (Nl : NoDup (map (@e_id Q) l)) by (eapply Permutation_NoDup; [exact Pm|exact N]).
  destruct ev as [[id peer|id peer|id|id]|]; intros [= <- <-]; (split; [reflexivity|]); unfold held; cbn [entries]; fold (held p).
  - exact Pm.
  - exact Pm.
  - rewrite Pm. apply remove_ids; [exact Nl|]. rewrite L. apply (E (PFinished id)). reflexivity.
  - rewrite Pm. apply remove_ids; [exact Nl|]. rewrite L. apply (E (PTimeout id)). reflexivity.
  - destruct l; exact Pm.
Qed.
Lemma pool_history_inv p t : pool_history qpoll overall_timeout p t -> blen (added t) < 2 ^ 64 -> pool_inv p t.
Proof.
  induction 1 as [|p t q p' id H IH Ha|p t id f H IH|p t now sh p' s H IH P Hp]; intros Hlen.
  - split; [constructor|split; [constructor|split; [reflexivity|constructor]]].
  - destruct (snoc_lines t (LAdd id)) as [E1 E2]. rewrite E1, blen_app in Hlen. change (blen [id]) with 1 in Hlen.
    destruct IH as (I1 & I2 & I3 & I4); [lia|]. unfold add_query in Ha. injection Ha as <- <-.
    unfold pool_inv. rewrite E1, E2, app_nil_r, blen_app. change (blen [next_id p]) with 1.
    assert (Hnew : ~ In (next_id p) (added t)).
    { intros Hi. rewrite Forall_forall in I4. specialize (I4 _ Hi). lia. }
    cbn [next_id entries held map e_id]. split; [|split; [|split]].
    + unfold held. cbn [entries map e_id]. rewrite remove_absent.
      * cbn [app]. rewrite <- Permutation_cons_append. now apply perm_skip.
      * intros Hi. apply Hnew. rewrite I1. apply in_app_iff. now left.
    + now apply nodup_app_end.
    + rewrite N.mod_small by lia. lia.
    + rewrite N.mod_small by lia. apply Forall_app. split; [|constructor; [lia|constructor]].
      eapply Forall_impl; [|exact I4]. cbn. intros. lia.
  - destruct (snoc_lines t (LChange id)) as [E1 E2]. rewrite E1, app_nil_r in Hlen. specialize (IH Hlen).
    unfold pool_inv in *. rewrite E1, E2, !app_nil_r. cbn [next_id change_query].
    assert (held (change_query p id f) = held p) as ->; [|exact IH].
    unfold held, change_query. cbn [entries]. rewrite map_map. apply map_ext. intros e. now destruct (e_id e =? id).
  - destruct (snoc_lines t (LPoll now s)) as [E1 E2]. rewrite E1, app_nil_r in Hlen. destruct (IH Hlen) as (I1 & I2 & I3 & I4).
    assert (Nh : NoDup (held p)).
    { assert (NoDup (held p ++ reported t)) as Nn by (eapply Permutation_NoDup; [exact I1|exact I2]).
      clear -Nn. induction (held p) as [|a l IH]; [constructor|]. cbn in Nn. inversion Nn as [|x y Hx Hy]; subst.
      constructor; [|now apply IH]. intros Hi. apply Hx. apply in_app_iff. now left. }
    destruct (poll_ids p now sh p' s P Nh Hp) as [En Es].
    unfold pool_inv. rewrite E1, E2, app_nil_r, En. split; [|auto].
    rewrite I1. destruct s; rewrite ?app_nil_r; try (now apply Permutation_app_tail);
      (rewrite Es; cbn [app]; rewrite app_assoc, <- Permutation_cons_append; reflexivity).
Qed.
End Pool.

(** C36: in every history in which fewer than 2^64 lookups are added, the lookups added are
    exactly those the pool holds and those reported finished or timed out, with no repetition:
    each is reported at most once and is gone afterwards, and ids are not reused. *)
Theorem C36_accounting :
  forall (Q : Type) (qpoll : Q -> N -> Q * query_state) (overall_timeout : Q -> N) p t,
  pool_history qpoll overall_timeout p t -> blen (added t) < 2 ^ 64 ->
  Permutation (added t) (held p ++ reported t) /\ NoDup (held p ++ reported t).
Proof.
  intros Q qpoll ot p t H L. destruct (pool_history_inv qpoll ot p t H L) as (A & B & _). split; [exact A|].
  eapply Permutation_NoDup; [exact A|exact B].
Qed.
Print Assumptions C36_accounting.

(** What a poll says is true: idle exactly if the pool is empty; a report of a finished lookup,
    a request or a validation is what that lookup itself answers; a lookup is timed out only
    if its overall timeout passed since it was first polled; and nothing is reported only if
    no lookup had anything to report and none was overdue. *)
Theorem C36_poll :
  forall (Q : Type) (qpoll : Q -> N -> Q * query_state) (overall_timeout : Q -> N) p t now shuffled p' s,
  pool_history qpoll overall_timeout p t -> blen (added t) < 2 ^ 64 ->
  Permutation (entries p) shuffled -> pool_poll qpoll overall_timeout p now shuffled = (p', s) ->
  let start e := match e_started e with Some x => x | None => now end in
  (s = SIdle <-> entries p = []) /\
  match s with
  | SIdle => True
  | SWaiting (Some (id, peer)) =>
      exists e, In e (entries p) /\ e_id e = id /\ snd (qpoll (e_query e) now) = QWaiting (Some peer)
  | SValidating id peer =>
      exists e, In e (entries p) /\ e_id e = id /\ snd (qpoll (e_query e) now) = QValidating peer
  | SFinished id q =>
      exists e, In e (entries p) /\ e_id e = id /\ qpoll (e_query e) now = (match q with Some q => q | None => e_query e end, QFinished) /\ q <> None
  | STimeout id q =>
      exists e, In e (entries p) /\ e_id e = id /\ q = Some (fst (qpoll (e_query e) now)) /\
        (snd (qpoll (e_query e) now) = QWaiting None \/ snd (qpoll (e_query e) now) = QAtCapacity) /\
        overall_timeout (fst (qpoll (e_query e) now)) <= now - start e
  | SWaiting None =>
      forall e, In e (entries p) ->
        (snd (qpoll (e_query e) now) = QWaiting None \/ snd (qpoll (e_query e) now) = QAtCapacity) /\
        now - start e < overall_timeout (fst (qpoll (e_query e) now))
  end.
Proof.
  intros Q qpoll ot p t now sh p' s H L P Hp start.
  destruct (pool_history_inv qpoll ot p t H L) as (A & B & _ & _).
  assert (Nh : NoDup (map (@e_id Q) sh)).
  { eapply Permutation_NoDup; [apply Permutation_map; exact P|]. fold (held p).
    assert (Nn : NoDup (held p ++ reported t)) by (eapply Permutation_NoDup; [exact A|exact B]).
    clear -Nn. induction (held p) as [|a l IH]; [constructor|]. cbn in Nn. inversion Nn as [|x y Hx Hy]; subst.
    constructor; [|now apply IH]. intros Hi. apply Hx. apply in_app_iff. now left. }
  unfold pool_poll in Hp.
  assert (Main : forall l, NoDup (map (@e_id Q) l) ->
    let (l', ev) := poll_loop qpoll ot now l in
    length l' = length l /\
    match ev with
    | Some (PContact id peer) => exists e, In e l /\ e_id e = id /\ snd (qpoll (e_query e) now) = QWaiting (Some peer)
    | Some (PValidate id peer) => exists e, In e l /\ e_id e = id /\ snd (qpoll (e_query e) now) = QValidating peer
    | Some (PFinished id) => exists e, In e l /\ e_id e = id /\ snd (qpoll (e_query e) now) = QFinished /\
        query_of id l' = Some (fst (qpoll (e_query e) now))
    | Some (PTimeout id) => exists e, In e l /\ e_id e = id /\ query_of id l' = Some (fst (qpoll (e_query e) now)) /\
        (snd (qpoll (e_query e) now) = QWaiting None \/ snd (qpoll (e_query e) now) = QAtCapacity) /\
        ot (fst (qpoll (e_query e) now)) <= now - start e
    | None => forall e, In e l ->
        (snd (qpoll (e_query e) now) = QWaiting None \/ snd (qpoll (e_query e) now) = QAtCapacity) /\
        now - start e < ot (fst (qpoll (e_query e) now))
    end).
  { clear. induction l as [|e r IH]; intros N; cbn [poll_loop]; [split; [reflexivity|intros e []]|].
    cbn [map] in N. inversion N as [|x y Hx Hy]; subst x y. specialize (IH Hy).
    destruct (qpoll (e_query e) now) as [q' s] eqn:Eq.
    assert (Q0 : forall id st r0, id = e_id e -> query_of id ({| e_id := e_id e; e_started := Some st; e_query := q' |} :: r0) = Some q').
    { intros id st r0 ->. unfold query_of. cbn [filter e_id]. now rewrite N.eqb_refl. }
    assert (Wait : s = QWaiting None \/ s = QAtCapacity ->
      let (l', ev) := (if ot q' <=? now - start e then ({| e_id := e_id e; e_started := Some (start e); e_query := q' |} :: r, Some (PTimeout (e_id e)))
          else let (r', x) := poll_loop qpoll ot now r in ({| e_id := e_id e; e_started := Some (start e); e_query := q' |} :: r', x)) in
      length l' = length (e :: r) /\
      match ev with
      | Some (PContact id peer) => exists e0, In e0 (e :: r) /\ e_id e0 = id /\ snd (qpoll (e_query e0) now) = QWaiting (Some peer)
      | Some (PValidate id peer) => exists e0, In e0 (e :: r) /\ e_id e0 = id /\ snd (qpoll (e_query e0) now) = QValidating peer
      | Some (PFinished id) => exists e0, In e0 (e :: r) /\ e_id e0 = id /\ snd (qpoll (e_query e0) now) = QFinished /\
          query_of id l' = Some (fst (qpoll (e_query e0) now))
      | Some (PTimeout id) => exists e0, In e0 (e :: r) /\ e_id e0 = id /\ query_of id l' = Some (fst (qpoll (e_query e0) now)) /\
          (snd (qpoll (e_query e0) now) = QWaiting None \/ snd (qpoll (e_query e0) now) = QAtCapacity) /\
          ot (fst (qpoll (e_query e0) now)) <= now - start e0
      | None => forall e0, In e0 (e :: r) ->
          (snd (qpoll (e_query e0) now) = QWaiting None \/ snd (qpoll (e_query e0) now) = QAtCapacity) /\
          now - start e0 < ot (fst (qpoll (e_query e0) now))
      end).
    { intros Hs. destruct (ot q' <=? now - start e) eqn:Ht.
      - split; [reflexivity|]. apply N.leb_le in Ht. exists e. rewrite Eq. cbn [fst snd]. split; [now left|]. split; [reflexivity|].
        split; [now apply Q0|]. auto.
      - apply N.leb_gt in Ht. pose proof (loop_ids qpoll ot now r) as Li. pose proof (loop_event qpoll ot now r) as Le.
        destruct (poll_loop qpoll ot now r) as [r' x]. destruct IH as [IH1 IH2].
        cbn [fst snd] in Li, Le. split; [cbn; now rewrite IH1|].
        assert (Q1 : forall id, In id (map (@e_id Q) r) ->
          query_of id ({| e_id := e_id e; e_started := Some (start e); e_query := q' |} :: r') = query_of id r').
        { intros id Hi. unfold query_of. cbn [filter e_id]. destruct (e_id e =? id) eqn:E; [|reflexivity].
          apply N.eqb_eq in E. subst id. tauto. }
        destruct x as [[id peer|id peer|id|id]|].
        + destruct IH2 as (e0 & H1 & H2). exists e0. split; [now right|exact H2].
        + destruct IH2 as (e0 & H1 & H2). exists e0. split; [now right|exact H2].
        + destruct IH2 as (e0 & H1 & H2 & H3 & H4). exists e0. split; [now right|]. rewrite (Q1 id (Le _ eq_refl)). auto.
        + destruct IH2 as (e0 & H1 & H2 & H3 & H4). exists e0. split; [now right|]. rewrite (Q1 id (Le _ eq_refl)). auto.
        + intros e0 [<-|H1]; [rewrite Eq; cbn [fst snd]; auto|now apply IH2]. }
    destruct s as [[peer|]| |peer|].
    - split; [reflexivity|]. exists e. rewrite Eq. split; [now left|]. now split.
    - apply Wait. now left.
    - apply Wait. now right.
    - split; [reflexivity|]. exists e. rewrite Eq. split; [now left|]. now split.
    - split; [reflexivity|]. exists e. rewrite Eq. cbn [fst snd]. split; [now left|]. split; [reflexivity|]. split; [reflexivity|]. now apply Q0. }
  assert (In' : forall e, In e sh -> In e (entries p)) by (intros e He; eapply Permutation_in; [symmetry; exact P|exact He]).
  assert (Len : length sh = length (entries p)) by (symmetry; now apply Permutation_length).
  specialize (Main sh Nh). destruct (poll_loop qpoll ot now sh) as [l ev]. destruct Main as [M1 M2].
  assert (Emp : entries p = [] -> sh = []) by (intros E; rewrite E in Len; now destruct sh).
  destruct ev as [[id peer|id peer|id|id]|]; injection Hp as <- <-.
  - destruct M2 as (e & H1 & H2). split; [split; [discriminate|intros E; rewrite (Emp E) in H1; destruct H1]|]. exists e. auto.
  - destruct M2 as (e & H1 & H2). split; [split; [discriminate|intros E; rewrite (Emp E) in H1; destruct H1]|]. exists e. auto.
  - destruct M2 as (e & H1 & H2 & H3 & H4). split; [split; [discriminate|intros E; rewrite (Emp E) in H1; destruct H1]|]. exists e.
    rewrite H4. split; [auto|]. split; [exact H2|]. split; [|discriminate]. rewrite <- H3. now destruct (qpoll (e_query e) now).
  - destruct M2 as (e & H1 & H2 & H3 & H4 & H5). split; [split; [discriminate|intros E; rewrite (Emp E) in H1; destruct H1]|]. exists e. auto 6.
  - destruct l as [|e0 l].
    + split; [|exact Logic.I]. split; [intros _|reflexivity]. destruct (entries p); [reflexivity|]. cbn in M1, Len. exfalso. lia.
    + split; [split; [discriminate|intros E; rewrite (Emp E) in M1; discriminate]|].
      intros e He. apply M2. eapply Permutation_in; [exact P|exact He].
Qed.
Print Assumptions C36_poll.

(** The time of the first poll stays: a change of a lookup, another lookup and later polls leave it and everything of the other lookups *)
Theorem C36_start :
  forall (Q : Type) (qpoll : Q -> N -> Q * query_state) (overall_timeout : Q -> N) (p : pool Q),
  (forall id f e', In e' (entries (change_query p id f)) -> exists e, In e (entries p) /\ e_id e' = e_id e /\ e_started e' = e_started e /\
     (e_id e = id -> e_query e' = f (e_query e)) /\ (e_id e <> id -> e_query e' = e_query e)) /\
  (forall q e', In e' (entries (fst (add_query p q))) -> In e' (entries p) \/ e_id e' = snd (add_query p q) /\ e_started e' = None /\ e_query e' = q) /\
  (forall now shuffled e', Permutation (entries p) shuffled -> In e' (entries (fst (pool_poll qpoll overall_timeout p now shuffled))) ->
     In e' (entries p) \/ exists e, In e (entries p) /\ e_id e' = e_id e /\ e_query e' = fst (qpoll (e_query e) now) /\ e_started e' = Some (match e_started e with Some x => x | None => now end)).
Proof.
  intros Q qpoll ot p. split; [|split].
  - intros id f e' H. unfold change_query in H. cbn [entries] in H. apply in_map_iff in H. destruct H as (e & <- & He). exists e. destruct (N.eqb_spec (e_id e) id); cbn; repeat (split; [solve [auto|congruence]|]); congruence.
  - intros q e' [<-|H]; [right; auto|left]. unfold remove_id in H. apply filter_In in H. apply H.
  - intros now sh e' P H. assert (G : forall l, In e' (fst (poll_loop qpoll ot now l)) -> In e' l \/ exists e, In e l /\ e_id e' = e_id e /\ e_query e' = fst (qpoll (e_query e) now) /\ e_started e' = Some (match e_started e with Some x => x | None => now end)).
    { induction l as [|e l IH]; cbn [poll_loop]; [auto|]. destruct (qpoll (e_query e) now) as (q', st) eqn:E.
      assert (C : forall r x, (In e' r -> In e' l \/ exists e, In e l /\ e_id e' = e_id e /\ e_query e' = fst (qpoll (e_query e) now) /\ e_started e' = Some (match e_started e with Some x => x | None => now end)) ->
        In e' (fst ({| e_id := e_id e; e_started := Some (match e_started e with Some s => s | None => now end); e_query := q' |} :: r, x : option pool_event)) ->
        In e' (e :: l) \/ exists e0, In e0 (e :: l) /\ e_id e' = e_id e0 /\ e_query e' = fst (qpoll (e_query e0) now) /\ e_started e' = Some (match e_started e0 with Some x => x | None => now end)).
      { intros r x R [<-|I]; [right; exists e; rewrite E; cbn; auto|]. destruct (R I) as [?|(e0 & ? & ?)]; [left; now right|right; exists e0; split; [now right|assumption]]. }
      destruct st as [[peer|]| |peer|]; try (apply C; auto); (destruct (ot q' <=? _); [apply C; auto|]); destruct (poll_loop qpoll ot now l) as (r, x); apply C, IH. }
    assert (H' : In e' (fst (poll_loop qpoll ot now sh))).
    { unfold pool_poll in H. destruct (poll_loop qpoll ot now sh) as (l, ev). destruct ev as [[i pr|i pr|i|i]|]; cbn [fst entries] in *; try exact H; unfold remove_id in H; apply filter_In in H; apply H. }
    destruct (G sh H') as [I|(e & I & R)]; [left|right; exists e; split; [|exact R]]; (eapply Permutation_in; [symmetry; exact P|exact I]).
Qed.
Print Assumptions C36_start.

(** A pool of one lookup that contacts peer 7, then finishes; then the pool is idle. *)
Example C36_example :
  exists t, pool_history (fun (q : bool) (_ : N) => (false, if q then QWaiting (Some 7) else QFinished)) (fun _ => 100) {| next_id := 1; entries := [] |} t /\
    t = [LAdd 0; LPoll 5 (SWaiting (Some (0, 7))); LPoll 6 (SFinished 0 (Some false)); LPoll 7 SIdle].
Proof.
  eexists. split; [|reflexivity].
  set (qp := fun (q : bool) (_ : N) => (false, if q then QWaiting (Some 7) else QFinished)).
  pose proof (PH_add qp (fun _ => 100) _ _ true _ _ (PH_start _ _) eq_refl) as H1.
  pose proof (PH_poll qp (fun _ => 100) _ _ 5 _ _ _ H1 (Permutation_refl _) eq_refl) as H2.
  pose proof (PH_poll qp (fun _ => 100) _ _ 6 _ _ _ H2 (Permutation_refl _) eq_refl) as H3.
  exact (PH_poll qp (fun _ => 100) _ _ 7 _ _ _ H3 (Permutation_refl _) eq_refl).
Qed.

(** ** C37 *)
Definition ring (d k : N) : list N := (if d + k <=? 256 then [d + k] else []) ++ (if k <=? d then [d - k] else []).
Fixpoint rings (d k : N) (n : nat) : list N := match n with O => [] | S n' => ring d k ++ rings d (k + 1) n' end.

Lemma firstn_long {A} n (a b : list A) : (n <= length a)%nat -> firstn n (a ++ b) = firstn n a.
Proof. intros H. rewrite firstn_app. replace (n - length a)%nat with 0%nat by lia. apply app_nil_r. Qed.
Lemma loop_prefix d size : forall fuel k l,
  firstn (N.to_nat size) (log_distances_loop fuel d size k l) = firstn (N.to_nat size) (l ++ rings d k fuel) /\
  (blen (l ++ rings d k fuel) >= size -> blen (log_distances_loop fuel d size k l) >= size).
Proof.
  induction fuel as [|fuel IH]; intros k l; cbn [log_distances_loop rings]; [rewrite app_nil_r; split; [reflexivity|auto]|].
  destruct (blen l <? size) eqn:E.
  2:{ apply N.ltb_ge in E. split; [|lia]. symmetry. apply firstn_long. unfold blen in E. lia. }
  apply N.ltb_lt in E. set (l1 := if d + k <=? 256 then l ++ [d + k] else l).
  assert (H1 : l1 = l ++ (if d + k <=? 256 then [d + k] else [])) by (unfold l1; destruct (d + k <=? 256); [reflexivity|now rewrite app_nil_r]).
  destruct (blen l1 <? size) eqn:E1.
  - set (l2 := if k <=? d then l1 ++ [d - k] else l1).
    assert (H2 : l2 = l ++ ring d k) by (unfold ring; rewrite app_assoc, <- H1; unfold l2; destruct (k <=? d); [reflexivity|now rewrite app_nil_r]).
    rewrite app_assoc, <- H2. apply IH.
  - apply N.ltb_ge in E1.
    assert (Hl : forall X, firstn (N.to_nat size) (l1 ++ X) = firstn (N.to_nat size) l1) by (intros X; apply firstn_long; unfold blen in E1; lia).
    assert (Hr : l ++ ring d k ++ rings d (k + 1) fuel = l1 ++ (if k <=? d then [d - k] else []) ++ rings d (k + 1) fuel).
    { unfold ring. rewrite H1, <- !app_assoc. reflexivity. }
    rewrite Hr. split.
    + rewrite Hl. destruct (IH (k + 1) l1) as [-> _]. apply Hl.
    + intros _. apply IH. rewrite blen_app. lia.
Qed.
Lemma ring_in d k x : d <= 256 -> (In x (ring d k) <-> gap x d = k /\ x <= 256).
Proof.
  intros Hd. unfold ring, gap. rewrite in_app_iff.
  assert (H1 : In x (if d + k <=? 256 then [d + k] else []) <-> x = d + k /\ d + k <= 256).
  { destruct (d + k <=? 256) eqn:E; cbn; [apply N.leb_le in E|apply N.leb_gt in E]; intuition lia. }
  assert (H2 : In x (if k <=? d then [d - k] else []) <-> x = d - k /\ k <= d).
  { destruct (k <=? d) eqn:E; cbn; [apply N.leb_le in E|apply N.leb_gt in E]; intuition lia. }
  rewrite H1, H2. lia.
Qed.
Lemma rings_in d : forall n k x, d <= 256 -> 0 < k ->
  (In x (rings d k n) <-> x <= 256 /\ k <= gap x d < k + N.of_nat n).
Proof.
  induction n as [|n IH]; intros k x Hd Hk; cbn [rings].
  - cbn [In]. split; [intros []|lia].
  - rewrite in_app_iff, ring_in, IH by lia. split; [|intros [A B]].
    + intros [[A B]|[A B]]; lia.
    + destruct (N.eq_dec (gap x d) k) as [E|E]; [left; lia|right; lia].
Qed.
Lemma ring_nodup d k : 0 < k -> NoDup (ring d k).
Proof.
  intros Hk. unfold ring. destruct (d + k <=? 256), (k <=? d); cbn [app]; repeat constructor; cbn; intuition lia.
Qed.
Lemma rings_nodup d : forall n k, d <= 256 -> 0 < k -> NoDup (rings d k n).
Proof.
  induction n as [|n IH]; intros k Hd Hk; cbn [rings]; [constructor|].
  assert (Disj : forall x, In x (ring d k) -> ~ In x (rings d (k + 1) n)).
  { intros x Hx Hy. apply ring_in in Hx; [|exact Hd]. apply rings_in in Hy; lia. }
  pose proof (ring_nodup d k Hk) as N1. specialize (IH (k + 1) Hd). assert (N2 : NoDup (rings d (k + 1) n)) by (apply IH; lia).
  induction (ring d k) as [|a l IHl]; [exact N2|]. cbn [app]. inversion N1; subst. constructor.
  - intros Hi. apply in_app_iff in Hi. destruct Hi as [Hi|Hi]; [tauto|]. exact (Disj a (or_introl eq_refl) Hi).
  - apply IHl; [|assumption]. intros x Hx. apply Disj. now right.
Qed.
Lemma rings_sorted d : forall n k, d <= 256 -> 0 < k -> StronglySorted (fun a b => gap a d <= gap b d) (rings d k n).
Proof.
  induction n as [|n IH]; intros k Hd Hk; cbn [rings]; [constructor|].
  assert (R : forall x, In x (ring d k) -> gap x d = k).
  { intros x Hx. apply ring_in in Hx; [|exact Hd]. apply Hx. }
  assert (S : forall y, In y (rings d (k + 1) n) -> k <= gap y d) by (intros y Hy; apply rings_in in Hy; lia).
  assert (N2 : StronglySorted (fun a b => gap a d <= gap b d) (rings d (k + 1) n)) by (apply IH; lia).
  induction (ring d k) as [|a l IHl]; [exact N2|]. cbn [app]. constructor.
  - apply IHl. intros x Hx. apply R. now right.
  - apply Forall_forall. intros y Hy. rewrite (R a (or_introl eq_refl)). apply in_app_iff in Hy.
    destruct Hy as [Hy|Hy]; [rewrite (R y (or_intror Hy)); lia|now apply S].
Qed.
Lemma rings_length d : forall n k, d <= 256 -> 0 < k -> k + N.of_nat n <= 129 -> N.of_nat n <= blen (rings d k n).
Proof.
  induction n as [|n IH]; intros k Hd Hk Hn; cbn [rings]; [lia|].
  rewrite blen_app. specialize (IH (k + 1) Hd). assert (1 <= blen (ring d k)).
  { unfold ring. rewrite blen_app. destruct (d + k <=? 256) eqn:A; [change (blen [d + k]) with 1; lia|].
    apply N.leb_gt in A. assert (k <=? d = true) as -> by (apply N.leb_le; lia). change (blen [d - k]) with 1. lia. }
  lia.
Qed.

(** C37: for every target, peer and size up to 127 the call does not panic; it fails only for the
    target itself; otherwise the distances start with that of the peer, are exactly [size]
    many, distinct, at most 256, each at least as near as the next, and no distance left out
    is nearer than one that is in. *)
Theorem C37_log_distances : forall target peer size, target < 2 ^ 256 -> peer < 2 ^ 256 -> size <= 127 ->
  (peer = target -> findnode_log2distance target peer size = Ok None) /\
  (peer <> target -> exists d l,
     log2 (N.lxor peer target) = Some d /\ findnode_log2distance target peer size = Ok (Some l) /\
     blen l = size /\ (0 < size -> hd_error l = Some d) /\ NoDup l /\ Forall (fun x => x <= 256) l /\
     StronglySorted (fun a b => gap a d <= gap b d) l /\
     forall x y, In x l -> y <= 256 -> ~ In y l -> gap x d <= gap y d).
Proof.
  intros target peer size Ht Hp Hs. unfold findnode_log2distance.
  assert (127 <? size = false) as -> by (apply N.ltb_ge; exact Hs).
  split.
  - intros ->. rewrite N.lxor_nilpotent. reflexivity.
  - intros Hne. assert (Hx : N.lxor peer target < 2 ^ 256).
    { assert (Z : N.lxor peer target / 2 ^ 256 = 0).
      { rewrite <- N.shiftr_div_pow2, N.shiftr_lxor, !N.shiftr_div_pow2, !N.div_small by assumption. reflexivity. }
      apply N.div_small_iff in Z; [exact Z|discriminate]. }
    destruct (log2_brackets (N.lxor peer target) (proj2 (le_max _) Hx)) as [B0 B1].
    destruct (log2 (N.lxor peer target)) as [d|] eqn:E.
    2:{ exfalso. apply Hne. apply N.lxor_eq. now apply B0. }
    destruct (proj1 (B1 d) eq_refl) as (D1 & D2 & _). clear B0 B1 E Hx Ht Hp Hne.
    destruct (loop_prefix d size 128 1 [d]) as [L1 L2].
    assert (Full : size <= blen ([d] ++ rings d 1 128)).
    { rewrite blen_app. pose proof (rings_length d 128 1 D2). lia. }
    assert (blen (log_distances_loop 128 d size 1 [d]) <? size = false) as -> by (apply N.ltb_ge; lia).
    exists d, (firstn (N.to_nat size) (log_distances_loop 128 d size 1 [d])).
    split; [reflexivity|]. split; [reflexivity|]. rewrite L1. clear L1 L2.
    assert (N : NoDup ([d] ++ rings d 1 128)).
    { cbn [app]. constructor; [|apply rings_nodup; lia]. intros Hi. apply rings_in in Hi; [|lia|lia]. unfold gap in Hi. lia. }
    assert (S : StronglySorted (fun a b => gap a d <= gap b d) ([d] ++ rings d 1 128)).
    { cbn [app]. constructor; [apply rings_sorted; lia|]. apply Forall_forall. intros y _. unfold gap. lia. }
    assert (B : forall y, In y ([d] ++ rings d 1 128) <-> y <= 256 /\ gap y d < 129).
    { intros y. cbn [app In]. rewrite rings_in by lia. unfold gap. lia. }
    assert (Hd : exists r, [d] ++ rings d 1 128 = d :: r) by (eexists; reflexivity).
    set (full := [d] ++ rings d 1 128) in *. clearbody full. pose proof (firstn_skipn (N.to_nat size) full) as FS.
    assert (Len : length (firstn (N.to_nat size) full) = N.to_nat size) by (rewrite firstn_length; unfold blen in Full; lia).
    split; [unfold blen; lia|]. split; [|split; [|split; [|split]]].
    + intros H0. destruct Hd as [r ->]. destruct (N.to_nat size) eqn:Z; [lia|]. reflexivity.
    + rewrite <- FS in N. clear -N. induction (firstn (N.to_nat size) full) as [|a l IH]; [constructor|].
      cbn in N. inversion N as [|x y Hx Hy]; subst. constructor; [|now apply IH]. intros Hi. apply Hx. apply in_app_iff. now left.
    + apply Forall_forall. intros x Hx. apply B. apply firstn_incl in Hx. exact Hx.
    + rewrite <- FS in S. clear -S. induction (firstn (N.to_nat size) full) as [|a l IH]; [constructor|].
      cbn in S. inversion S as [|x y Hx Hy]; subst. constructor; [now apply IH|]. apply Forall_app in Hy. apply Hy.
    + intros x y Hx Hy Hn.
      assert (Gx : gap x d < 129) by (apply B; apply firstn_incl in Hx; exact Hx).
      destruct (N.lt_ge_cases (gap y d) 129) as [G|G]; [|lia].
      assert (Hf : In y full) by (apply B; lia). rewrite <- FS in Hf. apply in_app_iff in Hf. destruct Hf as [Hf|Hf]; [now destruct Hn|].
      rewrite <- FS in S. revert S Hx Hf. clear. induction (firstn (N.to_nat size) full) as [|a l IH]; intros S Hx Hf; [destruct Hx|].
      cbn in S. inversion S as [|x0 y0 H1 H2]; subst. destruct Hx as [<-|Hx]; [|now apply IH].
      rewrite Forall_forall in H2. apply H2. apply in_app_iff. now right.
Qed.
Print Assumptions C37_log_distances.

(** More than 127 distances is a panic. *)
Theorem C37_too_many : forall target peer size, 127 < size -> findnode_log2distance target peer size = Panic.
Proof. intros target peer size H. unfold findnode_log2distance. apply N.ltb_lt in H. now rewrite H. Qed.
Print Assumptions C37_too_many.

Example C37_example : findnode_log2distance 0 2048 5 = Ok (Some [12; 13; 11; 14; 10]) /\
  findnode_log2distance 0 1 4 = Ok (Some [1; 2; 0; 3]) /\ findnode_log2distance 0 (2 ^ 255) 3 = Ok (Some [256; 255; 254]).
Proof. vm_compute. auto. Qed.
