From Verif Require Import Base AcceptQueue_Model AcceptQueue_Spec.

Lemma enr_eqb_spec a b : enr_eqb a b = true <-> a = b.
Proof.
  destruct a as [n s g], b as [n' s' g']. unfold enr_eqb. cbn. rewrite !andb_true_iff, !N.eqb_eq.
  split; [intros [[-> ->] ->]; reflexivity|intros [= -> -> ->]; auto].
Qed.

Lemma history_snoc ops o : forall q,
  history q (ops ++ [o]) = history q ops ++ [(o, snd (step (final q ops) o))].
Proof.
  induction ops as [|a ops IH]; intros q; cbn [app history final].
  - destruct (step q o); reflexivity.
  - destruct (step q a) as [q' r]. cbn [fst app]. rewrite IH. reflexivity.
Qed.

Lemma final_app ops1 : forall ops2 q, final q (ops1 ++ ops2) = final (final q ops1) ops2.
Proof. induction ops1 as [|a ops1 IH]; intros ops2 q; cbn [app final]; [reflexivity|apply IH]. Qed.

Lemma final_snoc ops o q : final q (ops ++ [o]) = fst (step (final q ops) o).
Proof. rewrite final_app. reflexivity. Qed.

Lemma history_app ops1 : forall ops2 q, history q (ops1 ++ ops2) = history q ops1 ++ history (final q ops1) ops2.
Proof.
  induction ops1 as [|a ops1 IH]; intros ops2 q; cbn [app history final]; [reflexivity|].
  destruct (step q a) as [q' r]. cbn [fst app]. rewrite IH. reflexivity.
Qed.

(** A prefix of a history is the history of a prefix of the operations. *)
Lemma history_split ops h1 e h2 q :
  history q ops = h1 ++ e :: h2 ->
  exists ops1 ops2, ops = ops1 ++ fst e :: ops2 /\ history q ops1 = h1 /\
    snd e = snd (step (final q ops1) (fst e)) /\ h2 = history (final q (ops1 ++ [fst e])) ops2.
Proof.
  revert q h1. induction ops as [|o ops IH]; intros q h1 H; cbn [history] in H.
  - destruct h1; discriminate.
  - destruct (step q o) as [q' r] eqn:E. destruct h1 as [|x h1]; cbn [app] in H.
    + injection H as <- <-. exists [], ops. cbn. rewrite E. repeat split.
    + injection H as <- H. apply IH in H as (o1 & o2 & -> & H2 & H3 & H4).
      exists (o :: o1), o2. cbn. rewrite E. cbn. rewrite H2. repeat split; assumption.
Qed.

Lemma lookup_some k q e : lookup k q = Some e -> In e q /\ e_key e = k.
Proof. intros H. apply find_some in H as [A B]. apply beqb_spec in B. auto. Qed.

Lemma lookup_none k q e : lookup k q = None -> In e q -> e_key e <> k.
Proof. intros H Hin E. apply (find_none _ _ H) in Hin. apply beqb_false in Hin. contradiction. Qed.

Lemma lookup_in k q e : NoDup (map e_key q) -> In e q -> e_key e = k -> lookup k q = Some e.
Proof.
  induction q as [|x q IH]; intros Hn Hin Hk; [destruct Hin|].
  cbn in Hn. inversion Hn as [|? ? Hx Hn']; subst. unfold lookup. cbn [find].
  destruct (beqb (e_key x) (e_key e)) eqn:E.
  - destruct Hin as [<-|Hin]; [reflexivity|]. apply beqb_spec in E. exfalso. apply Hx. rewrite E.
    apply in_map, Hin.
  - destruct Hin as [<-|Hin]; [rewrite beqb_refl in E; discriminate|]. apply IH; auto.
Qed.

Lemma in_remove k q e : In e (remove k q) <-> In e q /\ e_key e <> k.
Proof. unfold remove. rewrite filter_In, negb_true_iff, beqb_false. reflexivity. Qed.

Lemma NoDup_map_filter {A B} (f : A -> B) (P : A -> bool) l : NoDup (map f l) -> NoDup (map f (filter P l)).
Proof.
  induction l as [|x l IH]; cbn; intros H; [constructor|]. inversion H as [|? ? Hx H']; subst.
  destruct (P x); cbn; [|auto]. constructor; [|auto]. intros Hin. apply Hx.
  apply in_map_iff in Hin as (y & E & Hy). apply filter_In in Hy as [Hy _]. rewrite <- E. apply in_map, Hy.
Qed.

Lemma nodup_remove k q : NoDup (map e_key q) -> NoDup (map e_key (remove k q)).
Proof. apply NoDup_map_filter. Qed.

Lemma poll_cases now c q :
  poll_expired now c q = q \/
  exists e, In e q /\ e_deadline e <= now /\ poll_expired now c q = remove (e_key e) q.
Proof.
  unfold poll_expired. destruct (nth_error _ _) as [e|] eqn:E; [|left; reflexivity].
  right. exists e. apply nth_error_In in E. apply filter_In in E as [A B]. repeat split; [assumption|lia].
Qed.

Lemma in_progress_snoc h e k p t since :
  in_progress (h ++ [e]) k p t since <->
  (since = [] /\ exists c, e = (Offer t c k p, OfferResult true)) \/
  (exists s', since = s' ++ [e] /\ in_progress h k p t s' /\ ~ ends k e /\ (forall p', ~ accepted k p' e)).
Proof.
  unfold in_progress. split.
  - intros (b & c & E & A & B). destruct since as [|x since _] using rev_ind.
    + apply app_inj_tail in E as [E1 E2]. left. split; [reflexivity|]. exists c. assumption.
    + right. exists since. rewrite app_comm_cons, app_assoc in E. apply app_inj_tail in E as [E1 E2]. subst x.
      split; [reflexivity|]. split; [|split].
      * exists b, c. split; [assumption|]. split; intros; [apply A|apply B]; apply in_or_app; auto.
      * apply A, in_or_app; cbn; auto.
      * intros p'. apply B, in_or_app; cbn; auto.
  - intros [(-> & c & ->)|(s' & -> & (b & c & E & A & B) & C & D)].
    + exists h, c. split; [reflexivity|]. split; [intros e []|intros e p' []].
    + exists b, c. split; [rewrite E, <- app_assoc; reflexivity|]. split.
      * intros e' H. apply in_app_or in H as [H|[<-|[]]]; auto.
      * intros e' p' H. apply in_app_or in H as [H|[<-|[]]]; auto.
Qed.

Lemma last_offer_app k h1 : forall t h2, last_offer k t (h1 ++ h2) = last_offer k (last_offer k t h1) h2.
Proof.
  induction h1 as [|[[now c k' p|k'|c k'] r] h1 IH]; intros t h2; cbn [app last_offer]; auto.
Qed.

Lemma timed_out_snoc k t s e : timed_out k t s -> timed_out k t (s ++ [e]).
Proof.
  intros (s1 & now & c & k' & p' & r & s2 & -> & H). exists s1, now, c, k', p', r, (s2 ++ [e]).
  rewrite <- app_assoc. split; [reflexivity|assumption].
Qed.

(** The invariant linking the queue to the history that led to it. *)
Definition entry_ok (h : list event) (e : entry) : Prop :=
  exists t since, in_progress h (e_key e) (e_origin e) t since /\
    e_deadline e = last_offer (e_key e) t since + 120000 /\
    NoDup (e_fallback e) /\
    (forall q, In q (e_fallback e) <-> q <> e_origin e /\ exists x, In x since /\ refused (e_key e) q x).

Definition Inv (h : list event) (q : queue) : Prop :=
  NoDup (map e_key q) /\
  (forall e, In e q -> entry_ok h e) /\
  (forall k p t since, in_progress h k p t since ->
     (exists e, In e q /\ e_key e = k /\ e_origin e = p) \/ timed_out k t since).

Lemma Inv_init : Inv [] queue_default.
Proof.
  split; [constructor|]. split; [intros e []|]. intros k p t s (b & c & E & _). destruct b; discriminate.
Qed.

(** An event that does not touch the key of an entry keeps the entry's record. *)
Lemma entry_ok_other h e x :
  entry_ok h e -> ~ ends (e_key e) x ->
  match fst x with Offer _ _ k _ => k <> e_key e | _ => True end ->
  entry_ok (h ++ [x]) e.
Proof.
  intros (t & since & P & D & N & F) He Hk. exists t, (since ++ [x]).
  split; [|split; [|split]].
  - apply in_progress_snoc. right. exists since. repeat split; try assumption.
    intros p' (now & c & ->). cbn in Hk. congruence.
  - rewrite last_offer_app, D. f_equal. destruct x as [[now c k' p|k'|c k'] r]; cbn [last_offer fst] in *; auto.
    apply beqb_false in Hk. rewrite Hk. reflexivity.
  - assumption.
  - intros q. rewrite F. split.
    + intros (A & y & B & C). split; [assumption|]. exists y. split; [apply in_or_app; auto|assumption].
    + intros (A & y & B & C). split; [assumption|]. apply in_app_or in B as [B|[<-|[]]]; [exists y; auto|].
      destruct C as (now & c & ->). cbn in Hk. congruence.
Qed.

Lemma in_progress_unique h k p t s p' t' s' :
  in_progress h k p t s -> in_progress h k p' t' s' -> p = p' /\ t = t' /\ s = s'.
Proof.
  revert s s'. induction h as [|x h IH] using rev_ind; intros s s' H1 H2.
  - destruct H1 as (b & c & E & _). destruct b; discriminate.
  - apply in_progress_snoc in H1, H2.
    destruct H1 as [(-> & c & ->)|(s1 & -> & H1 & A1 & B1)], H2 as [(-> & c' & E)|(s2 & -> & H2 & A2 & B2)].
    + injection E as <- <- <-. auto.
    + exfalso. eapply B2. exists t, c. reflexivity.
    + exfalso. subst x. eapply B1. exists t', c'. reflexivity.
    + destruct (IH _ _ H1 H2) as (-> & -> & ->). auto.
Qed.

Lemma Inv_step h q o : Inv h q -> Inv (h ++ [(o, snd (step q o))]) (fst (step q o)).
Proof.
  intros (N & E & P).
  assert (Hend : forall k x, ends k x -> (forall now c p k', fst x <> Offer now c p k') ->
    NoDup (map e_key q) -> forall q', q' = remove k q \/ (q' = q /\ lookup k q = None) -> Inv (h ++ [x]) q').
  { intros k x Hx Hno _ q' Hq'.
    assert (Hin : forall e, In e q' <-> In e q /\ e_key e <> k).
    { intros e. destruct Hq' as [->|[-> Hl]]; [apply in_remove|]. split; [|tauto]. intros Hi. split; [assumption|].
      eapply lookup_none; eassumption. }
    assert (Hend2 : forall k', ends k' x -> k' = k).
    { intros k'. unfold ends in *. destruct (fst x); [destruct Hx|intros; congruence..]. }
    split; [|split].
    - destruct Hq' as [->|[-> _]]; [apply nodup_remove; assumption|assumption].
    - intros e He. apply Hin in He as [He Hk]. apply entry_ok_other; [auto| |].
      + intros X. apply Hend2 in X. congruence.
      + destruct (fst x) eqn:Ex; [exfalso; exact (Hno _ _ _ _ eq_refl)|exact I..].
    - intros k' p t since H. apply in_progress_snoc in H as [(-> & c & ->)|(s' & -> & H & A & B)].
      + exfalso. eapply (Hno t c k' p). reflexivity.
      + apply P in H as [(e & He & Hk & Ho)|H]; [|right; apply timed_out_snoc, H].
        left. exists e. split; [|auto]. apply Hin. split; [assumption|]. intros Hk2. apply A. rewrite <- Hk, Hk2. assumption. }
  destruct o as [now c k p|k|c k]; cbn [step fst snd].
  - unfold add_key_to_queue.
    set (q1 := poll_expired now c q).
    assert (N1 : NoDup (map e_key q1)).
    { destruct (poll_cases now c q) as [Hq|(e & _ & _ & Hq)]; unfold q1; rewrite Hq; [assumption|apply nodup_remove; assumption]. }
    assert (S1 : forall e, In e q1 -> In e q).
    { intros e. destruct (poll_cases now c q) as [Hq|(e0 & _ & _ & Hq)]; unfold q1; rewrite Hq; [auto|]. intros He. apply in_remove in He. tauto. }
    assert (P1 : forall k' p' t since, in_progress h k' p' t since ->
       (exists e, In e q1 /\ e_key e = k' /\ e_origin e = p') \/ timed_out k' t since \/ last_offer k' t since + 120000 <= now).
    { intros k' p' t since H. destruct (P _ _ _ _ H) as [(e & He & Hk & Ho)|Ht]; [|auto].
      destruct (poll_cases now c q) as [Hq|(e0 & He0 & Hd & Hq)]; unfold q1; rewrite Hq.
      - left. exists e. auto.
      - destruct (bytes_eq_dec (e_key e) (e_key e0)) as [Heq|Hne].
        + right. right.
          assert (e0 = e).
          { assert (lookup (e_key e0) q = Some e0) by (apply lookup_in; auto).
            assert (lookup (e_key e0) q = Some e) by (apply lookup_in; auto). congruence. }
          subst e0. destruct (E e He) as (t' & since' & H' & D & _). rewrite Hk in H', D.
          destruct (in_progress_unique _ _ _ _ _ _ _ _ H H') as (_ & -> & ->). lia.
        + left. exists e. split; [|auto]. apply in_remove. auto. }
    clearbody q1.
    destruct (lookup k q1) as [e0|] eqn:L; cbn [fst snd].
    + apply lookup_some in L as [L1 L2].
      set (e1 := mk_entry k (e_origin e0) _ _).
      assert (Hin : forall e, In e (e1 :: remove k q1) <-> e = e1 \/ (In e q1 /\ e_key e <> k)).
      { intros e. cbn [In]. rewrite in_remove. intuition congruence. }
      split; [|split].
      * cbn [map]. constructor; [|apply nodup_remove; assumption]. cbn [e_key e1]. intros X.
        apply in_map_iff in X as (y & Y1 & Y2). apply in_remove in Y2. tauto.
      * intros e He. apply Hin in He as [->|[He Hk]].
        -- destruct (E e0 (S1 _ L1)) as (t & since & Hp & D & Nd & F). rewrite L2 in *.
           exists t, (since ++ [(Offer now c k p, OfferResult false)]). cbn [e1 e_key e_origin e_deadline e_fallback].
           split; [|split; [|split]].
           ++ apply in_progress_snoc. right. exists since. repeat split; try assumption; [intros X; exact X|].
              intros p' (n' & c' & X). discriminate.
           ++ rewrite last_offer_app. cbn [last_offer]. rewrite beqb_refl. reflexivity.
           ++ destruct (enr_eqb (e_origin e0) p || existsb (enr_eqb p) (e_fallback e0)) eqn:B; [assumption|].
              apply orb_false_iff in B as [_ B]. 
              rewrite <- (rev_involutive (e_fallback e0 ++ [p])). apply NoDup_rev. rewrite rev_app_distr. cbn.
              constructor; [|apply NoDup_rev; assumption]. intros X. apply in_rev in X.
              assert (existsb (enr_eqb p) (e_fallback e0) = true); [|congruence].
              apply existsb_exists. exists p. split; [assumption|]. apply enr_eqb_spec. reflexivity.
           ++ intros x.
              assert (R : (exists y, In y (since ++ [(Offer now c k p, OfferResult false)]) /\ refused k x y) <->
                          (exists y, In y since /\ refused k x y) \/ x = p).
              { split.
                - intros (y & Hy & Hr). apply in_app_or in Hy as [Hy|[<-|[]]]; [left; eauto|].
                  right. destruct Hr as (n' & c' & [= ? ? ?]). congruence.
                - intros [(y & Hy & Hr)| ->]; [exists y; split; [apply in_or_app; auto|assumption]|].
                  eexists. split; [apply in_or_app; right; left; reflexivity|]. exists now, c. reflexivity. }
              rewrite R.
              destruct (enr_eqb (e_origin e0) p || existsb (enr_eqb p) (e_fallback e0)) eqn:B.
              ** rewrite F. split; [tauto|]. intros (A & [C | ->]); [auto|]. split; [assumption|].
                 apply orb_true_iff in B as [B|B]; [apply enr_eqb_spec in B; congruence|].
                 apply existsb_exists in B as (y & Hy & He). apply enr_eqb_spec in He. subst y. apply F in Hy. tauto.
              ** apply orb_false_iff in B as [B1 B2].
                 assert (Hne : p <> e_origin e0).
                 { intros ->. assert (X : enr_eqb (e_origin e0) (e_origin e0) = true) by (apply enr_eqb_spec; reflexivity). congruence. }
                 rewrite in_app_iff, F. cbn [In]. split.
                 --- intros [(A & C)|[<-|[]]]; auto.
                 --- intros (A & [C| ->]); auto.
        -- apply entry_ok_other; [auto|intros X; exact X|]. cbn. congruence.
      * intros k' p' t since H. apply in_progress_snoc in H as [(-> & c' & X)|(s' & -> & H & A & B)]; [discriminate|].
        destruct (P1 _ _ _ _ H) as [(e & He & Hk & Ho)|[Ht|Ht]].
        -- left. destruct (bytes_eq_dec k' k) as [->|Hne].
           ++ exists e1. split; [left; reflexivity|]. split; [reflexivity|].
              assert (e = e0).
              { assert (lookup k q1 = Some e0) by (apply lookup_in; auto).
                assert (lookup k q1 = Some e) by (apply lookup_in; auto). congruence. }
              subst e. assumption.
           ++ exists e. split; [|auto]. right. apply in_remove. split; [assumption|congruence].
        -- right. apply timed_out_snoc, Ht.
        -- right. exists s', now, c, k, p, (OfferResult false), []. split; [reflexivity|assumption].
    + pose proof (fun e => lookup_none k q1 e L) as L'.
      split; [|split].
      * cbn. constructor; [|assumption]. intros X. apply in_map_iff in X as (y & Y1 & Y2). exact (L' y Y2 Y1).
      * intros e [<-|He].
        -- exists now, []. cbn [e_key e_origin e_deadline e_fallback last_offer]. split; [|split; [reflexivity|split]].
           ++ apply in_progress_snoc. left. split; [reflexivity|]. exists c. reflexivity.
           ++ constructor.
           ++ intros x. cbn. split; [intros []|intros (_ & y & [] & _)].
        -- apply entry_ok_other; [auto|intros X; exact X|]. cbn. apply not_eq_sym. auto.
      * intros k' p' t since H. apply in_progress_snoc in H as [(-> & c' & X)|(s' & -> & H & A & B)].
        -- injection X as -> -> -> ->. left. eexists. split; [left; reflexivity|]. split; reflexivity.
        -- destruct (P1 _ _ _ _ H) as [(e & He & Hk & Ho)|[Ht|Ht]].
           ++ left. exists e. split; [right; assumption|auto].
           ++ right. apply timed_out_snoc, Ht.
           ++ right. exists s', now, c, k, p, (OfferResult true), []. split; [reflexivity|assumption].
  - apply (Hend k); [reflexivity|intros; discriminate|assumption|]. left. reflexivity.
  - unfold process_failed_key. destruct (lookup k q) eqn:L; cbn [fst snd];
    (apply (Hend k); [reflexivity|intros; discriminate|assumption|]); auto.
Qed.

Lemma Inv_run ops : Inv (history queue_default ops) (final queue_default ops).
Proof.
  induction ops as [|o ops IH] using rev_ind; [apply Inv_init|].
  rewrite history_snoc, final_snoc. apply Inv_step, IH.
Qed.

Lemma no_second_transfer ops h e h2 k p t since p' :
  history queue_default ops = h ++ e :: h2 ->
  in_progress h k p t since -> accepted k p' e -> timed_out k t (since ++ [e]).
Proof.
  intros H Hp (now & c & ->). apply history_split in H as (o1 & o2 & -> & <- & R & _). cbn [fst snd] in R.
  destruct (Inv_run o1) as (N & E & P).
  set (q := final queue_default o1) in *. clearbody q.
  destruct (P _ _ _ _ Hp) as [(e & He & Hk & Ho)|Ht]; [|apply timed_out_snoc, Ht].
  cbn [step] in R. unfold add_key_to_queue in R.
  destruct (lookup k (poll_expired now c q)) as [e0|] eqn:L; [discriminate|].
  pose proof (fun e => lookup_none _ _ e L) as L'.
  destruct (poll_cases now c q) as [Hq|(e0 & He0 & Hd & Hq)]; rewrite Hq in *.
  - exfalso. exact (L' e He Hk).
  - destruct (bytes_eq_dec (e_key e) (e_key e0)) as [Heq|Hne].
    + assert (e0 = e).
      { assert (lookup (e_key e0) q = Some e0) by (apply lookup_in; auto).
        assert (lookup (e_key e0) q = Some e) by (apply lookup_in; auto). congruence. }
      subst e0. destruct (E e He) as (t' & since' & H' & D & _). rewrite Hk in H', D.
      destruct (in_progress_unique _ _ _ _ _ _ _ _ Hp H') as (_ & -> & ->).
      exists since', now, c, k, p', (OfferResult true), []. split; [reflexivity|lia].
    + exfalso. apply (L' e); [apply in_remove; auto|assumption].
Qed.

Lemma refused_in_progress ops h e h2 k p :
  history queue_default ops = h ++ e :: h2 -> refused k p e ->
  exists p0 t since, in_progress h k p0 t since.
Proof.
  intros H (now & c & ->). apply history_split in H as (o1 & o2 & -> & <- & R & _). cbn [fst snd step] in R.
  destruct (Inv_run o1) as (N & E & P). unfold add_key_to_queue in R.
  destruct (lookup k _) as [e0|] eqn:L; [|discriminate].
  apply lookup_some in L as [L1 L2].
  assert (Hin : In e0 (final queue_default o1)).
  { destruct (poll_cases now c (final queue_default o1)) as [Hq|(e1 & _ & _ & Hq)]; rewrite Hq in L1; [assumption|].
    apply in_remove in L1. tauto. }
  destruct (E _ Hin) as (t & since & Hp & _). rewrite L2 in Hp. eauto.
Qed.

Lemma offer_result ops h e h2 now c k p :
  history queue_default ops = h ++ e :: h2 -> fst e = Offer now c k p -> accepted k p e \/ refused k p e.
Proof.
  intros H He. apply history_split in H as (o1 & o2 & _ & _ & R & _). rewrite He in R. cbn [step] in R.
  destruct (add_key_to_queue now c k p _) as [q' []]; cbn in R; destruct e as [o r]; cbn in *; subst;
    [left|right]; exists now, c; reflexivity.
Qed.

Lemma fallback_some ops h c k q h2 :
  history queue_default ops = h ++ (Failed c k, FailedResult (Some q)) :: h2 ->
  exists p t since, in_progress h k p t since /\ q <> p /\ exists x, In x since /\ refused k q x.
Proof.
  intros H. apply history_split in H as (o1 & o2 & -> & <- & R & _). cbn [fst snd step] in R.
  destruct (Inv_run o1) as (N & E & P). unfold process_failed_key in R.
  destruct (lookup k _) as [e0|] eqn:L; [|discriminate]. apply lookup_some in L as [L1 L2].
  cbn [snd] in R. injection R as R. symmetry in R. apply nth_error_In in R.
  destruct (E _ L1) as (t & since & Hp & _ & _ & F). rewrite L2 in *.
  apply F in R as (A & B). eauto 6.
Qed.

Lemma fallback_none ops h c k p t since h2 :
  history queue_default ops = h ++ (Failed c k, FailedResult None) :: h2 ->
  in_progress h k p t since ->
  (forall q x, In x since -> refused k q x -> q = p) \/ timed_out k t since.
Proof.
  intros H Hp. apply history_split in H as (o1 & o2 & -> & <- & R & _). cbn [fst snd step] in R.
  destruct (Inv_run o1) as (N & E & P). unfold process_failed_key in R.
  destruct (P _ _ _ _ Hp) as [(e & He & Hk & Ho)|Ht]; [|right; assumption]. left.
  rewrite (lookup_in k _ e N He Hk) in R. cbn [snd] in R. injection R as R.
  destruct (E _ He) as (t' & since' & Hp' & _ & _ & F). rewrite Hk in *.
  destruct (in_progress_unique _ _ _ _ _ _ _ _ Hp Hp') as (_ & <- & <-).
  intros q x Hx Hr.
  assert (Hnil : e_fallback e = []).
  { destruct (e_fallback e) as [|y l] eqn:Ef; [reflexivity|]. exfalso. symmetry in R. apply nth_error_None in R.
    assert (X : (Nat.modulo c (length (y :: l)) < length (y :: l))%nat) by (apply Nat.mod_upper_bound; discriminate).
    apply (Nat.lt_irrefl (length (y :: l))). eapply Nat.le_lt_trans; eassumption. }
  destruct (enr_eqb q p) eqn:Eq; [apply enr_eqb_spec in Eq; assumption|].
  exfalso. assert (X : In q (e_fallback e)).
  { apply F. split; [|eauto]. rewrite Ho. intros ->. rewrite (proj2 (enr_eqb_spec p p) eq_refl) in Eq. discriminate. }
  rewrite Hnil in X. destruct X.
Qed.

Lemma accepted_after_end ops h x mid e h2 now c k p :
  history queue_default ops = h ++ x :: mid ++ e :: h2 ->
  ends k x -> (forall y p', In y mid -> ~ accepted k p' y) -> fst e = Offer now c k p ->
  accepted k p e.
Proof.
  intros H Hx Hm He.
  rewrite app_comm_cons, app_assoc in H.
  destruct (offer_result _ _ _ _ _ _ _ _ H He) as [A|A]; [assumption|]. exfalso.
  apply (refused_in_progress _ _ _ _ _ _ H) in A as (p0 & t & since & (b & c' & E & B & C)).
  clear H. revert since E B C. induction mid as [|y mid IH] using rev_ind; intros since E B C.
  - destruct since as [|z since _] using rev_ind.
    + apply app_inj_tail in E as [_ E]. subst x. exact Hx.
    + rewrite app_comm_cons, app_assoc in E. apply app_inj_tail in E as [_ <-].
      apply (B x); [apply in_or_app; cbn; auto|assumption].
  - rewrite app_comm_cons, app_assoc in E. destruct since as [|z since _] using rev_ind.
    + apply app_inj_tail in E as [_ E]. subst y. apply (Hm (Offer t c' k p0, OfferResult true) p0).
      * apply in_or_app; cbn; auto.
      * exists t, c'. reflexivity.
    + rewrite app_comm_cons, app_assoc in E. apply app_inj_tail in E as [E <-].
      apply (IH (fun y' p' Hy => Hm y' p' (in_or_app _ _ _ (or_introl Hy))) since).
      * exact E.
      * intros e' He'. apply B, in_or_app; auto.
      * intros e' p' He'. apply C, in_or_app; auto.
Qed.

Lemma fallback_nodup ops e :
  In e (final queue_default ops) -> NoDup (e_origin e :: e_fallback e).
Proof.
  intros H. destruct (Inv_run ops) as (_ & E & _). destruct (E e H) as (t & since & _ & _ & N & F).
  constructor; [|assumption]. intros X. apply F in X. tauto.
Qed.

(** Unless it is offered again, a key whose deadline has passed is accepted again at the next
    offer if no other key is waiting to be expired. *)
Lemma released_alone q now c k p :
  NoDup (map e_key q) ->
  (forall e, In e q -> e_key e = k -> e_deadline e <= now) ->
  (forall e, In e q -> e_key e <> k -> now < e_deadline e) ->
  snd (add_key_to_queue now c k p q) = true.
Proof.
  intros N H1 H2. unfold add_key_to_queue.
  destruct (lookup k (poll_expired now c q)) as [e0|] eqn:L; [|reflexivity]. exfalso.
  apply lookup_some in L as [L1 L2]. unfold poll_expired in L1.
  set (ex := filter _ q) in L1.
  assert (Hex : ex <> [] -> exists e, nth_error ex (Nat.modulo c (length ex)) = Some e /\ e_key e = k).
  { intros Hne. destruct (nth_error ex (Nat.modulo c (length ex))) as [e|] eqn:En.
    - exists e. split; [reflexivity|]. apply nth_error_In in En. apply filter_In in En as [En Ed].
      destruct (bytes_eq_dec (e_key e) k) as [|Hk]; [assumption|]. specialize (H2 e En Hk). lia.
    - exfalso. apply nth_error_None in En.
      assert (X : (Nat.modulo c (length ex) < length ex)%nat) by (apply Nat.mod_upper_bound; destruct ex; [congruence|discriminate]).
      apply (Nat.lt_irrefl (length ex)). eapply Nat.le_lt_trans; eassumption. }
  destruct (nth_error ex (Nat.modulo c (length ex))) as [e|] eqn:En.
  - assert (Hne : ex <> []) by (intros X; apply nth_error_In in En; rewrite X in En; destruct En).
    destruct (Hex Hne) as (e' & He' & Hk). assert (e' = e) by congruence. subst e'. rewrite Hk in L1. apply in_remove in L1. tauto.
  - assert (Hin : In e0 ex).
    { apply filter_In. split; [assumption|]. specialize (H1 e0 L1 L2). lia. }
    destruct Hex as (e' & X & _); [|discriminate]. intros Y. rewrite Y in Hin. destruct Hin.
Qed.

(** Re-offers at least every two minutes keep a key refused for ever. *)
Definition reoffers (k : bytes) (p : enr) (n : nat) : list op :=
  map (fun i => Offer (N.of_nat i * 60000) 0%nat k p) (seq 0 n).

Lemma reoffers_state k p n :
  final queue_default (reoffers k p (S n)) = [mk_entry k p [] (N.of_nat n * 60000 + 120000)].
Proof.
  induction n as [|n IH]; [reflexivity|].
  unfold reoffers in *. rewrite seq_S, map_app, final_app, IH. cbn [map final step plus].
  unfold add_key_to_queue, poll_expired. cbn [filter e_deadline].
  destruct (N.leb_spec (N.of_nat n * 60000 + 120000) (N.of_nat (S n) * 60000)); [lia|].
  cbn [length nth_error Nat.modulo]. unfold lookup. cbn [find e_key]. rewrite beqb_refl.
  cbn [e_origin e_fallback]. rewrite (proj2 (enr_eqb_spec p p) eq_refl). cbn [orb fst].
  unfold remove. cbn [filter e_key]. rewrite beqb_refl. reflexivity.
Qed.

Lemma stuck_for_ever k p (n : nat) :
  exists ops h now,
    history queue_default ops = (Offer 0 0%nat k p, OfferResult true) :: h ++ [(Offer now 0%nat k p, OfferResult false)] /\
    N.of_nat n <= now /\
    (forall e, In e h -> ~ ends k e).
Proof.
  pose (ops := reoffers k p (S (S n))).
  assert (Eops : ops = reoffers k p (S n) ++ [Offer (N.of_nat (S n) * 60000) 0%nat k p]).
  { unfold ops, reoffers. rewrite seq_S, map_app. reflexivity. }
  assert (Es : exists h0, history queue_default (reoffers k p (S n)) = (Offer 0 0%nat k p, OfferResult true) :: h0 /\
     forall e, In e h0 -> ~ ends k e).
  { unfold reoffers. cbn [seq map history]. eexists. split; [reflexivity|].
    intros e He X. assert (G : forall l q, In e (history q (map (fun i => Offer (N.of_nat i * 60000) 0%nat k p) l)) -> False).
    { clear He. induction l as [|a l IHl]; intros q He; cbn [map history] in He; [exact He|].
      destruct (step q _) as [q' r] in He. destruct He as [<-|He]; [exact X|exact (IHl _ He)]. }
    exact (G _ _ He). }
  destruct Es as (h0 & Es & Hno).
  exists ops, h0, (N.of_nat (S n) * 60000).
  split; [|split; [lia|assumption]].
  rewrite Eops, history_snoc, Es, reoffers_state. cbn [step snd].
  unfold add_key_to_queue, poll_expired. cbn [filter e_deadline].
  destruct (N.leb_spec (N.of_nat n * 60000 + 120000) (N.of_nat (S n) * 60000)); [lia|].
  cbn [length nth_error Nat.modulo]. unfold lookup. cbn [find e_key]. rewrite beqb_refl. reflexivity.
Qed.
