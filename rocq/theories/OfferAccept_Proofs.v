From Verif Require Import Base Payload_Model Payload_Proofs AcceptCodes_Model AcceptCodes_Proofs
  AcceptQueue_Model AcceptQueue_Proofs OfferAccept_Model OfferAccept_Spec.

Definition code_dec (a b : accept_code) : {a = b} + {a <> b}.
Proof. decide equality. Defined.

Lemma code_eqb_accepted c : code_eqb c Accepted = true <-> c = Accepted.
Proof. destruct c; vm_compute; split; congruence. Qed.

Lemma accepted_items_select {A} codes (l : list A) : accepted_items codes l = select_accepted codes l.
Proof.
  revert l. unfold accepted_items. induction codes as [|c codes IH]; intros [|x l]; try reflexivity.
  - destruct c; reflexivity.
  - cbn [combine filter fst]. specialize (IH l). destruct (code_eqb c Accepted) eqn:E.
    + apply code_eqb_accepted in E. subst c. cbn. f_equal. exact IH.
    + destruct c; cbn; try exact IH. exfalso. vm_compute in E. discriminate.
Qed.

Lemma select_ext {A} c1 : forall c2 (l : list A), length c1 = length c2 ->
  (forall i, nth_error c1 i = Some Accepted <-> nth_error c2 i = Some Accepted) ->
  select_accepted c1 l = select_accepted c2 l.
Proof.
  induction c1 as [|a c1 IH]; intros [|b c2] l Hl Hx; try discriminate; [reflexivity|].
  injection Hl as Hl.
  assert (IH' : forall l, select_accepted c1 l = select_accepted c2 l) by (intros l'; apply IH; [assumption|]; intros i; apply (Hx (S i))).
  specialize (Hx 0%nat). cbn in Hx.
  destruct l as [|x l]; [destruct a, b; reflexivity|].
  destruct a, b; cbn; rewrite ?IH'; try reflexivity; exfalso; destruct Hx as [H1 H2];
    (discriminate (H1 eq_refl) || discriminate (H2 eq_refl)).
Qed.

Lemma select_map {A B} (f : A -> B) codes : forall l, map f (select_accepted codes l) = select_accepted codes (map f l).
Proof.
  induction codes as [|c codes IH]; intros [|x l]; try reflexivity; try (destruct c; reflexivity).
  destruct c; cbn; rewrite IH; reflexivity.
Qed.

Lemma select_combine {A B} codes : forall (l1 : list A) (l2 : list B), length l1 = length l2 ->
  combine (select_accepted codes l1) (select_accepted codes l2) = select_accepted codes (combine l1 l2).
Proof.
  induction codes as [|c codes IH]; intros [|x l1] [|y l2] H; try reflexivity; try discriminate; try (destruct c; reflexivity).
  injection H as H. destruct c; cbn; rewrite IH by assumption; reflexivity.
Qed.

Lemma select_in {A} codes : forall (l : list A) x, In x (select_accepted codes l) -> In x l.
Proof.
  induction codes as [|c codes IH]; intros [|y l] x H; try (destruct H); try (destruct c; destruct H).
  destruct c; cbn in H; try (right; apply IH; assumption).
  destruct H as [->|H]; [left; reflexivity|right; apply IH; assumption].
Qed.

Lemma select_length {A B} codes : forall (l1 : list A) (l2 : list B), length l1 = length l2 ->
  length (select_accepted codes l1) = length (select_accepted codes l2).
Proof.
  induction codes as [|c codes IH]; intros [|x l1] [|y l2] H; try reflexivity; try discriminate; try (destruct c; reflexivity).
  injection H as H. destruct c; cbn; rewrite (IH l1 l2) by assumption; reflexivity.
Qed.

Lemma map_option_spec {A B} (f : A -> option B) l ys :
  map_option f l = Some ys -> length ys = length l /\
  forall i x, nth_error l i = Some x -> exists y, f x = Some y /\ nth_error ys i = Some y.
Proof.
  revert ys. induction l as [|a l IH]; intros ys H; cbn in H.
  - injection H as <-. split; [reflexivity|]. intros [|i] x; discriminate.
  - destruct (f a) as [b|] eqn:Fa; [|discriminate]. destruct (map_option f l) as [bs|]; [|discriminate].
    injection H as <-. destruct (IH bs eq_refl) as [L N]. split; [cbn; rewrite L; reflexivity|].
    intros [|i] x Hx; cbn in *; [injection Hx as <-; eauto|eauto].
Qed.

Lemma map_option_in {A B C} (f : A -> option B) (l : list (A * C)) ys y z zs :
  map_option f (map fst l) = Some ys -> zs = map snd l -> In (y, z) (combine ys zs) ->
  exists x : A, In (x, z) l /\ f x = Some y.
Proof.
  intros H -> Hin. revert ys H Hin. induction l as [|[a v] l IH]; intros ys H Hin; cbn in H.
  - injection H as <-. destruct Hin.
  - destruct (f a) as [b|] eqn:Fa; [|discriminate]. destruct (map_option f (map fst l)) as [bs|]; [|discriminate].
    injection H as <-. cbn in Hin. destruct Hin as [[= -> ->]|Hin].
    + exists a. split; [left; reflexivity|assumption].
    + destruct (IH _ eq_refl Hin) as (x & Hx & Fx). exists x. split; [right; assumption|assumption].
Qed.

Lemma map_outcome_spec {A B} (f : A -> outcome B) l ys :
  map_outcome f l = Ok ys -> length ys = length l /\
  forall i x, nth_error l i = Some x -> exists y, f x = Ok y /\ nth_error ys i = Some y.
Proof.
  revert ys. induction l as [|a l IH]; intros ys H; cbn in H.
  - injection H as <-. split; [reflexivity|]. intros [|i] x; discriminate.
  - destruct (f a) as [b| |] eqn:Fa; try discriminate. cbn in H. destruct (map_outcome f l) as [bs| |]; try discriminate.
    injection H as <-. destruct (IH bs eq_refl) as [L N]. split; [cbn; rewrite L; reflexivity|].
    intros [|i] x Hx; cbn in *; [injection Hx as <-; eauto|eauto].
Qed.

Lemma map_outcome_no_panic {A B} (f : A -> outcome B) l : (forall x, f x <> Panic) -> map_outcome f l <> Panic.
Proof.
  intros H. induction l as [|a l IH]; cbn; [discriminate|].
  specialize (H a). destruct (f a); cbn; try congruence. destruct (map_outcome f l); cbn; congruence.
Qed.

(** ** The codes *)

Lemma oc_shape clock peer kds : forall i q q' codes acc,
  offer_codes clock i peer kds q = (q', codes, acc) ->
  length codes = length kds /\ acc = select_accepted codes (map fst kds) /\
  (forall j k d, nth_error kds j = Some (k, d) -> exists c, nth_error codes j = Some c /\
     (c = NotWithinRadius <-> d = DNotWithinRadius) /\ (c = AlreadyStored <-> d = DAlreadyStored) /\
     (c = Accepted \/ c = InboundTransferInProgress <-> d = Store)).
Proof.
  induction kds as [|[k d] kds IH]; intros i q q' codes acc H; cbn in H.
  - injection H as <- <- <-. repeat split. intros [|j]; discriminate.
  - destruct d.
    + destruct (add_key_to_queue _ _ k peer q) as [q1 ok]. destruct (offer_codes clock (S i) peer kds q1) as [[q2 cs] ac] eqn:E.
      apply IH in E as (L & -> & N).
      destruct ok; injection H as <- <- <-; cbn; (split; [lia|]; split; [reflexivity|]);
        intros [|j] k' d' Hn; cbn in *; eauto; injection Hn as <- <-; eexists; (split; [reflexivity|]);
        intuition congruence.
    + destruct (offer_codes clock (S i) peer kds q) as [[q2 cs] ac] eqn:E. apply IH in E as (L & -> & N).
      injection H as <- <- <-; cbn; (split; [lia|]; split; [reflexivity|]);
        intros [|j] k' d' Hn; cbn in *; eauto; injection Hn as <- <-; eexists; (split; [reflexivity|]);
        intuition congruence.
    + destruct (offer_codes clock (S i) peer kds q) as [[q2 cs] ac] eqn:E. apply IH in E as (L & -> & N).
      injection H as <- <- <-; cbn; (split; [lia|]; split; [reflexivity|]);
        intros [|j] k' d' Hn; cbn in *; eauto; injection Hn as <- <-; eexists; (split; [reflexivity|]);
        intuition congruence.
Qed.

Definition fresh (T : N) (k : bytes) (q : queue) : Prop := exists e, In e q /\ e_key e = k /\ T <= e_deadline e.

Lemma nodup_add now c k peer q : NoDup (map e_key q) -> NoDup (map e_key (fst (add_key_to_queue now c k peer q))).
Proof.
  intros N. unfold add_key_to_queue.
  assert (N1 : NoDup (map e_key (poll_expired now c q))).
  { destruct (poll_cases now c q) as [->|(e & _ & _ & ->)]; [assumption|apply nodup_remove; assumption]. }
  destruct (lookup k (poll_expired now c q)) as [e|] eqn:L; cbn.
  - constructor; [|apply nodup_remove; assumption]. intros X. apply in_map_iff in X as (y & Y1 & Y2).
    apply in_remove in Y2. tauto.
  - constructor; [|assumption]. intros X. apply in_map_iff in X as (y & Y1 & Y2).
    exact (lookup_none _ _ _ L Y2 Y1).
Qed.

Lemma fresh_poll T now c k q : NoDup (map e_key q) -> now < T -> fresh T k q -> fresh T k (poll_expired now c q).
Proof.
  intros N Hn (e & He & Hk & Hd). destruct (poll_cases now c q) as [->|(e0 & He0 & Hd0 & ->)]; [exists e; auto|].
  exists e. split; [|auto]. apply in_remove. split; [assumption|]. intros X.
  assert (e0 = e).
  { assert (lookup (e_key e0) q = Some e0) by (apply lookup_in; auto).
    assert (lookup (e_key e0) q = Some e) by (apply lookup_in; auto). congruence. }
  subst e0. lia.
Qed.

Lemma fresh_add T now c k k' peer q :
  NoDup (map e_key q) -> now < T -> T <= now + offer_queue_timeout ->
  fresh T k q -> fresh T k (fst (add_key_to_queue now c k' peer q)).
Proof.
  intros N Hn Hn2 F. apply (fresh_poll T now c) in F; [|assumption..]. unfold add_key_to_queue.
  destruct F as (e & He & Hk & Hd). destruct (lookup k' (poll_expired now c q)) as [e0|] eqn:L; cbn [fst].
  - destruct (bytes_eq_dec k k') as [->|Hne].
    + eexists. split; [left; reflexivity|]. cbn. split; [reflexivity|lia].
    + exists e. split; [|auto]. right. apply in_remove. split; [assumption|congruence].
  - exists e. split; [right; assumption|auto].
Qed.

Lemma add_fresh T now c k peer q : T <= now + offer_queue_timeout -> fresh T k (fst (add_key_to_queue now c k peer q)).
Proof.
  intros H. unfold add_key_to_queue. destruct (lookup k _) as [e0|] eqn:L; cbn [fst];
    (eexists; split; [left; reflexivity|]; cbn; split; [reflexivity|lia]).
Qed.

Lemma add_refused_fresh T now c k peer q :
  NoDup (map e_key q) -> now < T -> fresh T k q -> snd (add_key_to_queue now c k peer q) = false.
Proof.
  intros N Hn F. apply (fresh_poll T now c) in F; [|assumption..]. destruct F as (e & He & Hk & _).
  unfold add_key_to_queue. destruct (lookup k (poll_expired now c q)) as [e0|] eqn:L; [reflexivity|].
  exfalso. exact (lookup_none _ _ _ L He Hk).
Qed.

Lemma oc_accepted clock peer t0 kds :
  (forall m, t0 <= fst (clock m) < t0 + 120000) ->
  forall i q q' codes acc,
  NoDup (map e_key q) ->
  offer_codes clock i peer kds q = (q', codes, acc) ->
  forall j k d, nth_error kds j = Some (k, d) -> nth_error codes j = Some Accepted ->
    d = Store /\ ~ fresh (t0 + 120000) k q /\
    (forall j' d', (j' < j)%nat -> nth_error kds j' = Some (k, d') -> nth_error codes j' <> Some Accepted).
Proof.
  intros Hc. induction kds as [|[k0 d0] kds IH]; intros i q q' codes acc N H j k d Hj Ha; cbn in H.
  - destruct j; discriminate.
  - assert (Hci := Hc i).
    assert (Hci2 : t0 + 120000 <= fst (clock i) + offer_queue_timeout) by (unfold offer_queue_timeout; lia).
    destruct d0.
    + pose proof (nodup_add (fst (clock i)) (snd (clock i)) k0 peer q N) as N1.
      pose proof (fun k F => fresh_add (t0 + 120000) (fst (clock i)) (snd (clock i)) k k0 peer q N
        (proj2 Hci) Hci2 F) as F1.
      pose proof (add_fresh (t0 + 120000) (fst (clock i)) (snd (clock i)) k0 peer q Hci2) as F2.
      pose proof (add_refused_fresh (t0 + 120000) (fst (clock i)) (snd (clock i)) k0 peer q N (proj2 Hci)) as F3.
      destruct (add_key_to_queue _ _ k0 peer q) as [q1 ok]. cbn [fst snd] in *.
      destruct (offer_codes clock (S i) peer kds q1) as [[q2 cs] ac] eqn:E.
      assert (Hcodes : codes = (if ok then Accepted else InboundTransferInProgress) :: cs) by (destruct ok; congruence).
      subst codes. destruct j as [|j].
      * cbn in Hj, Ha. injection Hj as Hj1 Hj2. subst k d. destruct ok; [|discriminate]. split; [reflexivity|]. split.
        -- intros F. specialize (F3 F). discriminate.
        -- intros j' d' Hlt. lia.
      * cbn in Hj, Ha. destruct (IH _ _ _ _ _ N1 E j k d Hj Ha) as (A & B & C).
        split; [assumption|]. split; [intros F; apply B, F1, F|].
        intros [|j'] d' Hlt Hn; cbn in *.
        -- injection Hn as Hn1 Hn2. subst k0. exfalso. apply B. exact F2.
        -- apply (C j' d'); [lia|assumption].
    + destruct (offer_codes clock (S i) peer kds q) as [[q2 cs] ac] eqn:E. injection H as <- <- <-.
      destruct j as [|j]; cbn in Hj, Ha; [discriminate|]. destruct (IH _ _ _ _ _ N E j k d Hj Ha) as (A & B & C).
      split; [assumption|]. split; [assumption|]. intros [|j'] d' Hlt Hn; cbn in *; [discriminate|]. apply (C j' d'); [lia|assumption].
    + destruct (offer_codes clock (S i) peer kds q) as [[q2 cs] ac] eqn:E. injection H as <- <- <-.
      destruct j as [|j]; cbn in Hj, Ha; [discriminate|]. destruct (IH _ _ _ _ _ N E j k d Hj Ha) as (A & B & C).
      split; [assumption|]. split; [assumption|]. intros [|j'] d' Hlt Hn; cbn in *; [discriminate|]. apply (C j' d'); [lia|assumption].
Qed.

Definition absent (k : bytes) (q : queue) : Prop := forall e, In e q -> e_key e <> k.

Lemma absent_poll now c k q : absent k q -> absent k (poll_expired now c q).
Proof.
  intros A e He. apply A. destruct (poll_cases now c q) as [E|(e0 & _ & _ & E)]; rewrite E in He; [assumption|].
  apply in_remove in He. tauto.
Qed.

Lemma absent_add now c k k' peer q : k <> k' -> absent k q -> absent k (fst (add_key_to_queue now c k' peer q)).
Proof.
  intros Hne A. apply (absent_poll now c) in A. unfold add_key_to_queue.
  destruct (lookup k' _) as [e0|] eqn:L; cbn [fst]; intros e [<-|He]; cbn; try congruence; auto.
  apply in_remove in He. apply A. tauto.
Qed.

Lemma absent_accepted now c k peer q : absent k q -> snd (add_key_to_queue now c k peer q) = true.
Proof.
  intros A. apply (absent_poll now c) in A. unfold add_key_to_queue.
  destruct (lookup k _) as [e0|] eqn:L; [|reflexivity]. apply lookup_some in L as [L1 L2]. exfalso. exact (A _ L1 L2).
Qed.

Lemma oc_first clock peer kds : forall i q q' codes acc,
  offer_codes clock i peer kds q = (q', codes, acc) ->
  forall j k, nth_error kds j = Some (k, Store) -> absent k q ->
    (forall j', (j' < j)%nat -> nth_error (map fst kds) j' <> Some k) ->
    nth_error codes j = Some Accepted.
Proof.
  induction kds as [|[k0 d0] kds IH]; intros i q q' codes acc H j k Hj A Hf; cbn in H.
  - destruct j; discriminate.
  - destruct j as [|j]; cbn in Hj.
    + injection Hj as Hj1 Hj2. subst k0 d0. pose proof (absent_accepted (fst (clock i)) (snd (clock i)) k peer q A) as R.
      destruct (add_key_to_queue _ _ k peer q) as [q1 ok]. cbn in R. subst ok.
      destruct (offer_codes clock (S i) peer kds q1) as [[q2 cs] ac]. injection H as <- <- <-. reflexivity.
    + assert (Hne : k <> k0) by (intros ->; apply (Hf 0%nat); [lia|reflexivity]).
      assert (Hf' : forall j', (j' < j)%nat -> nth_error (map fst kds) j' <> Some k) by (intros j' Hlt; apply (Hf (S j')); lia).
      destruct d0.
      * pose proof (absent_add (fst (clock i)) (snd (clock i)) k k0 peer q Hne A) as A1.
        destruct (add_key_to_queue _ _ k0 peer q) as [q1 ok]. cbn [fst] in A1.
        destruct (offer_codes clock (S i) peer kds q1) as [[q2 cs] ac] eqn:E.
        assert (Hcodes : codes = (if ok then Accepted else InboundTransferInProgress) :: cs) by (destruct ok; congruence).
        subst codes. cbn. eapply IH; eassumption.
      * destruct (offer_codes clock (S i) peer kds q) as [[q2 cs] ac] eqn:E. injection H as <- <- <-. cbn. eapply IH; eassumption.
      * destruct (offer_codes clock (S i) peer kds q) as [[q2 cs] ac] eqn:E. injection H as <- <- <-. cbn. eapply IH; eassumption.
Qed.

Lemma accept_new_ok v id codes tr : (length codes <= 64)%nat ->
  exists raw, accept_list_encode v codes = Ok raw /\ accept_new v id codes tr = Ok (mk_reply id raw tr).
Proof.
  intros H. destruct (accept_codes_wire v codes H) as (raw & l' & E & _). exists raw. split; [assumption|].
  unfold accept_new. rewrite E. reflexivity.
Qed.

(** Everything [handle_offer] returns in one statement. *)
Lemma handle_offer_inv parse should peer v clock r offered q q' reply :
  handle_offer parse should (Some (peer, Version v)) true clock r offered q = (q', Ok reply) ->
  exists keys ds codes,
    (length offered <= 64)%nat /\
    map_option parse offered = Some keys /\ map_outcome should keys = Ok ds /\
    length keys = length offered /\ length ds = length keys /\
    offer_codes clock 0 peer (combine keys ds) q = (q', codes, select_accepted codes keys) /\
    length codes = length offered /\ accept_list_encode v codes = Ok (r_codes reply) /\
    ((all_declined codes = true /\ r_connection_id reply = 0 /\ r_transfer reply = None) \/
     (all_declined codes = false /\ r_connection_id reply = swap16 (c_send (cid_acceptor r)) /\
      r_transfer reply = Some (cid_acceptor r, select_accepted codes keys))).
Proof.
  unfold handle_offer, accept_list_new. destruct (Nat.ltb_spec 64 (length offered)) as [?|Hl]; [discriminate|].
  cbn [negb]. destruct (map_option parse offered) as [keys|] eqn:K; [|discriminate].
  destruct (map_outcome should keys) as [ds| |] eqn:D; try discriminate.
  destruct (offer_codes clock 0 peer (combine keys ds) q) as [[q2 codes] acc] eqn:O.
  destruct (map_option_spec _ _ _ K) as [Lk _]. destruct (map_outcome_spec _ _ _ D) as [Ld _].
  destruct (oc_shape _ _ _ _ _ _ _ _ O) as (Lc & Ha & _).
  assert (Hfst : map fst (combine keys ds) = keys).
  { clear - Ld. revert ds Ld. induction keys as [|k keys IH]; intros [|d ds] L; cbn in *; try congruence; try lia.
    rewrite IH by lia. reflexivity. }
  rewrite Hfst in Ha. rewrite combine_length, Ld, Nat.min_id, Lk in Lc.
  destruct (all_declined codes) eqn:A; intros H; pose proof (f_equal fst H) as Hq; apply (f_equal snd) in H; cbn [fst snd] in Hq, H; subst q2.
  - destruct (accept_new_ok v 0 codes None) as (raw & E & E'); [lia|]. rewrite E' in H. injection H as <-.
    exists keys, ds, codes. cbn. subst acc. repeat split; auto; try lia.
  - destruct (accept_new_ok v (swap16 (c_send (cid_acceptor r))) codes (Some (cid_acceptor r, acc))) as (raw & E & E'); [lia|].
    rewrite E' in H. injection H as <-. exists keys, ds, codes. subst acc. cbn. repeat split; auto; try lia.
Qed.

Lemma offer_reply_faithful parse should peer v clock t0 r offered q q' reply :
  NoDup (map e_key q) -> (forall m, t0 <= fst (clock m) < t0 + 120000) ->
  handle_offer parse should (Some (peer, Version v)) true clock r offered q = (q', Ok reply) ->
  exists codes, accept_list_encode v codes = Ok (r_codes reply) /\ length codes = length offered /\
  (forall i raw, nth_error offered i = Some raw ->
     exists k d c, parse raw = Some k /\ should k = Ok d /\ nth_error codes i = Some c /\
       (c = NotWithinRadius <-> d = DNotWithinRadius) /\ (c = AlreadyStored <-> d = DAlreadyStored) /\
       (c = Accepted \/ c = InboundTransferInProgress <-> d = Store) /\
       (c = Accepted ->
          (forall e, In e q -> e_key e = k -> e_deadline e < t0 + 120000) /\
          (forall j raw', (j < i)%nat -> nth_error offered j = Some raw' -> parse raw' = Some k ->
             nth_error codes j <> Some Accepted)) /\
       (d = Store -> (forall e, In e q -> e_key e <> k) ->
          (forall j raw', (j < i)%nat -> nth_error offered j = Some raw' -> parse raw' <> Some k) ->
          c = Accepted)) /\
  (In Accepted codes <-> r_transfer reply <> None) /\
  (r_transfer reply = None -> r_connection_id reply = 0).
Proof.
  intros N Hc H. apply handle_offer_inv in H as (keys & ds & codes & L64 & K & D & Lk & Ld & O & Lc & E & T).
  exists codes. split; [assumption|]. split; [assumption|]. split; [|split].
  - intros i raw Hi. destruct (map_option_spec _ _ _ K) as [_ K']. destruct (map_outcome_spec _ _ _ D) as [_ D'].
    destruct (K' i raw Hi) as (k & Pk & Nk). destruct (D' i k Nk) as (d & Sd & Nd).
    assert (Nkd : nth_error (combine keys ds) i = Some (k, d)).
    { clear - Nk Nd. revert i ds Nk Nd. induction keys as [|x keys IH]; intros i ds Nk Nd; [destruct i; discriminate|].
      destruct ds as [|y ds]; [destruct i; discriminate|]. destruct i; cbn in *; [congruence|auto]. }
    destruct (oc_shape _ _ _ _ _ _ _ _ O) as (_ & _ & Sh). destruct (Sh i k d Nkd) as (c & Hc' & S1 & S2 & S3).
    exists k, d, c. repeat (split; [assumption|]).
    assert (Ncomb : forall j raw', nth_error offered j = Some raw' -> parse raw' = Some k ->
              exists d', nth_error (combine keys ds) j = Some (k, d')).
    { intros j raw' Hj Pj. destruct (K' j raw' Hj) as (k' & Pk' & Nk'). rewrite Pj in Pk'. injection Pk' as <-.
      destruct (D' j k Nk') as (d' & _ & Nd'). exists d'. clear - Nk' Nd'.
      revert j ds Nk' Nd'. induction keys as [|x keys IH]; intros i ds Nk Nd; [destruct i; discriminate|].
      destruct ds as [|y ds]; [destruct i; discriminate|]. destruct i; cbn in *; [congruence|auto]. }
    split.
    + intros ->. destruct (oc_accepted clock peer t0 _ Hc _ _ _ _ _ N O i k d Nkd Hc') as (A & B & C).
      split.
      * intros e He Hk. destruct (N.lt_ge_cases (e_deadline e) (t0 + 120000)); [assumption|].
        exfalso. apply B. exists e. auto.
      * intros j raw' Hlt Hj Pj. destruct (Ncomb j raw' Hj Pj) as (d' & X). eapply C; eassumption.
    + intros -> Ha Hf. assert (X : nth_error codes i = Some Accepted); [|congruence].
      eapply (oc_first _ _ _ _ _ _ _ _ O i k Nkd); [exact Ha|].
      intros j Hlt Hj. apply nth_error_split in Hj as (l1 & l2 & El & Elen).
      assert (Hfst : map fst (combine keys ds) = keys).
      { clear - Ld. revert ds Ld. induction keys as [|k keys IH]; intros [|d ds] L; cbn in *; try congruence; try lia.
        rewrite IH by lia. reflexivity. }
      rewrite Hfst in El.
      assert (Hjk : nth_error keys j = Some k).
      { rewrite El, nth_error_app2 by lia. rewrite Elen, Nat.sub_diag. reflexivity. }
      destruct (nth_error offered j) as [raw'|] eqn:Ho.
      * destruct (K' j raw' Ho) as (k' & Pk' & Nk'). apply (Hf j raw' Hlt Ho). congruence.
      * apply nth_error_None in Ho. assert (nth_error keys j = None) by (apply nth_error_None; lia). congruence.
  - pose proof (all_declined_spec codes) as AD.
    destruct T as [(A & _ & ->)|(A & _ & ->)].
    + apply AD in A. split; [contradiction|congruence].
    + split; [intros _; discriminate|]. intros _. destruct (in_dec code_dec Accepted codes) as [Hin|Hn]; [assumption|].
      apply AD in Hn. congruence.
  - destruct T as [(_ & A & _)|(_ & _ & ->)]; [intros _; assumption|discriminate].
Qed.

Lemma rate_limited_offer parse should peer v clock r offered q :
  (length offered <= 64)%nat ->
  exists raw, handle_offer parse should (Some (peer, Version v)) false clock r offered q
              = (q, Ok (mk_reply 0 raw None)) /\
              accept_list_encode v (repeat RateLimited (length offered)) = Ok raw.
Proof.
  intros H. unfold handle_offer, accept_list_new. destruct (Nat.ltb_spec 64 (length offered)) as [?|Hl]; [lia|].
  cbn [negb].
  assert (E : map (fun _ : accept_code => RateLimited) (repeat Declined (length offered)) = repeat RateLimited (length offered)).
  { clear. induction (length offered) as [|n IH]; cbn; [reflexivity|]. rewrite IH. reflexivity. }
  rewrite E. destruct (accept_new_ok v 0 (repeat RateLimited (length offered)) None) as (raw & A & B); [rewrite repeat_length; lia|].
  exists raw. rewrite B. auto.
Qed.

Lemma handle_offer_no_panic parse should source permit clock r offered q :
  (forall k, should k <> Panic) -> snd (handle_offer parse should source permit clock r offered q) <> Panic.
Proof.
  intros Hs. unfold handle_offer, accept_list_new. destruct (Nat.ltb_spec 64 (length offered)) as [?|Hl]; [discriminate|].
  destruct source as [[peer [v| |]]|]; try discriminate. destruct permit; cbn [negb].
  - destruct (map_option parse offered) as [keys|] eqn:K; [|discriminate].
    pose proof (map_outcome_no_panic should keys Hs) as NP.
    destruct (map_outcome should keys) as [ds| |] eqn:D; try discriminate; [|congruence].
    destruct (offer_codes clock 0 peer (combine keys ds) q) as [[q2 codes] acc] eqn:O.
    destruct (map_option_spec _ _ _ K) as [Lk _]. destruct (map_outcome_spec _ _ _ D) as [Ld _].
    destruct (oc_shape _ _ _ _ _ _ _ _ O) as (Lc & _ & _). rewrite combine_length, Ld, Nat.min_id in Lc.
    destruct (all_declined codes); cbn [snd].
    + destruct (accept_new_ok v 0 codes None) as (raw & _ & ->); [lia|discriminate].
    + destruct (accept_new_ok v (swap16 (c_send (cid_acceptor r))) codes (Some (cid_acceptor r, acc))) as (raw & _ & ->); [lia|discriminate].
  - cbn [snd]. destruct (accept_new_ok v 0 (map (fun _ => RateLimited) (repeat Declined (length offered))) None) as (raw & _ & ->);
      [rewrite map_length, repeat_length; lia|discriminate].
Qed.

(** ** The transfer *)

Lemma swap16_swap16 x : x < 65536 -> swap16 (swap16 x) = x.
Proof. intros H. unfold swap16. lia. Qed.

Lemma cids_match r : r < 65536 ->
  let a := cid_acceptor r in let b := cid_connector (swap16 (swap16 (c_send a))) in
  c_send b = c_recv a /\ c_recv b = c_send a.
Proof.
  intros H. cbn. rewrite swap16_swap16 by lia. split; lia.
Qed.

Lemma select_nonempty {A} codes (l : list A) : In Accepted codes -> length codes = length l -> select_accepted codes l <> [].
Proof.
  revert l. induction codes as [|c codes IH]; intros [|x l] Hin Hl; try discriminate; [destruct Hin|].
  destruct Hin as [->|Hin]; [discriminate|]. injection Hl as Hl. specialize (IH l Hin Hl). destruct c; cbn; congruence.
Qed.

Lemma decode_payload_items acc items bs :
  Forall (fun it => bytes_ok it /\ blen it <= u32_max) items -> length acc = length items ->
  encode_content_payload items = Ok bs -> decode_payload acc bs = Ok (combine acc items).
Proof.
  intros F L E. destruct (payload_round_trip items F) as (bs' & E' & _ & D). rewrite E in E'. injection E' as <-.
  unfold decode_payload. rewrite D. cbn. rewrite L, Nat.eqb_refl. reflexivity.
Qed.

Lemma sender_codes v codes raw : (length codes <= 64)%nat -> accept_list_encode v codes = Ok raw ->
  exists codes', accept_list_decode v raw = Ok codes' /\ length codes' = length codes /\
    (forall i, nth_error codes' i = Some Accepted <-> nth_error codes i = Some Accepted) /\
    (In Accepted codes' <-> In Accepted codes).
Proof.
  intros L E. destruct (accept_codes_wire v codes L) as (raw' & l' & E' & D & L' & N & _).
  rewrite E in E'. injection E' as <-. exists l'. repeat split; auto; try apply N.
  - intros H. apply In_nth_error in H as (i & H). apply N in H. eapply nth_error_In; eassumption.
  - intros H. apply In_nth_error in H as (i & H). apply N in H. eapply nth_error_In; eassumption.
Qed.

Lemma populated_offer_delivers parse should get peer v clock r items q q' reply :
  Forall (fun it => bytes_ok (snd it) /\ blen (snd it) <= u32_max) items -> r < 65536 ->
  handle_offer parse should (Some (peer, Version v)) true clock r (map fst items) q = (q', Ok reply) ->
  match r_transfer reply with
  | None => process_accept parse get v (PopulatedOffer items) (r_connection_id reply) (r_codes reply) = Ok None
  | Some (cid, acc) =>
      exists cid' payload pairs keys codes,
        process_accept parse get v (PopulatedOffer items) (r_connection_id reply) (r_codes reply) = Ok (Some (cid', payload)) /\
        c_send cid' = c_recv cid /\ c_recv cid' = c_send cid /\
        decode_payload acc payload = Ok pairs /\
        map_option parse (map fst items) = Some keys /\ accept_list_encode v codes = Ok (r_codes reply) /\
        pairs = select_accepted codes (combine keys (map snd items)) /\ pairs <> [] /\
        (forall k x, In (k, x) pairs -> exists raw, In (raw, x) items /\ parse raw = Some k)
  end.
Proof.
  intros F Hr H. apply handle_offer_inv in H as (keys & ds & codes & L64 & K & D & Lk & Ld & O & Lc & E & T).
  rewrite map_length in *.
  destruct (sender_codes v codes (r_codes reply)) as (codes' & Dc & Lc' & Na & Ia); [lia|assumption|].
  unfold process_accept. rewrite Dc. cbn [obind].
  destruct T as [(A & Hid & ->)|(A & Hid & ->)].
  - assert (X : all_declined codes' = true).
    { apply all_declined_spec. rewrite Ia. apply all_declined_spec. assumption. }
    rewrite X. reflexivity.
  - assert (X : all_declined codes' = false).
    { destruct (all_declined codes') eqn:Y; [|reflexivity]. apply all_declined_spec in Y. rewrite Ia in Y.
      apply all_declined_spec in Y. congruence. }
    rewrite X. rewrite accepted_items_select, select_map, (select_ext codes' codes) by assumption.
    assert (F' : Forall (fun it => bytes_ok it /\ blen it <= u32_max) (select_accepted codes (map snd items))).
    { apply Forall_forall. intros x Hx. apply select_in in Hx. apply in_map_iff in Hx as (it & <- & Hit).
      rewrite Forall_forall in F. apply F, Hit. }
    destruct (payload_round_trip _ F') as (bs & Ebs & _ & _). cbn [obind]. rewrite Ebs. cbn [obind].
    destruct (cids_match r Hr) as [C1 C2].
    exists (cid_connector (swap16 (r_connection_id reply))), bs,
      (select_accepted codes (combine keys (map snd items))), keys, codes.
    split; [reflexivity|]. rewrite Hid. split; [exact C1|]. split; [exact C2|]. split.
    + rewrite <- select_combine by (rewrite map_length; lia). apply decode_payload_items; [assumption| |assumption].
      apply select_length. rewrite map_length. assumption.
    + split; [assumption|]. split; [assumption|]. split; [reflexivity|]. split.
      * apply select_nonempty.
        -- destruct (in_dec code_dec Accepted codes) as [Hin|Hn]; [assumption|].
           apply all_declined_spec in Hn. congruence.
        -- rewrite combine_length, map_length. lia.
      * intros k x Hin. apply select_in in Hin. eapply map_option_in; [exact K|reflexivity|exact Hin].
Qed.

Lemma provide_select get codes : forall keys vals, length codes = length keys ->
  provide get (combine codes keys) = Ok vals ->
  map (fun k => get k) (select_accepted codes keys) = map (fun v => Ok (Some v)) vals.
Proof.
  induction codes as [|c codes IH]; intros [|k keys] vals L H; try discriminate.
  - cbn in *. injection H as <-. reflexivity.
  - injection L as L. cbn [combine provide] in H. destruct (code_eqb c Accepted) eqn:E.
    + apply code_eqb_accepted in E. subst c. destruct (get k) as [[v|]| |] eqn:G; try discriminate.
      destruct (provide get (combine codes keys)) as [vs| |] eqn:P; try discriminate. cbn in H. injection H as <-.
      cbn. rewrite G. f_equal. apply IH; assumption.
    + specialize (IH keys vals L H). destruct c; cbn; try exact IH. vm_compute in E. discriminate.
Qed.

Lemma stored_offer_delivers parse should get peer v clock r offered q q' reply cid acc cid' payload :
  r < 65536 -> (forall k x, get k = Ok (Some x) -> bytes_ok x /\ blen x <= u32_max) ->
  handle_offer parse should (Some (peer, Version v)) true clock r offered q = (q', Ok reply) ->
  r_transfer reply = Some (cid, acc) ->
  process_accept parse get v (StoredOffer offered) (r_connection_id reply) (r_codes reply) = Ok (Some (cid', payload)) ->
  c_send cid' = c_recv cid /\ c_recv cid' = c_send cid /\
  exists pairs, decode_payload acc payload = Ok pairs /\ map fst pairs = acc /\
    (forall k x, In (k, x) pairs -> get k = Ok (Some x)).
Proof.
  intros Hr Hg H Htr Hp. apply handle_offer_inv in H as (keys & ds & codes & L64 & K & D & Lk & Ld & O & Lc & E & T).
  destruct (sender_codes v codes (r_codes reply)) as (codes' & Dc & Lc' & Na & Ia); [lia|assumption|].
  destruct T as [(A & Hid & X)|(A & Hid & X)]; rewrite Htr in X; [discriminate|]. injection X as -> ->.
  unfold process_accept in Hp. rewrite Dc in Hp. cbn [obind] in Hp.
  destruct (all_declined codes'); [discriminate|]. unfold provide_requested_content in Hp. rewrite K in Hp.
  destruct (provide get (combine codes' keys)) as [vals| |] eqn:P; try discriminate. cbn [obind] in Hp.
  destruct (encode_content_payload vals) as [bs| |] eqn:Eb; try discriminate. cbn in Hp. injection Hp as <- <-.
  destruct (cids_match r Hr) as [C1 C2]. rewrite Hid. split; [exact C1|]. split; [exact C2|].
  apply provide_select in P; [|lia]. rewrite (select_ext codes' codes) in P by assumption.
  assert (Lv : length (select_accepted codes keys) = length vals).
  { apply (f_equal (@length _)) in P. rewrite !map_length in P. assumption. }
  assert (Hin : forall k x, In (k, x) (combine (select_accepted codes keys) vals) -> get k = Ok (Some x)).
  { clear - P Lv. revert vals P Lv. induction (select_accepted codes keys) as [|a l IH]; intros [|b vals] P Lv k x Hin; cbn in *; try (destruct Hin; fail); try discriminate.
    injection P as P1 P2. destruct Hin as [[= <- <-]|Hin]; [assumption|]. eapply (IH vals); eauto. }
  exists (combine (select_accepted codes keys) vals). split; [|split; [|exact Hin]].
  - apply decode_payload_items; [|assumption..]. apply Forall_forall. intros x Hx.
    apply In_nth_error in Hx as (i & Hx).
    assert (exists k, nth_error (select_accepted codes keys) i = Some k) as (k & Hk).
    { destruct (nth_error (select_accepted codes keys) i) eqn:Y; [eauto|]. apply nth_error_None in Y.
      assert (i < length vals)%nat by (apply nth_error_Some; congruence). lia. }
    apply (Hg k). apply Hin. apply (nth_error_In _ i).
    clear - Hk Hx. revert i vals Hk Hx. induction (select_accepted codes keys) as [|a l IH]; intros i vals Hk Hx; [destruct i; discriminate|].
    destruct vals as [|b vals]; [destruct i; discriminate|]. destruct i; cbn in *; [congruence|auto].
  - clear - Lv. revert vals Lv. induction (select_accepted codes keys) as [|a l IH]; intros [|b vals] Lv; cbn in *; try congruence; try lia.
    rewrite IH by lia. reflexivity.
Qed.

(** A value found in the store reaches the asking peer. *)
Lemma found_content_delivered get v r key content :
  get key = Ok (Some content) -> bytes_ok content -> blen content <= u32_max -> r < 65536 ->
  (exists reply, handle_find_content get true (Some (Version v)) r key = Ok reply /\
     match reply with
     | ReplyContent x => x = content /\ blen content <= 1165
     | ReplyConnection id cid payload =>
         1165 < blen content /\ receive_found_content v payload = Ok content /\
         c_send (cid_connector (swap16 id)) = c_recv cid /\ c_recv (cid_connector (swap16 id)) = c_send cid
     | ReplyEnrs => False
     end).
Proof.
  intros G B L Hr. unfold handle_find_content. rewrite G. unfold max_content_payload.
  destruct (N.leb_spec (blen content) 1165).
  - eexists. split; [reflexivity|]. cbn. auto.
  - unfold receive_found_content. destruct (cids_match r Hr) as [C1 C2].
    destruct (is_v1_enabled v) eqn:V.
    + destruct (payload_single_round_trip content B L) as (bs & E & D). rewrite E. cbn [obind].
      eexists. split; [reflexivity|]. split; [assumption|]. split; [assumption|]. split; [exact C1|exact C2].
    + cbn [obind]. eexists. split; [reflexivity|]. split; [assumption|]. split; [reflexivity|]. split; [exact C1|exact C2].
Qed.
