From Verif Require Import Base Payload_Model OfferAccept_Model Receive_Model Receive_Spec.

Section P.
Context {S : Type} (ops : store_ops S) (validate : bytes -> bytes -> validation) (gd dp : bool).
Hypothesis sane : sane_store ops.
Notation canon := (all_canonical ops validate).

Lemma canonical_spec k v : is_canonically_valid (validate k v) = true <-> validate k v = CanonicallyValid.
Proof. destruct (validate k v); cbn; split; congruence. Qed.

Lemma put_canon s k v s' r : canon s -> validate k v = CanonicallyValid -> s_put ops s k v = (s', r) -> canon s'.
Proof.
  intros C V P k' v' G. destruct (sane_put_get ops sane _ _ _ _ _ _ _ P G) as [H|[-> ->]]; auto.
Qed.

Lemma drop_canon s k v s' d : canon s -> validate k v = CanonicallyValid -> s_put ops s k v = (s', Ok d) ->
  forall k' v', In (k', v') ((k, v) :: (if gd then d else [])) -> validate k' v' = CanonicallyValid.
Proof.
  intros C V P k' v' [[= <- <-]|H]; [assumption|]. destruct gd; [|destruct H].
  destruct (sane_put_drop ops sane _ _ _ _ _ _ _ P H) as [G|[-> ->]]; auto.
Qed.

Lemma store_content_ok s k v s' e p :
  canon s -> validate k v = CanonicallyValid -> store_content ops gd s k v = (s', e, p) ->
  canon s' /\ Forall (effect_ok validate) e /\ (forall k' v', In (k', v') p -> validate k' v' = CanonicallyValid).
Proof.
  intros C V H. unfold store_content in H.
  destruct (s_should ops s k) as [[| |]| |] eqn:Sh;
    try (injection H as <- <- <-; split; [assumption|]; split; [constructor|];
         intros k' v' [[= <- <-]|[]]; assumption).
  destruct (s_put ops s k v) as [s1 r] eqn:P. pose proof (put_canon _ _ _ _ _ C V P) as C1.
  destruct r as [d| |]; injection H as <- <- <-; (split; [assumption|]); (split; [repeat constructor; assumption|]).
  - apply (drop_canon _ _ _ _ _ C V P).
  - intros k' v' [[= <- <-]|[]]; assumption.
  - intros k' v' [[= <- <-]|[]]; assumption.
Qed.

Lemma store_all_ok items : forall s s' e p f,
  canon s -> store_all ops validate gd s items = (s', e, p, f) ->
  canon s' /\ Forall (effect_ok validate) e /\ (forall k v, In (k, v) p -> validate k v = CanonicallyValid).
Proof.
  induction items as [|[k v] items IH]; intros s s' e p f C H; cbn in H.
  - injection H as <- <- <- <-. split; [assumption|]. split; [constructor|intros ? ? []].
  - destruct (is_canonically_valid (validate k v)) eqn:V.
    + apply canonical_spec in V.
      destruct (store_content ops gd s k v) as [[s1 e1] p1] eqn:E1.
      destruct (store_content_ok _ _ _ _ _ _ C V E1) as (C1 & F1 & P1).
      destruct (store_all ops validate gd s1 items) as [[[s2 e2] p2] f2] eqn:E2.
      destruct (IH _ _ _ _ _ C1 E2) as (C2 & F2 & P2). injection H as <- <- <- <-.
      split; [assumption|]. split; [constructor; [exact I|apply Forall_app; auto]|].
      intros k' v' Hin. apply in_app_or in Hin as [?|?]; auto.
    + destruct (store_all ops validate gd s items) as [[[s2 e2] p2] f2] eqn:E2.
      destruct (IH _ _ _ _ _ C E2) as (C2 & F2 & P2). injection H as <- <- <- <-. auto.
Qed.

Lemma fallback_ok l : Forall (effect_ok validate) (map EFallback l).
Proof. apply Forall_forall. intros x Hx. apply in_map_iff in Hx as (k & <- & _). exact I. Qed.

(** The part of [receive_lookup] for content that is not in the store. *)
Lemma receive_new_ok s k v s' e :
  canon s ->
  (let r := validate k v in
   if negb (is_valid r) then (s, [EReply k None])
   else
     let '(s', effs) :=
       if is_canonically_valid r && match s_should ops s k with Ok Store => true | _ => false end then
         let (s', pr) := s_put ops s k v in
         match pr with
         | Ok dropped => (s', [EPut k v; EPropagate ((k, v) :: (if gd then dropped else []))])
         | _ => (s', [EPut k v])
         end
       else (s, []) in
     (s', effs ++ EReply k (Some v) :: (if dp then [] else [EPoke k v]))) = (s', e) ->
  canon s' /\ Forall (effect_ok validate) e.
Proof.
  intros C H. cbn zeta in H. destruct (is_valid (validate k v)) eqn:V; cbn [negb] in H.
  - assert (F : Forall (effect_ok validate) (EReply k (Some v) :: (if dp then [] else [EPoke k v]))).
    { assert (validate k v <> Invalid) by (intros X; rewrite X in V; discriminate).
      constructor; [assumption|]. destruct dp; repeat constructor; assumption. }
    destruct (is_canonically_valid (validate k v)) eqn:Cv; cbn [andb] in H.
    + apply canonical_spec in Cv. destruct (s_should ops s k) as [[| |]| |];
        try (injection H as <- <-; split; assumption).
      destruct (s_put ops s k v) as [s1 r] eqn:P. pose proof (put_canon _ _ _ _ _ C Cv P) as C1.
      destruct r as [d| |]; injection H as <- <-; (split; [assumption|]).
      * constructor; [exact Cv|]. constructor; [|assumption]. exact (drop_canon _ _ _ _ _ C Cv P).
      * constructor; [exact Cv|assumption].
      * constructor; [exact Cv|assumption].
    + injection H as <- <-. split; assumption.
  - injection H as <- <-. split; [assumption|]. repeat constructor.
Qed.
Lemma receive_ok s a s' e :
  canon s -> receive ops validate gd dp s a = (s', e) -> canon s' /\ Forall (effect_ok validate) e.
Proof.
  intros C H. destruct a as [acc [d|]|k [v|]|k v]; cbn [receive] in H.
  - unfold receive_offer in H. destruct (decode_payload acc d) as [items| |] eqn:D.
    + destruct (store_all ops validate gd s items) as [[[s2 e2] p2] f2] eqn:E2.
      destruct (store_all_ok _ _ _ _ _ _ C E2) as (C2 & F2 & P2). injection H as <- <-.
      split; [assumption|]. apply Forall_app. split; [assumption|]. apply Forall_app. split; [apply fallback_ok|].
      repeat constructor. exact P2.
    + injection H as <- <-. split; [assumption|apply fallback_ok].
    + injection H as <- <-. split; [assumption|apply fallback_ok].
  - cbn in H. injection H as <- <-. split; [assumption|apply fallback_ok].
  - cbn in H. destruct (is_canonically_valid (validate k v)) eqn:V.
    + apply canonical_spec in V. destruct (store_content ops gd s k v) as [[s1 e1] p1] eqn:E1.
      destruct (store_content_ok _ _ _ _ _ _ C V E1) as (C1 & F1 & P1). injection H as <- <-.
      split; [assumption|]. apply Forall_app. split; [assumption|]. repeat constructor. exact P1.
    + injection H as <- <-. split; [assumption|constructor].
  - cbn in H. injection H as <- <-. split; [assumption|constructor].
  - unfold receive_lookup in H. destruct (s_get ops s k) as [[local|]| |] eqn:G.
    + injection H as <- <-. split; [assumption|].
      assert (validate k local <> Invalid) by (rewrite (C _ _ G); discriminate).
      constructor; [assumption|]. destruct dp; repeat constructor; assumption.
    + apply (receive_new_ok s k v); assumption.
    + apply (receive_new_ok s k v); assumption.
    + apply (receive_new_ok s k v); assumption.
Qed.

Lemma receive_all_ok l : forall s s' e,
  canon s -> receive_all ops validate gd dp s l = (s', e) -> canon s' /\ Forall (effect_ok validate) e.
Proof.
  induction l as [|a l IH]; intros s s' e C H; cbn in H.
  - injection H as <- <-. split; [assumption|constructor].
  - destruct (receive ops validate gd dp s a) as [s1 e1] eqn:R.
    destruct (receive_ok _ _ _ _ C R) as (C1 & F1).
    destruct (receive_all ops validate gd dp s1 l) as [s2 e2] eqn:R2.
    destruct (IH _ _ _ C1 R2) as (C2 & F2). injection H as <- <-. split; [assumption|]. apply Forall_app. auto.
Qed.

End P.

(** * Accepted keys are accounted for *)
Lemma decode_payload_keys acc d items : decode_payload acc d = Ok items -> map fst items = acc.
Proof.
  unfold decode_payload. destruct (decode_content_payload d) as [vs| |]; try discriminate. cbn.
  destruct (Nat.eqb _ _) eqn:L; [|discriminate]. intros [= <-].
  apply Nat.eqb_eq in L. clear d. revert vs L. induction acc as [|k acc IH]; intros [|v vs] L; try discriminate; [reflexivity|].
  cbn. f_equal. apply IH. cbn in L. injection L. auto.
Qed.

Section Q.
Context {S : Type} (ops : store_ops S) (validate : bytes -> bytes -> validation) (gd dp : bool).

Lemma store_content_prop s k v : In (k, v) (snd (store_content ops gd s k v)).
Proof.
  unfold store_content. destruct (s_should ops s k) as [[| |]| |]; cbn; auto.
  destruct (s_put ops s k v) as [s1 [d| |]]; cbn; auto.
Qed.

Lemma store_all_cases items : forall s s' e p f k v,
  store_all ops validate gd s items = (s', e, p, f) -> In (k, v) items ->
  if is_canonically_valid (validate k v) then
    In (ERemoveKey k) e /\ In (k, v) p /\
    (In (EPut k v) e \/ exists earlier, s_should ops (after_puts ops s earlier) k <> Ok Store)
  else In k f.
Proof.
  induction items as [|[k0 v0] items IH]; intros s s' e p f k v H Hin; [destruct Hin|].
  cbn in H. destruct (is_canonically_valid (validate k0 v0)) eqn:V0.
  - destruct (store_content ops gd s k0 v0) as [[s1 e1] p1] eqn:E1.
    destruct (store_all ops validate gd s1 items) as [[[s2 e2] p2] f2] eqn:E2. injection H as <- <- <- <-.
    assert (Hs1 : s1 = s \/ exists l, s1 = after_puts ops s l).
    { unfold store_content in E1. destruct (s_should ops s k0) as [[| |]| |];
        try (injection E1 as <- _ _; left; reflexivity).
      destruct (s_put ops s k0 v0) as [s3 r] eqn:P. right. exists [(k0, v0)]. cbn. rewrite P.
      destruct r; injection E1 as <- _ _; reflexivity. }
    destruct Hin as [[= -> ->]|Hin].
    + rewrite V0. split; [left; reflexivity|]. split.
      { apply in_or_app. left. pose proof (store_content_prop s k v) as G. rewrite E1 in G. exact G. }
      unfold store_content in E1. destruct (s_should ops s k) as [[| |]| |] eqn:Sh;
        try (right; exists []; cbn; rewrite Sh; discriminate).
      left. destruct (s_put ops s k v) as [s3 [d| |]]; injection E1 as _ <- _; cbn; auto.
    + specialize (IH _ _ _ _ _ _ _ E2 Hin). destruct (is_canonically_valid (validate k v)); [|assumption].
      destruct IH as (R & P & W). split; [right; apply in_or_app; right; assumption|].
      split; [apply in_or_app; right; assumption|].
      destruct W as [W|(l & W)]; [left; right; apply in_or_app; right; assumption|].
      right. destruct Hs1 as [->|(l0 & ->)]; [exists l; assumption|].
      exists (l0 ++ l). unfold after_puts in *. rewrite fold_left_app. assumption.
  - destruct (store_all ops validate gd s items) as [[[s2 e2] p2] f2] eqn:E2. injection H as <- <- <- <-.
    destruct Hin as [[= -> ->]|Hin]; [rewrite V0; left; reflexivity|].
    specialize (IH _ _ _ _ _ _ _ E2 Hin). destruct (is_canonically_valid (validate k v)); [assumption|].
    right. assumption.
Qed.

Lemma offer_keys_accounted s acc data k :
  In k acc ->
  let e := snd (receive_offer ops validate gd s acc data) in In (ERemoveKey k) e \/ In (EFallback k) e.
Proof.
  intros Hk. cbn zeta. unfold receive_offer. destruct data as [d|]; cbn [snd];
    [|right; apply in_map; assumption].
  destruct (decode_payload acc d) as [items| |] eqn:D; cbn [snd]; try (right; apply in_map; assumption).
  destruct (store_all ops validate gd s items) as [[[s2 e2] p2] f2] eqn:E2. cbn [snd].
  apply decode_payload_keys in D. rewrite <- D in Hk. apply in_map_iff in Hk as ([k' v] & <- & Hin). cbn [fst].
  pose proof (store_all_cases _ _ _ _ _ _ _ _ E2 Hin) as C.
  destruct (is_canonically_valid (validate k' v)).
  - left. apply in_or_app. left. apply C.
  - right. apply in_or_app. right. apply in_or_app. left. apply in_map. assumption.
Qed.

Lemma offer_canonical_used s acc d items k v :
  decode_payload acc d = Ok items -> In (k, v) items -> validate k v = CanonicallyValid ->
  let e := snd (receive_offer ops validate gd s acc (Some d)) in
  (exists p, In (EPropagate p) e /\ In (k, v) p) /\
  (In (EPut k v) e \/ exists earlier, s_should ops (after_puts ops s earlier) k <> Ok Store).
Proof.
  intros D Hin V. cbn zeta. unfold receive_offer. rewrite D.
  destruct (store_all ops validate gd s items) as [[[s2 e2] p2] f2] eqn:E2. cbn [snd].
  pose proof (store_all_cases _ _ _ _ _ _ _ _ E2 Hin) as C. rewrite V in C. cbn in C. destruct C as (R & P & W).
  split.
  - exists p2. split; [|assumption]. rewrite !in_app_iff. right. right. left. reflexivity.
  - destruct W as [W|W]; [left; apply in_or_app; left; assumption|right; assumption].
Qed.

Lemma fallback_canonical_used s k v :
  validate k v = CanonicallyValid ->
  let e := snd (receive_fallback ops validate gd s k (Some v)) in
  (exists p, In (EPropagate p) e /\ In (k, v) p) /\ (s_should ops s k = Ok Store -> In (EPut k v) e).
Proof.
  intros V. cbn zeta. cbn [receive_fallback]. unfold receive_fallback. rewrite V. cbn [is_canonically_valid].
  pose proof (store_content_prop s k v) as G.
  destruct (store_content ops gd s k v) as [[s1 e1] p1] eqn:E1. cbn in G |- *. split.
  - exists p1. split; [apply in_or_app; right; left; reflexivity|assumption].
  - intros Sh. unfold store_content in E1. rewrite Sh in E1. destruct (s_put ops s k v) as [s3 [dd| |]];
      injection E1 as _ <- _; left; reflexivity.
Qed.

Lemma lookup_reply s k v :
  let e := snd (receive_lookup ops validate gd dp s k v) in
  match s_get ops s k with
  | Ok (Some local) => In (EReply k (Some local)) e
  | _ => match validate k v with
         | Invalid => In (EReply k None) e
         | Valid => In (EReply k (Some v)) e
         | CanonicallyValid => In (EReply k (Some v)) e /\ (s_should ops s k = Ok Store -> In (EPut k v) e)
         end
  end.
Proof.
  cbn zeta. unfold receive_lookup. destruct (s_get ops s k) as [[local|]| |] eqn:G; [left; reflexivity| | |];
  (destruct (validate k v); cbn [is_valid is_canonically_valid negb andb];
   [|left; reflexivity|left; reflexivity];
   destruct (s_should ops s k) as [[| |]| |];
   try (split; [left; reflexivity|discriminate]);
   destruct (s_put ops s k v) as [s3 [dd| |]]; cbn; auto).
Qed.
End Q.
