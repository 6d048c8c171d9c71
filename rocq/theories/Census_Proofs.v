From Verif Require Import Base Wire_Model Ping_Model KBucket_Model AcceptCodes_Model Census_Model Census_Spec.

(** *** Maps *)
Lemma get_del {A} k j (m : list (N * A)) : get j (del k m) = if j =? k then None else get j m.
Proof.
  unfold get, del. destruct (N.eqb_spec j k) as [->|Q].
  - induction m as [|[i a] m IH]; [reflexivity|]. cbn [filter fst]. destruct (N.eqb_spec i k) as [->|D]; [exact IH|].
    cbn [negb find fst]. apply N.eqb_neq in D. rewrite D. exact IH.
  - induction m as [|[i a] m IH]; [reflexivity|]. cbn [filter fst]. destruct (N.eqb_spec i k) as [->|D]; cbn [negb find fst].
    + apply N.eqb_neq in Q. rewrite N.eqb_sym in Q. rewrite Q. exact IH.
    + destruct (i =? j); [reflexivity|exact IH].
Qed.
Lemma get_put {A} k j (a : A) m : get j (put k a m) = if j =? k then Some a else get j m.
Proof.
  unfold put. unfold get at 1. cbn [find fst]. rewrite N.eqb_sym. destruct (j =? k) eqn:E; [reflexivity|].
  pose proof (get_del k j m) as G. rewrite E in G. exact G.
Qed.
Lemma del_keys {A} k (m : list (N * A)) : map fst (del k m) = filter (fun i => negb (i =? k)) (map fst m).
Proof. unfold del. induction m as [|[i a] m IH]; [reflexivity|]. cbn [filter map fst]. destruct (negb (i =? k)); cbn [map fst]; congruence. Qed.
Lemma del_nodup {A} k (m : list (N * A)) : NoDup (map fst m) -> NoDup (map fst (del k m)).
Proof. intros. rewrite del_keys. now apply NoDup_filter. Qed.
Lemma put_nodup {A} k (a : A) m : NoDup (map fst m) -> NoDup (map fst (put k a m)).
Proof.
  intros. unfold put. cbn [map fst]. constructor; [|now apply del_nodup].
  rewrite del_keys, filter_In. intros [_ H']. rewrite N.eqb_refl in H'. discriminate.
Qed.
Lemma get_in {A} k (a : A) m : NoDup (map fst m) -> (get k m = Some a <-> In (k, a) m).
Proof.
  intros Nd. induction m as [|[i b] m IH]; [cbn; split; [discriminate|intros []]|].
  cbn [map fst] in Nd. inversion Nd as [|? ? H1 H2]; subst. unfold get. cbn [find fst]. destruct (N.eqb_spec i k) as [->|D].
  - cbn [option_map snd]. split; [intros [= ->]; left; reflexivity|]. intros [[= ->]|I]; [reflexivity|].
    exfalso. apply H1. apply in_map_iff. exists (k, a). auto.
  - rewrite (IH H2 : _ <-> _). split; [intros I; right; exact I|]. intros [[= -> _]|I]; [congruence|exact I].
Qed.
Lemma get_none {A} k (m : list (N * A)) : get k m = None <-> ~ In k (map fst m).
Proof.
  induction m as [|[i b] m IH]; [cbn; tauto|]. unfold get. cbn [find fst map]. destruct (N.eqb_spec i k) as [->|D].
  - cbn [option_map]. split; [discriminate|]. intros H. exfalso. apply H. left. reflexivity.
  - rewrite (IH : _ <-> _). cbn [In]. tauto.
Qed.

(** *** Peers *)
Lemma firstn_short {A} n (l : list A) : blen l <= N.of_nat n -> firstn n l = l.
Proof. intros. apply firstn_all2. unfold blen in *. lia. Qed.
Lemma blen_firstn {A} n (l : list A) : blen (firstn n l) <= N.of_nat n.
Proof. unfold blen. rewrite firstn_length. lia. Qed.
Definition sound_peer (id : N) (p : peer) : Prop :=
  enr_id (p_enr p) = id /\ blen (p_checks p) <= 10 /\ blen (p_offers p) <= 255 /\ is_obsolete p = false /\ p_checks p <> [].
Definition inv (st : census) : Prop :=
  NoDup (map fst (peers st)) /\ NoDup (map fst (checks st)) /\
  (forall id p, get id (peers st) = Some p -> sound_peer id p) /\
  (forall id t, get id (checks st) = Some t -> exists p b n l, get id (peers st) = Some p /\ p_checks p = (b, n) :: l /\ t = n + check_delay).

Definition passed_peer (p : peer) (now : N) (e : enr) client radius : peer :=
  purge {| p_enr := if enr_seq e <? enr_seq (p_enr p) then p_enr p else e;
           p_client := client; p_radius := radius; p_checks := (true, now) :: p_checks p; p_offers := p_offers p |}.
Definition peer_or_new (e : enr) (st : census) : peer := match get (enr_id e) (peers st) with Some p => p | None => new_peer e end.
Lemma record_passed_ok st now e c r : inv st ->
  record_passed st now e c r = Ok {| peers := put (enr_id e) (passed_peer (peer_or_new e st) now e c r) (peers st);
                                     checks := put (enr_id e) (now + check_delay) (checks st) |}.
Proof.
  intros (_ & _ & I & _). unfold record_passed, check_passed. fold (peer_or_new e st).
  assert (E : enr_id (p_enr (peer_or_new e st)) = enr_id e).
  { unfold peer_or_new. destruct (get (enr_id e) (peers st)) as [p|] eqn:G; [exact (proj1 (I _ _ G))|reflexivity]. }
  rewrite E, N.eqb_refl. reflexivity.
Qed.
Lemma passed_obsolete p now e c r : is_obsolete (passed_peer p now e c r) = false.
Proof. unfold is_obsolete, passed_peer, purge. cbn [p_checks]. destruct (_ <? _); [reflexivity|]. reflexivity. Qed.
Lemma obsolete_iff p : blen (p_checks p) <= 10 -> (is_obsolete p = true <-> map fst (p_checks p) = repeat false 10).
Proof.
  intros L. unfold is_obsolete, max_checks. split.
  - destruct (N.ltb_spec (blen (p_checks p)) 10) as [|G]; [discriminate|]. intros F. assert (length (p_checks p) = 10%nat) by (unfold blen in *; lia).
    rewrite <- H. clear - F. induction (p_checks p) as [|[b n] l IH]; [reflexivity|]. cbn [forallb fst] in F. apply andb_prop in F as [F1 F2].
    cbn [map fst length repeat]. rewrite <- (IH F2). destruct b; [discriminate|reflexivity].
  - intros E. assert (H : length (p_checks p) = 10%nat) by (rewrite <- (map_length fst), E; reflexivity).
    destruct (N.ltb_spec (blen (p_checks p)) 10) as [Q|G]; [unfold blen in Q; lia|].
    apply forallb_forall. intros [b n] I. cbn [fst]. assert (J : In b (map fst (p_checks p))) by (apply in_map_iff; exists (b, n); auto).
    rewrite E in J. apply repeat_spec in J. rewrite J. reflexivity.
Qed.

(** *** The cases of a check *)
Lemma find_first {A} f (l : list A) x : find f l = Some x <-> exists b a, l = b ++ x :: a /\ f x = true /\ forall y, In y b -> f y = false.
Proof.
  split.
  - induction l as [|y l IH]; [discriminate|]. cbn [find]. destruct (f y) eqn:F.
    + intros [= ->]. exists [], l. repeat split; auto. intros ? [].
    + intros H. destruct (IH H) as (b & a & -> & Fx & Q). exists (y :: b), a. repeat split; auto. intros z [<-|I]; auto.
  - intros (b & a & -> & F & Q). induction b as [|y b IH]; cbn [app find]; [now rewrite F|].
    rewrite (Q y (or_introl eq_refl)). apply IH. intros z I. apply Q. now right.
Qed.
Lemma fetch_iff e a e' : fetch_enr e a = Ok e' <->
  exists b c, own_records a = Ok (b ++ e' :: c) /\ enr_id e' = enr_id e /\ forall x, In x b -> enr_id x <> enr_id e.
Proof.
  unfold fetch_enr. destruct (own_records a) as [es| |]; cbn [obind].
  - destruct (find _ es) as [x|] eqn:F.
    + split.
      * intros [= ->]. apply find_first in F as (b & c & -> & Q & R). exists b, c. split; [reflexivity|]. split; [now apply N.eqb_eq|].
        intros y I. apply N.eqb_neq. exact (R y I).
      * intros (b & c & [= ->] & Q & R). f_equal. assert (G : find (fun x => enr_id x =? enr_id e) (b ++ e' :: c) = Some e').
        { apply find_first. exists b, c. split; [reflexivity|]. split; [now apply N.eqb_eq|]. intros y I. apply N.eqb_neq. exact (R y I). }
        congruence.
    + split; [discriminate|]. intros (b & c & [= ->] & Q & R).
      assert (X := find_none _ _ F e' ltac:(apply in_or_app; right; left; reflexivity)). cbn beta in X. apply N.eqb_neq in X. congruence.
  - split; [discriminate|intros (b & c & H & _); discriminate].
  - split; [discriminate|intros (b & c & H & _); discriminate].
Qed.
Lemma alive_not_odd e a e' c r : alive e a e' c r -> ~ odd a.
Proof. intros (s & t & b & l & P & D & _) (s' & t' & b' & P' & D'). rewrite P in P'. injection P' as <- <- <-. exact (D' _ _ _ D). Qed.
Lemma alive_unique e a e1 c1 r1 e2 c2 r2 : alive e a e1 c1 r1 -> alive e a e2 c2 r2 -> e1 = e2 /\ c1 = c2 /\ r1 = r2.
Proof.
  intros (s & t & b & l & P & D & C) (s' & t' & b' & l' & P' & D' & C'). rewrite P in P'. injection P' as <- <- <-. rewrite D in D'. injection D' as <- <- _.
  split; [|auto]. destruct C as [[H ->]|[H C]], C' as [[H' ->]|[H' C']]; try lia; [reflexivity|].
  apply fetch_iff in C, C'. congruence.
Qed.
Lemma alive_id e a e' c r : alive e a e' c r -> enr_id e' = enr_id e.
Proof. intros (s & t & b & l & P & D & [[_ ->]|[_ (x & y & _ & E & _)]]); auto. Qed.
Lemma check_cases st now e a : inv st ->
  exists st' r, liveness_check st now e a = Ok (st', r) /\
  ((r = Fresh /\ st' = st /\ exists t, get (enr_id e) (checks st) = Some t /\ now < t) \/
   ((forall t, get (enr_id e) (checks st) = Some t -> t <= now) /\
    ((r = Fail /\ odd a /\ st' = st) \/
     (r = Fail /\ silent e a /\ st' = record_failed st now e) \/
     (exists e' c rad, r = Pass /\ alive e a e' c rad /\ enr_id e' = enr_id e /\
        st' = {| peers := put (enr_id e) (passed_peer (peer_or_new e' st) now e' c rad) (peers st);
                 checks := put (enr_id e) (now + check_delay) (checks st) |})))).
Proof.
  intros I. unfold liveness_check.
  destruct (match get (enr_id e) (checks st) with Some t => now <? t | None => false end) eqn:F.
  { exists st, Fresh. split; [reflexivity|]. left. split; [reflexivity|]. split; [reflexivity|].
    destruct (get (enr_id e) (checks st)) as [t|]; [|discriminate]. exists t. split; [reflexivity|]. now apply N.ltb_lt. }
  assert (F' : forall t, get (enr_id e) (checks st) = Some t -> t <= now).
  { intros t G. rewrite G in F. now apply N.ltb_ge in F. }
  clear F. assert (Sil : forall st', pong a = Err \/ pong a = Panic -> st' = record_failed st now e ->
    exists r, r = Fail /\ silent e a /\ st' = record_failed st now e).
  { intros st' P ->. exists Fail. split; [reflexivity|]. split; [|reflexivity]. split.
    - intros (s & t & b & P' & _). destruct P; congruence.
    - intros e' c r (s & t & b & l & P' & _). destruct P; congruence. }
  destruct (pong a) as [[[seq t] payload]| |] eqn:P.
  - assert (Odd : (forall c r l, decode_extension t payload <> Ok (ECapabilities c r l)) -> odd a).
    { intros D. exists seq, t, payload. auto. }
    destruct (decode_extension t payload) as [x| |] eqn:D.
    2,3: exists st, Fail; split; [reflexivity|]; right; split; [exact F'|]; left; split; [reflexivity|]; split; [|reflexivity]; apply Odd; discriminate.
    destruct x as [c r l|r|r n|n m].
    2,3,4: exists st, Fail; split; [reflexivity|]; right; split; [exact F'|]; left; split; [reflexivity|]; split; [|reflexivity]; apply Odd; discriminate.
    destruct (N.ltb_spec (enr_seq e) seq) as [Lt|Ge].
    + destruct (fetch_enr e a) as [e'| |] eqn:Fe.
      * assert (Al : alive e a e' c r).
        { exists seq, t, payload, l. split; [exact P|]. split; [exact D|]. right. split; [exact Lt|]. now apply fetch_iff. }
        assert (Id := alive_id _ _ _ _ _ Al). rewrite (record_passed_ok st now e' c r I), Id. cbn [omap]. eexists _, Pass. split; [reflexivity|].
        right. split; [exact F'|]. right. right. exists e', c, r. auto.
      * exists (record_failed st now e), Fail. split; [reflexivity|]. right. split; [exact F'|]. right. left. split; [reflexivity|]. split; [|reflexivity]. split.
        -- intros (s & t' & b & P' & D'). rewrite P in P'. injection P' as <- <- <-. exact (D' _ _ _ D).
        -- intros e' c' r' (s & t' & b & l' & P' & D' & C). rewrite P in P'. injection P' as <- <- <-.
           destruct C as [[H _]|[_ C]]; [lia|]. apply fetch_iff in C. congruence.
      * exists (record_failed st now e), Fail. split; [reflexivity|]. right. split; [exact F'|]. right. left. split; [reflexivity|]. split; [|reflexivity]. split.
        -- intros (s & t' & b & P' & D'). rewrite P in P'. injection P' as <- <- <-. exact (D' _ _ _ D).
        -- intros e' c' r' (s & t' & b & l' & P' & D' & C). rewrite P in P'. injection P' as <- <- <-.
           destruct C as [[H _]|[_ C]]; [lia|]. apply fetch_iff in C. congruence.
    + rewrite (record_passed_ok st now e c r I). cbn [omap]. eexists _, Pass. split; [reflexivity|]. right. split; [exact F'|]. right. right.
      exists e, c, r. split; [reflexivity|]. split; [|split; reflexivity]. exists seq, t, payload, l. split; [exact P|]. split; [exact D|]. left. auto.
  - exists (record_failed st now e), Fail. split; [reflexivity|]. right. split; [exact F'|]. right. left. destruct (Sil _ (or_introl eq_refl) eq_refl) as (r & _ & S1 & _). auto.
  - exists (record_failed st now e), Fail. split; [reflexivity|]. right. split; [exact F'|]. right. left. destruct (Sil _ (or_intror eq_refl) eq_refl) as (r & _ & S1 & _). auto.
Qed.

(** *** The invariant *)
Lemma purge_checks p : p_checks (purge p) = firstn 10 (p_checks p).
Proof. reflexivity. Qed.
Lemma inv_no_check st id : inv st -> inv {| peers := peers st; checks := del id (checks st) |}.
Proof.
  intros (N1 & N2 & I & C). split; [exact N1|]. split; [now apply del_nodup|]. split; [exact I|].
  cbn [peers checks]. intros j t. rewrite get_del. destruct (j =? id); [discriminate|apply C].
Qed.
Lemma inv_put st id p t n b l : inv st -> sound_peer id p -> p_checks p = (b, n) :: l -> t = n + check_delay ->
  inv {| peers := put id p (peers st); checks := put id t (checks st) |}.
Proof.
  intros (N1 & N2 & I & C) S P T. split; [now apply put_nodup|]. split; [now apply put_nodup|]. cbn [peers checks]. split.
  - intros j q. rewrite get_put. destruct (N.eqb_spec j id) as [->|]; [intros [= <-]; exact S|apply I].
  - intros j u. rewrite !get_put. destruct (N.eqb_spec j id) as [->|]; [intros [= <-]; exists p, b, n, l; auto|apply C].
Qed.
Lemma passed_sound st now e c r : inv st -> sound_peer (enr_id e) (passed_peer (peer_or_new e st) now e c r).
Proof.
  intros (_ & _ & I & _). assert (X : enr_id (p_enr (peer_or_new e st)) = enr_id e).
  { unfold peer_or_new. destruct (get (enr_id e) (peers st)) as [p|] eqn:G; [exact (proj1 (I _ _ G))|reflexivity]. }
  split; [|split; [|split; [|split]]].
  - unfold passed_peer, purge. cbn [p_enr]. destruct (_ <? _); [exact X|reflexivity].
  - unfold passed_peer. rewrite purge_checks. apply (blen_firstn 10).
  - apply (blen_firstn 255).
  - apply passed_obsolete.
  - unfold passed_peer. rewrite purge_checks. cbn [p_checks firstn]. discriminate.
Qed.
Lemma failed_inv st now e : inv st -> inv (record_failed st now e).
Proof.
  intros H. assert (H' := H). destruct H' as (N1 & N2 & I & C). unfold record_failed. destruct (get (enr_id e) (peers st)) as [p|] eqn:G; [|now apply inv_no_check].
  destruct (is_obsolete (check_failed p now)) eqn:O.
  - split; [now apply del_nodup|]. split; [now apply del_nodup|]. cbn [peers checks]. split.
    + intros j q. rewrite get_del. destruct (j =? enr_id e); [discriminate|apply I].
    + intros j u. rewrite !get_del. destruct (j =? enr_id e); [discriminate|apply C].
  - destruct (I _ _ G) as (E & _). eapply inv_put; [exact H| | |reflexivity].
    + split; [exact E|]. split; [apply (blen_firstn 10)|]. split; [apply (blen_firstn 255)|]. split; [exact O|].
      unfold check_failed. rewrite purge_checks. cbn [p_checks firstn]. discriminate.
    + unfold check_failed. rewrite purge_checks. cbn [p_checks firstn]. reflexivity.
Qed.
Lemma offer_checks p now r : blen (p_checks p) <= 10 -> p_checks (offer_made p now r) = p_checks p.
Proof. intros L. unfold offer_made. rewrite purge_checks. cbn [p_checks]. now apply (firstn_short 10). Qed.
Lemma offer_inv st now id r : inv st -> inv (record_offer st now id r).
Proof.
  intros H. assert (H' := H). destruct H' as (N1 & N2 & I & C). unfold record_offer. destruct (get id (peers st)) as [p|] eqn:G; [|exact H].
  destruct (I _ _ G) as (E & L & L2 & O & Ne). split; [now apply put_nodup|]. split; [exact N2|]. cbn [peers checks]. split.
  - intros j q. rewrite get_put. destruct (N.eqb_spec j id) as [->|]; [|apply I]. intros [= <-]. split; [exact E|].
    split; [rewrite offer_checks; assumption|]. split; [apply (blen_firstn 255)|]. unfold is_obsolete in *. rewrite (offer_checks p now r L). auto.
  - intros j u Gu. destruct (C j u Gu) as (q & b & n & l & Gq & P & ->). rewrite get_put. destruct (N.eqb_spec j id) as [->|]; [|exists q, b, n, l; auto].
    assert (q = p) by congruence. subst q. exists (offer_made p now r), b, n, l. rewrite offer_checks by assumption. auto.
Qed.
Lemma check_inv st now e a st' r : inv st -> liveness_check st now e a = Ok (st', r) -> inv st'.
Proof.
  intros H L. destruct (check_cases st now e a H) as (st2 & r2 & L2 & C). rewrite L in L2. injection L2 as <- <-.
  destruct C as [(_ & -> & _)|(_ & [(_ & _ & ->)|[(_ & _ & ->)|(e' & c & rad & _ & _ & Id & ->)]])]; try exact H; [now apply failed_inv|].
  rewrite <- Id. eapply inv_put; [exact H|now apply passed_sound| |reflexivity].
  unfold passed_peer. rewrite purge_checks. cbn [p_checks firstn]. reflexivity.
Qed.
Lemma step_inv st ev : inv st -> exists st' r, step st ev = Ok (st', r) /\ inv st'.
Proof.
  intros H. destruct ev as [now e a|now id a|now id r]; cbn [step].
  - destruct (check_cases st now e a H) as (st2 & r2 & L2 & _). rewrite L2. exists st2, (Some r2). split; [reflexivity|]. exact (check_inv _ _ _ _ _ _ H L2).
  - destruct (get id (checks st)) as [t|]; [|exists st, None; auto]. destruct (t <=? now); [|exists st, None; auto].
    assert (H' := inv_no_check st id H). destruct (get id (peers st)) as [p|]; [|eexists _, None; split; [reflexivity|exact H']].
    destruct (check_cases _ now (p_enr p) a H') as (st2 & r2 & L2 & _). rewrite L2. exists st2, (Some r2). split; [reflexivity|]. exact (check_inv _ _ _ _ _ _ H' L2).
  - eexists _, None. split; [reflexivity|]. now apply offer_inv.
Qed.
Lemma run_inv es st : inv st -> exists st' rs, run st es = Ok (st', rs) /\ inv st' /\ length rs = length es.
Proof.
  revert st. induction es as [|ev es IH]; intros st H; [exists st, []; auto|].
  destruct (step_inv st ev H) as (st1 & r & S1 & H1). destruct (IH st1 H1) as (st2 & rs & R & H2 & L).
  exists st2, (r :: rs). cbn [run]. rewrite S1. cbn [obind fst snd]. rewrite R. cbn [omap fst snd length]. auto.
Qed.
Lemma inv_empty : inv no_peers.
Proof. split; [constructor|]. split; [constructor|]. split; [intros ? ? [=]|intros ? ? [=]]. Qed.
Lemma run_cons st ev es st2 rs : run st (ev :: es) = Ok (st2, rs) ->
  exists st1 r rs', step st ev = Ok (st1, r) /\ run st1 es = Ok (st2, rs') /\ rs = r :: rs'.
Proof.
  cbn [run]. destruct (step st ev) as [[st1 r]| |]; cbn [obind fst snd]; try discriminate.
  destruct (run st1 es) as [[st3 rs']| |] eqn:R; cbn [omap fst snd]; try discriminate. intros [= <- <-]. exists st1, r, rs'. auto.
Qed.

(** *** The outcomes of the checks *)
Definition checks_of (id : N) (st : census) : option (list bool) := option_map (fun p => map fst (p_checks p)) (get id (peers st)).
Lemma firstn_again {A} n (b : A) l : firstn n (b :: firstn n l) = firstn n (b :: l).
Proof. destruct n; [reflexivity|]. rewrite !firstn_cons. f_equal. rewrite firstn_firstn. f_equal. lia. Qed.
Lemma firstn_map {A B} (f : A -> B) n l : firstn n (map f l) = map f (firstn n l).
Proof. revert l. induction n; intros [|x l]; cbn; congruence. Qed.
Lemma failed_standing st now e id s : inv st -> checks_of id st = option_map (firstn 10) s ->
  checks_of id (record_failed st now e) = option_map (firstn 10) (if id =? enr_id e then next_standing s false else s).
Proof.
  intros H Q. unfold record_failed. destruct (get (enr_id e) (peers st)) as [p|] eqn:G.
  - assert (C : map fst (p_checks (check_failed p now)) = firstn 10 (false :: map fst (p_checks p))).
    { unfold check_failed. rewrite purge_checks. cbn [p_checks]. rewrite <- firstn_map. reflexivity. }
    assert (O := obsolete_iff (check_failed p now) ltac:(unfold check_failed; rewrite purge_checks; apply (blen_firstn 10))). rewrite C in O.
    destruct (N.eqb_spec id (enr_id e)) as [->|D].
    + unfold checks_of in Q. rewrite G in Q. cbn [option_map] in Q. destruct s as [h|]; [|discriminate]. cbn [option_map] in Q.
      assert (Q' : map fst (p_checks p) = firstn 10 h) by congruence. rewrite Q', (firstn_again 10) in O, C. cbn [next_standing].
      destruct (list_eq_dec Bool.bool_dec (firstn 10 (false :: h)) (repeat false 10)) as [E|E].
      * apply O in E. rewrite E. unfold checks_of. cbn [peers]. rewrite get_del, N.eqb_refl. reflexivity.
      * destruct (is_obsolete (check_failed p now)); [exfalso; apply E; now apply O|].
        unfold checks_of. cbn [peers]. rewrite get_put, N.eqb_refl. cbn [option_map]. f_equal. exact C.
    + apply N.eqb_neq in D. rewrite <- Q. destruct (is_obsolete _); unfold checks_of; cbn [peers]; rewrite ?get_del, ?get_put, D; reflexivity.
  - unfold checks_of in *. cbn [peers]. rewrite Q.
    destruct (N.eqb_spec id (enr_id e)) as [->|D]; [|reflexivity]. rewrite G in Q. destruct s; [discriminate|reflexivity].
Qed.
Lemma passed_standing st now e c r t id s : checks_of id st = option_map (firstn 10) s ->
  checks_of id {| peers := put (enr_id e) (passed_peer (peer_or_new e st) now e c r) (peers st); checks := t |}
  = option_map (firstn 10) (if id =? enr_id e then next_standing s true else s).
Proof.
  intros Q. unfold checks_of. cbn [peers]. rewrite get_put. destruct (N.eqb_spec id (enr_id e)) as [->|D]; [|exact Q].
  unfold checks_of in Q. unfold peer_or_new. unfold passed_peer. cbn [option_map]. rewrite purge_checks. cbn [p_checks].
  rewrite <- firstn_map. destruct (get (enr_id e) (peers st)) as [p|]; cbn [option_map] in Q; destruct s as [h|]; try discriminate.
  - cbn [map fst p_checks next_standing option_map] in *. assert (Q' : map fst (p_checks p) = firstn 10 h) by congruence. rewrite Q', (firstn_again 10).
    destruct (list_eq_dec _ _ _) as [E|E]; [discriminate E|reflexivity].
  - reflexivity.
Qed.
(** What one event adds to the history of node [id]. *)
Lemma check_noted st now e a st' r id s : inv st -> liveness_check st now e a = Ok (st', r) -> checks_of id st = option_map (firstn 10) s ->
  exists bs, checks_of id st' = option_map (firstn 10) (fold_left next_standing bs s) /\
    forall ev es rs hs, node_of ev = enr_id e -> answers_of ev = Some a -> noted id es rs hs -> noted id (ev :: es) (Some r :: rs) (bs ++ hs).
Proof.
  intros H L Q. destruct (check_cases st now e a H) as (st2 & r2 & L2 & C). rewrite L in L2. injection L2 as <- <-.
  destruct C as [(-> & -> & _)|(_ & [(-> & O & ->)|[(-> & [O _] & ->)|(e' & c & rad & -> & A & Id & ->)]])].
  - exists []. split; [exact Q|]. intros. apply noted_fresh; auto.
  - exists []. split; [exact Q|]. intros. eapply noted_odd; eauto.
  - pose proof (failed_standing st now e id s H Q) as S. destruct (N.eqb_spec id (enr_id e)) as [->|D].
    + exists [false]. split; [exact S|]. intros. eapply noted_fail; eauto.
    + exists []. split; [exact S|]. intros. apply noted_other; [congruence|assumption].
  - rewrite <- Id. pose proof (passed_standing st now e' c rad (put (enr_id e') (now + check_delay) (checks st)) id s Q) as S.
    destruct (N.eqb_spec id (enr_id e')) as [E|D].
    + exists [true]. split; [exact S|]. intros. apply noted_pass; [congruence|assumption].
    + exists []. split; [exact S|]. intros. apply noted_other; [congruence|assumption].
Qed.
Lemma step_noted st ev st' r id s : inv st -> step st ev = Ok (st', r) -> checks_of id st = option_map (firstn 10) s ->
  exists bs, checks_of id st' = option_map (firstn 10) (fold_left next_standing bs s) /\
    forall es rs hs, noted id es rs hs -> noted id (ev :: es) (r :: rs) (bs ++ hs).
Proof.
  intros H S Q. assert (Quiet : checks_of id st' = checks_of id st -> r = None -> exists bs, checks_of id st' = option_map (firstn 10) (fold_left next_standing bs s) /\
    forall es rs hs, noted id es rs hs -> noted id (ev :: es) (r :: rs) (bs ++ hs)).
  { intros E ->. exists []. split; [cbn [fold_left]; congruence|]. intros. apply noted_fresh; auto. }
  destruct ev as [now e a|now i a|now i o]; cbn [step] in S.
  - destruct (liveness_check st now e a) as [[st2 r2]| |] eqn:L; cbn [omap fst snd] in S; try discriminate. injection S as <- <-.
    destruct (check_noted _ _ _ _ _ _ id s H L Q) as (bs & E & N'). exists bs. split; [exact E|]. intros es rs hs Hn. exact (N' (Found now e a) es rs hs eq_refl eq_refl Hn).
  - destruct (get i (checks st)) as [t|]; [|injection S as <- <-; apply Quiet; reflexivity]. destruct (t <=? now); [|injection S as <- <-; apply Quiet; reflexivity].
    destruct (get i (peers st)) as [p|] eqn:G; [|injection S as <- <-; apply Quiet; reflexivity].
    destruct (liveness_check _ now (p_enr p) a) as [[st2 r2]| |] eqn:L; cbn [omap fst snd] in S; try discriminate. injection S as <- <-.
    assert (Q' : checks_of id {| peers := peers st; checks := del i (checks st) |} = option_map (firstn 10) s) by exact Q.
    destruct (check_noted _ _ _ _ _ _ id s (inv_no_check st i H) L Q') as (bs & E & N'). exists bs. split; [exact E|]. intros es rs hs Hn.
    apply N'; [|reflexivity|exact Hn]. cbn [node_of]. destruct H as (_ & _ & I & _). symmetry. exact (proj1 (I _ _ G)).
  - injection S as <- <-. apply Quiet; [|reflexivity]. unfold record_offer, checks_of. destruct (get i (peers st)) as [p|] eqn:G; [|reflexivity].
    cbn [peers]. rewrite get_put. destruct (N.eqb_spec id i) as [->|]; [|reflexivity]. rewrite G. cbn [option_map]. rewrite offer_checks; [reflexivity|].
    destruct H as (_ & _ & I & _). exact (proj1 (proj2 (I _ _ G))).
Qed.
Lemma run_noted es : forall st st' rs id s, inv st -> run st es = Ok (st', rs) -> checks_of id st = option_map (firstn 10) s ->
  exists bs, noted id es rs bs /\ checks_of id st' = option_map (firstn 10) (fold_left next_standing bs s).
Proof.
  induction es as [|ev es IH]; intros st st' rs id s H R Q.
  - injection R as <- <-. exists []. split; [constructor|exact Q].
  - apply run_cons in R as (st1 & r & rs' & S & R & ->). destruct (step_noted _ _ _ _ id s H S Q) as (bs & Q1 & Nt).
    destruct (step_inv st ev H) as (st2 & r2 & S2 & H1). rewrite S in S2. injection S2 as <- <-.
    destruct (IH st1 st' rs' id _ H1 R Q1) as (hs & Hn & E). exists (bs ++ hs). split; [exact (Nt _ _ _ Hn)|]. rewrite fold_left_app. exact E.
Qed.
Lemma noted_unique id es rs bs : noted id es rs bs -> forall bs', noted id es rs bs' -> bs' = bs.
Proof.
  induction 1 as [|ev es rs bs Hi _ IH|ev a es rs bs Hi Ha Ho _ IH|ev a es rs bs Ha Ho _ IH|ev es r rs bs Hr _ IH|ev es r rs bs Hd _ IH]; intros bs' N'; inversion N'; subst;
    try congruence; try (f_equal; auto; fail); auto;
    repeat match goal with H : _ = _ \/ _ = _ |- _ => destruct H; try discriminate end;
    exfalso; match goal with H1 : answers_of ?e = Some ?a, H2 : answers_of ?e = Some ?b |- _ => rewrite H1 in H2; injection H2 as <-; contradiction end.
Qed.

(** *** Scheduled checks *)
Definition all_scheduled (st : census) : Prop := forall id p, get id (peers st) = Some p -> get id (checks st) <> None.
Lemma failed_scheduled st now e : (forall id p, get id (peers st) = Some p -> id <> enr_id e -> get id (checks st) <> None) -> all_scheduled (record_failed st now e).
Proof.
  intros A id p. unfold record_failed. destruct (get (enr_id e) (peers st)) as [q|] eqn:G.
  - destruct (is_obsolete _); cbn [peers checks]; rewrite ?get_del, ?get_put; destruct (N.eqb_spec id (enr_id e)) as [->|D]; try discriminate; intros Gp; exact (A id p Gp D).
  - cbn [peers checks]. intros Gp. rewrite get_del. destruct (N.eqb_spec id (enr_id e)) as [->|D]; [congruence|exact (A id p Gp D)].
Qed.
Lemma check_scheduled st now e a st' r : inv st -> liveness_check st now e a = Ok (st', r) -> ~ odd a ->
  (forall id p, get id (peers st) = Some p -> id <> enr_id e -> get id (checks st) <> None) -> r <> Fresh -> all_scheduled st'.
Proof.
  intros H L Od A Nf. destruct (check_cases st now e a H) as (st2 & r2 & L2 & C). rewrite L in L2. injection L2 as <- <-.
  destruct C as [(-> & _)|(_ & [(_ & O & _)|[(_ & _ & ->)|(e' & c & rad & _ & _ & Id & ->)]])]; try congruence; try contradiction.
  - now apply failed_scheduled.
  - intros id p. cbn [peers checks]. rewrite !get_put. destruct (N.eqb_spec id (enr_id e)) as [->|D]; [discriminate|]. intros Gp. exact (A id p Gp D).
Qed.
Lemma step_scheduled st ev st' r : inv st -> all_scheduled st -> step st ev = Ok (st', r) -> (forall a, answers_of ev = Some a -> ~ odd a) -> all_scheduled st'.
Proof.
  intros H A S O. destruct ev as [now e a|now i a|now i o]; cbn [step] in S.
  - destruct (liveness_check st now e a) as [[st2 r2]| |] eqn:L; cbn [omap fst snd] in S; try discriminate. injection S as <- <-.
    destruct (check_cases st now e a H) as (st3 & r3 & L3 & C). rewrite L in L3. injection L3 as <- <-.
    destruct C as [(-> & -> & _)|C]; [exact A|]. eapply check_scheduled; eauto. destruct C as (_ & [(-> & _)|[(-> & _)|(e' & c & rad & -> & _)]]); discriminate.
  - destruct (get i (checks st)) as [t|]; [|injection S as <- <-; exact A]. destruct (t <=? now); [|injection S as <- <-; exact A].
    assert (X : forall id p, get id (peers st) = Some p -> id <> i -> get id (del i (checks st)) <> None).
    { intros id p Gp D. rewrite get_del. apply N.eqb_neq in D. rewrite D. exact (A id p Gp). }
    destruct (get i (peers st)) as [p|] eqn:G.
    + destruct (liveness_check _ now (p_enr p) a) as [[st2 r2]| |] eqn:L; cbn [omap fst snd] in S; try discriminate. injection S as <- <-.
      assert (Ei : enr_id (p_enr p) = i) by (destruct H as (_ & _ & I & _); exact (proj1 (I _ _ G))).
      eapply check_scheduled; [exact (inv_no_check st i H)|exact L|exact (O a eq_refl)|rewrite Ei; exact X|].
      destruct (check_cases _ now (p_enr p) a (inv_no_check st i H)) as (st3 & r3 & L3 & C). rewrite L in L3. injection L3 as <- <-.
      destruct C as [(-> & -> & t' & Gt & _)|C].
      * cbn [checks] in Gt. rewrite Ei, get_del, N.eqb_refl in Gt. discriminate.
      * destruct C as (_ & [(-> & _)|[(-> & _)|(e' & c & rad & -> & _)]]); discriminate.
    + injection S as <- <-. intros id p Gp. apply (X id p Gp). cbn [peers] in Gp. congruence.
  - injection S as <- <-. unfold record_offer. destruct (get i (peers st)) as [p|] eqn:G; [|exact A]. intros id q. cbn [peers checks]. rewrite get_put.
    destruct (N.eqb_spec id i) as [->|D]; [intros _; exact (A i p G)|apply A].
Qed.

(** *** Sums *)
Lemma zsum_app l1 l2 : zsum (l1 ++ l2) = (zsum l1 + zsum l2)%Z.
Proof. induction l1; cbn [app zsum fold_right]; [reflexivity|]. unfold zsum in *. cbn [fold_right app]. lia. Qed.
Lemma zsum_range {A} (f : A -> Z) lo hi l : (forall x, lo <= f x <= hi)%Z -> (lo * Z.of_nat (length l) <= zsum (map f l) <= hi * Z.of_nat (length l))%Z.
Proof. intros B. induction l as [|x l IH]; unfold zsum in *; cbn [map fold_right length]; [lia|]. specialize (B x). lia. Qed.
Lemma filter_len {A} f (l : list A) : (length (filter f l) <= length l)%nat.
Proof. induction l as [|x l IH]; cbn; [lia|]. destruct (f x); cbn; lia. Qed.

(** *** Rounds *)
Definition better (id : N) (best : option enr) (x : enr) : option enr :=
  if enr_id x =? id then match best with Some b => if enr_seq x <? enr_seq b then best else Some x | None => Some x end else best.
Lemma newest_fold id es : forall best,
  (forall b, best = Some b -> enr_id b = id) ->
  match fold_left (better id) es best with
  | Some e => enr_id e = id /\ (best = Some e \/ In e es) /\ (forall b, best = Some b -> enr_seq b <= enr_seq e) /\
      (forall x, In x es -> enr_id x = id -> enr_seq x <= enr_seq e)
  | None => best = None /\ forall x, In x es -> enr_id x <> id
  end.
Proof.
  induction es as [|y es IH]; intros best Hb; cbn [fold_left].
  - destruct best as [b|]; [|split; [reflexivity|intros ? []]]. split; [exact (Hb b eq_refl)|]. split; [left; reflexivity|]. split; [intros ? [= ->]; lia|intros ? []].
  - assert (Hb' : forall b, better id best y = Some b -> enr_id b = id).
    { unfold better. destruct (N.eqb_spec (enr_id y) id) as [E|E]; [|exact Hb]. destruct best as [b|]; [destruct (_ <? _)|]; intros c [= <-]; auto. }
    specialize (IH _ Hb'). destruct (fold_left (better id) es (better id best y)) as [e|].
    + destruct IH as (E & W & M & X). split; [exact E|].
      assert (K : (best = Some e \/ In e (y :: es)) /\ (forall b, best = Some b -> enr_seq b <= enr_seq e) /\ (enr_id y = id -> enr_seq y <= enr_seq e)).
      { unfold better in W, M. destruct (N.eqb_spec (enr_id y) id) as [Ey|Ey].
        - destruct best as [b|].
          + destruct (N.ltb_spec (enr_seq y) (enr_seq b)) as [Lt|Ge].
            * specialize (M b eq_refl). split; [destruct W as [[= ->]|W]; [left; reflexivity|right; now right]|]. split; [intros ? [= <-]; exact M|intros _; lia].
            * specialize (M y eq_refl). split; [destruct W as [[= ->]|W]; [right; now left|right; now right]|]. split; [intros ? [= <-]; lia|intros _; exact M].
          + specialize (M y eq_refl). split; [destruct W as [[= ->]|W]; [right; now left|right; now right]|]. split; [discriminate|intros _; exact M].
        - split; [destruct W as [W|W]; [left; exact W|right; now right]|]. split; [exact M|contradiction]. }
      destruct K as (K1 & K2 & K3). split; [exact K1|]. split; [exact K2|]. intros x [<-|I]; [exact K3|exact (X x I)].
    + destruct IH as (W & X). unfold better in W. destruct (N.eqb_spec (enr_id y) id) as [Ey|Ey].
      * destruct best as [b|]; [destruct (_ <? _)|]; discriminate.
      * split; [exact W|]. intros x [<-|I]; [exact Ey|exact (X x I)].
Qed.
Lemma newest_of_spec id es :
  match newest_of id es with
  | Some e => enr_id e = id /\ In e es /\ forall x, In x es -> enr_id x = id -> enr_seq x <= enr_seq e
  | None => forall x, In x es -> enr_id x <> id
  end.
Proof.
  pose proof (newest_fold id es None (fun b (H : None = Some b) => ltac:(discriminate H))) as X. unfold newest_of. fold (better id).
  change (fun best x => _) with (better id) in *. destruct (fold_left (better id) es None) as [e|].
  - destruct X as (E & [W|W] & _ & M); [discriminate|auto].
  - exact (proj2 X).
Qed.
Lemma newest_in es e : In e (newest_records es) <-> newest_of (enr_id e) es = Some e /\ In (enr_id e) (map enr_id es).
Proof.
  unfold newest_records. rewrite in_flat_map. split.
  - intros (id & I & H). pose proof (newest_of_spec id es) as X. destruct (newest_of id es) as [x|] eqn:E; [|destruct H]. destruct H as [<-|[]].
    destruct X as (<- & _). split; [exact E|]. now apply nodup_In in I.
  - intros (E & I). exists (enr_id e). split; [now apply nodup_In|]. rewrite E. now left.
Qed.
Lemma newest_nodup es : NoDup (map enr_id (newest_records es)).
Proof.
  unfold newest_records. assert (X : forall ids, NoDup ids -> NoDup (map enr_id (flat_map (fun id => match newest_of id es with Some e => [e] | None => [] end) ids))).
  { induction ids as [|id ids IH]; [constructor|]. intros Nd. inversion Nd as [|? ? Ni Nd']; subst. cbn [flat_map]. rewrite map_app.
    pose proof (newest_of_spec id es) as S. destruct (newest_of id es) as [e|]; [|exact (IH Nd')]. destruct S as (Ee & _). cbn [map app]. constructor; [|exact (IH Nd')].
    intros H. apply in_map_iff in H as (x & Ex & Hx). apply in_flat_map in Hx as (j & Ij & Hj). pose proof (newest_of_spec j es) as Sj.
    destruct (newest_of j es) as [y|]; [|destruct Hj]. destruct Hj as [<-|[]]. destruct Sj as (Ej & _). apply Ni. congruence. }
  apply X, NoDup_nodup.
Qed.
