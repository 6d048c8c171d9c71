From Coq Require Import QArith Lqa.
From Verif Require Import Base Wire_Model Ping_Model KBucket_Model F64_Model F64_Proofs AcceptCodes_Model Census_Model Census_Spec Census_Proofs.
Open Scope N_scope.

(** ** C84 *)
(** No history makes a task of the census panic.  Every node is known once, under its own id, with
    at most ten checks and 255 offers; of the last ten checks of a known node one was passed, or
    fewer than ten were made.  A scheduled check is that of a known node, five minutes after its
    last one. *)
Theorem C84_sound : forall es, exists st rs, run no_peers es = Ok (st, rs) /\ length rs = length es /\
  NoDup (map fst (peers st)) /\
  (forall id p, In (id, p) (peers st) -> enr_id (p_enr p) = id /\ blen (p_checks p) <= 10 /\ blen (p_offers p) <= 255 /\
     map fst (p_checks p) <> repeat false 10) /\
  NoDup (map fst (checks st)) /\
  (forall id t, In (id, t) (checks st) -> exists p b n l, In (id, p) (peers st) /\ p_checks p = (b, n) :: l /\ t = n + 300000).
Proof.
  intros es. destruct (run_inv es no_peers inv_empty) as (st & rs & R & (N1 & N2 & I & C) & L). exists st, rs. split; [exact R|]. split; [exact L|].
  split; [exact N1|]. split; [|split; [exact N2|]].
  - intros id p H. apply get_in in H; [|exact N1]. destruct (I _ _ H) as (E & L1 & L2 & O & _). repeat split; try assumption.
    intros Q. apply (obsolete_iff p L1) in Q. congruence.
  - intros id t H. apply get_in in H; [|exact N2]. destruct (C _ _ H) as (p & b & n & l & G & P & T). exists p, b, n, l.
    split; [now apply get_in|auto].
Qed.
Print Assumptions C84_sound.

(** The known nodes are exactly those that passed a check and have not failed ten in a row since,
    over the whole history; the newest ten outcomes are kept. *)
Theorem C84_known : forall es st rs id, run no_peers es = Ok (st, rs) ->
  exists bs, noted id es rs bs /\ (forall bs', noted id es rs bs' -> bs' = bs) /\
    match standing bs with
    | Some h => exists p, In (id, p) (peers st) /\ map fst (p_checks p) = firstn 10 h
    | None => ~ In id (map fst (peers st))
    end.
Proof.
  intros es st rs id R. destruct (run_noted es no_peers st rs id None inv_empty R eq_refl) as (bs & Hn & Q).
  exists bs. split; [exact Hn|]. split; [exact (noted_unique id es rs bs Hn)|]. unfold standing.
  destruct (run_inv es no_peers inv_empty) as (st2 & rs2 & R2 & (N1 & _) & _). rewrite R in R2. injection R2 as <- <-. unfold checks_of in Q.
  destruct (fold_left next_standing bs None) as [h|]; destruct (get id (peers st)) as [p|] eqn:G; cbn [option_map] in Q; try discriminate.
  - exists p. split; [now apply get_in|]. congruence.
  - now apply get_none in G.
Qed.
Print Assumptions C84_known.

(** A record of a node is found by a search: what becomes of the node.  Unless a check is still to
    come, the node is checked.  If it answers as expected it is known from then on, with the record
    it has now (never an older one), its radius and a check in five minutes.  If it is silent the
    failure is noted or it stays unknown.  No other node is affected. *)
Theorem C84_found : forall es st rs now e a st' r, run no_peers es = Ok (st, rs) -> step st (Found now e a) = Ok (st', r) ->
  let id := enr_id e in
  (forall j, j <> id -> get j (peers st') = get j (peers st) /\ get j (checks st') = get j (checks st)) /\
  ((exists t, get id (checks st) = Some t /\ now < t) -> r = Some Fresh /\ st' = st) /\
  ((forall t, get id (checks st) = Some t -> t <= now) ->
     (odd a -> r = Some Fail /\ st' = st) /\
     (silent e a -> r = Some Fail /\ (get id (peers st) = None -> get id (peers st') = None) /\
        (get id (peers st') = None -> get id (checks st') = None) /\
        (forall p, get id (peers st') = Some p -> get id (checks st') = Some (now + 300000) /\
           exists q, get id (peers st) = Some q /\ p_enr p = p_enr q /\ p_client p = p_client q /\ p_radius p = p_radius q /\ p_offers p = p_offers q)) /\
     (forall e' client radius, alive e a e' client radius -> r = Some Pass /\ get id (checks st') = Some (now + 300000) /\
        exists p, get id (peers st') = Some p /\ p_client p = client /\ p_radius p = radius /\ enr_seq e' <= enr_seq (p_enr p) /\
          (p_enr p = e' \/ exists q, get id (peers st) = Some q /\ p_enr p = p_enr q /\ enr_seq e' < enr_seq (p_enr q)))).
Proof.
  intros es st rs now e a st' r R S id. destruct (run_inv es no_peers inv_empty) as (st2 & rs2 & R2 & H & _). rewrite R in R2. injection R2 as <- <-.
  assert (H' := H). destruct H' as (_ & _ & I & Ck).
  cbn [step] in S. destruct (check_cases st now e a H) as (st3 & r3 & L & C). rewrite L in S. cbn [omap fst snd] in S. injection S as <- <-.
  fold id in C.
  assert (Sa : forall x c d, alive e a x c d -> ~ odd a) by (intros x c d Al; exact (alive_not_odd _ _ _ _ _ Al)).
  split; [|split].
  - intros j D. apply N.eqb_neq in D. destruct C as [(_ & -> & _)|(_ & [(_ & _ & ->)|[(_ & _ & ->)|(e' & c & rad & _ & _ & _ & ->)]])]; try (split; reflexivity).
    + unfold record_failed. fold id. destruct (get id (peers st)) as [p|]; [destruct (is_obsolete _)|]; cbn [peers checks]; rewrite ?get_del, ?get_put, D; split; reflexivity.
    + cbn [peers checks]. rewrite !get_put, D. split; reflexivity.
  - intros (t & G & Lt). destruct C as [(-> & -> & _)|(F & _)]; [auto|]. specialize (F t G). lia.
  - intros F. destruct C as [(_ & _ & t & G & Lt)|(_ & C)]; [specialize (F t G); lia|]. split; [|split].
    + intros O. destruct C as [(-> & _ & ->)|[(-> & [Sx _] & ->)|(e' & c & rad & -> & Al & _)]]; [auto|contradiction|destruct (Sa _ _ _ Al O)].
    + intros [No Na]. destruct C as [(_ & O & _)|[(-> & _ & ->)|(e' & c & rad & _ & Al & _)]]; [contradiction| |destruct (Na _ _ _ Al)].
      split; [reflexivity|]. unfold record_failed. fold id. destruct (get id (peers st)) as [p|] eqn:G.
      * split; [discriminate|]. destruct (is_obsolete _); cbn [peers checks]; rewrite ?get_del, ?get_put, !N.eqb_refl.
        -- split; [reflexivity|discriminate].
        -- split; [discriminate|]. intros q [= <-]. split; [reflexivity|]. exists p. repeat split. unfold check_failed, purge. cbn [p_offers].
           apply (firstn_short 255). exact (proj1 (proj2 (proj2 (I _ _ G)))).
      * cbn [peers checks]. rewrite G, get_del, N.eqb_refl. split; [reflexivity|]. split; [reflexivity|discriminate].
    + intros e' cl ra Al. destruct C as [(_ & O & _)|[(_ & [_ Na] & _)|(e2 & c & rad & -> & Al2 & Id & ->)]]; [destruct (Sa _ _ _ Al O)|destruct (Na _ _ _ Al)|].
      destruct (alive_unique _ _ _ _ _ _ _ _ Al Al2) as (<- & <- & <-). split; [reflexivity|]. cbn [peers checks]. rewrite !get_put, N.eqb_refl.
      split; [reflexivity|]. eexists. split; [reflexivity|]. unfold passed_peer, purge. cbn [p_client p_radius p_enr]. split; [reflexivity|]. split; [reflexivity|].
      unfold peer_or_new. rewrite Id. fold id. destruct (get id (peers st)) as [q|] eqn:G.
      * destruct (N.ltb_spec (enr_seq e') (enr_seq (p_enr q))) as [Lt|Ge]; [|split; [lia|left; reflexivity]]. split; [lia|]. right. exists q. auto.
      * cbn [new_peer p_enr]. rewrite N.ltb_irrefl. split; [lia|left; reflexivity].
Qed.
Print Assumptions C84_found.

(** When a scheduled check comes due the node is checked with the record that is known, exactly as
    if a search had found that record; nothing happens before. *)
Theorem C84_due : forall es st rs now id a, run no_peers es = Ok (st, rs) ->
  (forall t p, get id (checks st) = Some t -> get id (peers st) = Some p -> t <= now ->
     forall st1 r1, step st (Found now (p_enr p) a) = Ok (st1, r1) ->
     exists st2, step st (Due now id a) = Ok (st2, r1) /\ peers st2 = peers st1 /\
       (forall j, j <> id -> get j (checks st2) = get j (checks st1)) /\ (~ odd a -> get id (checks st2) = get id (checks st1))) /\
  ((forall t, get id (checks st) = Some t -> now < t) -> step st (Due now id a) = Ok (st, None)).
Proof.
  intros es st rs now id a R. destruct (run_inv es no_peers inv_empty) as (st2 & rs2 & R2 & H & _). rewrite R in R2. injection R2 as <- <-.
  assert (H' := H). destruct H' as (_ & _ & I & Ck). split.
  - intros t p Gt Gp Le st1 r1 S. assert (E := proj1 (I _ _ Gp)). cbn [step] in *. rewrite Gt. apply N.leb_le in Le as Le'. rewrite Le', Gp.
    set (sd := {| peers := peers st; checks := del id (checks st) |}).
    assert (Hd : inv sd) by (apply inv_no_check; exact H).
    destruct (check_cases st now (p_enr p) a H) as (st3 & r3 & L & C). rewrite L in S. cbn [omap fst snd] in S. injection S as <- <-.
    destruct (check_cases sd now (p_enr p) a Hd) as (st4 & r4 & L4 & C4). rewrite L4. cbn [omap fst snd]. rewrite E in C, C4.
    destruct C as [(_ & _ & t' & Gt' & Lt)|(_ & C)]; [assert (t' = t) by congruence; lia|].
    destruct C4 as [(_ & _ & t' & Gt' & Lt)|(_ & C4)]; [cbn [checks sd] in Gt'; rewrite get_del, N.eqb_refl in Gt'; discriminate|].
    exists st4. destruct C as [(-> & O & ->)|[(-> & [Sx Sn] & ->)|(e' & c & rad & -> & Al & Id & ->)]].
    + destruct C4 as [(-> & _ & ->)|[(-> & [Sx' _] & ->)|(e2 & c2 & rad2 & -> & Al2 & Id2 & ->)]];
        [|contradiction|destruct (alive_not_odd _ _ _ _ _ Al2 O)].
      split; [reflexivity|]. split; [reflexivity|]. split; [|contradiction]. intros j D. cbn [sd checks]. rewrite get_del. apply N.eqb_neq in D. now rewrite D.
    + destruct C4 as [(_ & O & _)|[(-> & _ & ->)|(e2 & c2 & rad2 & _ & Al2 & _)]]; [contradiction| |destruct (Sn _ _ _ Al2)].
      split; [reflexivity|]. unfold record_failed. rewrite E. cbn [sd peers]. rewrite Gp. destruct (is_obsolete _); cbn [peers checks sd].
      * split; [reflexivity|]. split; [intros j D; rewrite !get_del; apply N.eqb_neq in D; now rewrite D|intros _; now rewrite !get_del, N.eqb_refl].
      * split; [reflexivity|]. split; [intros j D; rewrite !get_put, get_del; apply N.eqb_neq in D; now rewrite D|intros _; now rewrite !get_put, N.eqb_refl].
    + destruct C4 as [(_ & O & _)|[(_ & [_ Sn] & _)|(e2 & c2 & rad2 & -> & Al2 & _ & ->)]];
        [destruct (alive_not_odd _ _ _ _ _ Al O)|destruct (Sn _ _ _ Al)|].
      destruct (alive_unique _ _ _ _ _ _ _ _ Al Al2) as (<- & <- & <-). split; [reflexivity|]. cbn [peers checks]. split; [reflexivity|].
      cbn [sd checks]. split; [intros j D; rewrite !get_put, get_del; apply N.eqb_neq in D; now rewrite D|intros _; now rewrite !get_put, N.eqb_refl].
  - intros F. cbn [step]. destruct (get id (checks st)) as [t|]; [|reflexivity]. specialize (F t eq_refl). apply N.leb_gt in F. now rewrite F.
Qed.
Print Assumptions C84_due.

(** The result of an offer is noted for the node it was made to, if it is known, and changes nothing
    else. *)
Theorem C84_offered : forall es st rs now id r, run no_peers es = Ok (st, rs) ->
  exists st', step st (Offered now id r) = Ok (st', None) /\ checks st' = checks st /\
    (forall j, j <> id -> get j (peers st') = get j (peers st)) /\
    match get id (peers st) with
    | None => get id (peers st') = None
    | Some p => exists p', get id (peers st') = Some p' /\ p_enr p' = p_enr p /\ p_client p' = p_client p /\ p_radius p' = p_radius p /\
        p_checks p' = p_checks p /\ p_offers p' = firstn 255 ((r, now) :: p_offers p)
    end.
Proof.
  intros es st rs now id r R. destruct (run_inv es no_peers inv_empty) as (st2 & rs2 & R2 & H & _). rewrite R in R2. injection R2 as <- <-.
  destruct H as (_ & _ & I & _). eexists. split; [reflexivity|]. unfold record_offer. destruct (get id (peers st)) as [p|] eqn:G; [|rewrite G; auto].
  cbn [peers checks]. split; [reflexivity|]. split; [intros j D; rewrite get_put; apply N.eqb_neq in D; now rewrite D|]. rewrite get_put, N.eqb_refl.
  exists (offer_made p now r). split; [reflexivity|]. repeat split. apply offer_checks. exact (proj1 (proj2 (I _ _ G))).
Qed.
Print Assumptions C84_offered.

(** Every known node has a check scheduled, as long as no node answers a ping with another kind of
    payload. *)
Theorem C84_scheduled_partial : forall es st rs, (forall ev a, In ev es -> answers_of ev = Some a -> ~ odd a) ->
  run no_peers es = Ok (st, rs) -> forall id, In id (map fst (peers st)) -> In id (map fst (checks st)).
Proof.
  intros es st rs O R. assert (A : forall s s' rs', inv s -> all_scheduled s -> run s es = Ok (s', rs') -> all_scheduled s').
  { clear st rs R. induction es as [|ev es IH]; intros s s' rs' H A R; [injection R as <- <-; exact A|].
    apply run_cons in R as (s1 & r & rs2 & S & R & ->). assert (H1 : inv s1). { destruct (step_inv s ev H) as (x & y & E & Hx). rewrite S in E. injection E as <- <-. exact Hx. }
    refine (IH _ s1 s' rs2 H1 _ R); [intros ev' a I; apply O; now right|]. exact (step_scheduled s ev s1 r H A S (fun a => O ev a (or_introl eq_refl))). }
  assert (X := A no_peers st rs inv_empty (fun id p (E : None = Some p) => ltac:(discriminate E)) R). intros id I.
  destruct (get id (peers st)) as [p|] eqn:G; [|apply get_none in G; contradiction]. specialize (X id p G).
  destruct (in_dec N.eq_dec id (map fst (checks st))) as [J|J]; [exact J|]. apply get_none in J. contradiction.
Qed.
Print Assumptions C84_scheduled_partial.
(** A known node that answers its due check with another kind of payload is never checked again,
    and so never forgotten, until a search happens to find it. *)
Theorem C84_scheduled_refuted : forall es st rs now id a t p,
  run no_peers es = Ok (st, rs) -> get id (peers st) = Some p -> get id (checks st) = Some t -> t <= now -> odd a ->
  exists st', step st (Due now id a) = Ok (st', Some Fail) /\
  forall later st'' rs', (forall ev, In ev later -> match ev with Found _ e _ => enr_id e <> id | _ => True end) ->
    run st' later = Ok (st'', rs') ->
    get id (checks st'') = None /\ exists q, get id (peers st'') = Some q /\ p_enr q = p_enr p /\ p_radius q = p_radius p /\ p_checks q = p_checks p.
Proof.
  intros es st rs now id a t p R Gp Gt Le O. destruct (run_inv es no_peers inv_empty) as (st2 & rs2 & R2 & H & _). rewrite R in R2. injection R2 as <- <-.
  assert (E : enr_id (p_enr p) = id) by (destruct H as (_ & _ & I & _); exact (proj1 (I _ _ Gp))).
  assert (Hd := inv_no_check st id H). cbn [step]. rewrite Gt. apply N.leb_le in Le. rewrite Le, Gp.
  destruct (check_cases _ now (p_enr p) a Hd) as (st4 & r4 & L4 & C4). rewrite L4. cbn [omap fst snd]. rewrite E in C4.
  destruct C4 as [(_ & _ & t' & Gt' & Lt)|(_ & C4)]; [cbn [checks] in Gt'; rewrite get_del, N.eqb_refl in Gt'; discriminate|].
  destruct C4 as [(-> & _ & ->)|[(-> & [Sx' _] & ->)|(e2 & c2 & rad2 & -> & Al2 & Id2 & ->)]]; [|contradiction|destruct (alive_not_odd _ _ _ _ _ Al2 O)].
  eexists. split; [reflexivity|]. set (sd := {| peers := peers st; checks := del id (checks st) |}) in *.
  assert (Q : get id (checks sd) = None /\ exists q, get id (peers sd) = Some q /\ p_enr q = p_enr p /\ p_radius q = p_radius p /\ p_checks q = p_checks p).
  { cbn [sd checks peers]. rewrite get_del, N.eqb_refl. split; [reflexivity|]. exists p. auto. }
  clearbody sd. clear - Hd Q E. intros later. revert sd Hd Q. induction later as [|ev later IH]; intros s Hs Q st'' rs' F R; [injection R as <- <-; exact Q|].
  apply run_cons in R as (s1 & r & rs2 & S & R & ->). assert (H1 : inv s1). { destruct (step_inv s ev Hs) as (x & y & Ex & Hx). rewrite S in Ex. injection Ex as <- <-. exact Hx. }
  refine (IH s1 H1 _ st'' rs2 (fun ev' I => F ev' (or_intror I)) R). clear IH R rs2. specialize (F ev (or_introl eq_refl)).
  assert (Other : forall s2 n e b s3 r3, inv s2 -> enr_id e <> id -> liveness_check s2 n e b = Ok (s3, r3) -> get id (peers s3) = get id (peers s2) /\ get id (checks s3) = get id (checks s2)).
  { clear. intros s2 n e b s3 r3 Hs D L. destruct (check_cases s2 n e b Hs) as (st4 & r4 & L4 & C4). rewrite L in L4. injection L4 as <- <-.
    assert (D' : (id =? enr_id e) = false) by (apply N.eqb_neq; congruence).
    destruct C4 as [(_ & -> & _)|(_ & [(_ & _ & ->)|[(_ & _ & ->)|(e' & c & rad & _ & _ & _ & ->)]])]; try (split; reflexivity).
    - unfold record_failed. destruct (get (enr_id e) (peers s2)) as [p|]; [destruct (is_obsolete _)|]; cbn [peers checks]; rewrite ?get_del, ?get_put, D'; split; reflexivity.
    - cbn [peers checks]. rewrite !get_put, D'. split; reflexivity. }
  destruct Q as (Qc & q & Gq & Q1 & Q2 & Q3). destruct ev as [n e b|n i b|n i o]; cbn [step] in S.
  - destruct (liveness_check s n e b) as [[s3 r3]| |] eqn:L; cbn [omap fst snd] in S; try discriminate. injection S as <- <-.
    destruct (Other _ _ _ _ _ _ Hs F L) as [-> ->]. split; [exact Qc|]. exists q. auto.
  - destruct (N.eq_dec i id) as [->|D]; [rewrite Qc in S; injection S as <- <-; split; [exact Qc|]; exists q; auto|].
    assert (D' : (id =? i) = false) by (apply N.eqb_neq; congruence).
    destruct (get i (checks s)) as [t|]; [|injection S as <- <-; split; [exact Qc|]; exists q; auto].
    destruct (t <=? n); [|injection S as <- <-; split; [exact Qc|]; exists q; auto].
    destruct (get i (peers s)) as [p'|] eqn:G; [|injection S as <- <-; cbn [peers checks]; rewrite get_del, D'; split; [exact Qc|]; exists q; auto].
    assert (Ei : enr_id (p_enr p') <> id) by (destruct Hs as (_ & _ & I & _); rewrite (proj1 (I _ _ G)); exact D).
    destruct (liveness_check _ n (p_enr p') b) as [[s3 r3]| |] eqn:L; cbn [omap fst snd] in S; try discriminate. injection S as <- <-.
    destruct (Other _ _ _ _ _ _ (inv_no_check s i Hs) Ei L) as [-> ->]. cbn [peers checks]. rewrite get_del, D'. split; [exact Qc|]. exists q. auto.
  - injection S as <- <-. unfold record_offer. destruct (get i (peers s)) as [p'|] eqn:G; [|split; [exact Qc|]; exists q; auto].
    cbn [peers checks]. split; [exact Qc|]. rewrite get_put. destruct (N.eqb_spec id i) as [<-|]; [|exists q; auto].
    assert (p' = q) by congruence. subst p'. exists (offer_made q n o). split; [reflexivity|]. split; [exact Q1|]. split; [exact Q2|].
    rewrite offer_checks; [exact Q3|]. destruct Hs as (_ & _ & I & _). exact (proj1 (proj2 (I _ _ Gq))).
Qed.
Print Assumptions C84_scheduled_refuted.

(** *** Setting up *)
(** An iteration checks every node its searches found, once, with the newest of its records. *)
Theorem C84_newest : forall es, NoDup (map enr_id (newest_records es)) /\
  (forall e, In e (newest_records es) -> In e es /\ forall x, In x es -> enr_id x = enr_id e -> enr_seq x <= enr_seq e) /\
  (forall x, In x es -> exists e, In e (newest_records es) /\ enr_id e = enr_id x).
Proof.
  intros es. split; [apply newest_nodup|]. split.
  - intros e H. apply newest_in in H as [H _]. pose proof (newest_of_spec (enr_id e) es) as X. rewrite H in X. destruct X as (_ & I & M). auto.
  - intros x I. pose proof (newest_of_spec (enr_id x) es) as X. destruct (newest_of (enr_id x) es) as [e|] eqn:E; [|destruct (X x I eq_refl)].
    destruct X as (Ee & _). exists e. split; [|exact Ee]. apply newest_in. rewrite Ee. split; [exact E|]. apply in_map_iff. exists x. auto.
Qed.
Print Assumptions C84_newest.
Local Open Scope Z_scope.
(** ... and at most 53 bits *)
Lemma exponent_upper n d : 0 < n -> 0 < d -> scaled_num n (exponent n d) < scaled_den d (exponent n d) * 2 ^ 53.
Proof.
  intros Hn Hd. unfold exponent. set (e := Z.log2 n - Z.log2 d - 53). pose proof (Z.log2_spec n Hn) as [_ Ln]. pose proof (Z.log2_spec d Hd) as [Ld _].
  pose proof (Z.log2_nonneg n). pose proof (Z.log2_nonneg d).
  destruct (_ <=? _) eqn:C; [|apply Z.leb_gt in C; exact C]. clear C. unfold scaled_den, scaled_num. destruct (0 <=? e + 1) eqn:E0.
  - apply Z.leb_le in E0. apply Z.lt_le_trans with (2 ^ Z.succ (Z.log2 n)); [exact Ln|]. replace (Z.succ (Z.log2 n)) with (Z.log2 d + (e + 1) + 53) by lia.
    rewrite !Z.pow_add_r by lia. pose proof (pow2_pos (e + 1) E0). nia.
  - apply Z.leb_gt in E0. apply Z.lt_le_trans with (2 ^ Z.succ (Z.log2 n) * 2 ^ (- (e + 1))); [pose proof (pow2_pos (- (e + 1))); nia|].
    rewrite <- Z.pow_add_r by lia. replace (Z.succ (Z.log2 n) + - (e + 1)) with (Z.log2 d + 53) by lia. rewrite Z.pow_add_r by lia. nia.
Qed.
Local Close Scope Z_scope.
Local Open Scope Q_scope.
(** What is an integer, or above it by at most one part in 2^54, becomes the integer *)
Lemma round53_integer q k : (0 < k < 2 ^ 51)%Z -> inject_Z k <= q -> (q - inject_Z k) * inject_Z (2 ^ 54) <= inject_Z k -> round53 q == inject_Z k.
Proof.
  intros K L U. destruct q as [n p]. unfold round53. cbn [Qnum Qden].
  assert (L1 : (k * Zpos p <= n)%Z). { unfold Qle, inject_Z in L. cbn in L. lia. }
  assert (U1 : ((n - k * Zpos p) * 2 ^ 54 <= k * Zpos p)%Z).
  { unfold Qle, Qminus, Qplus, Qmult, Qopp, inject_Z in U. cbn [Qnum Qden] in U. rewrite ?Pos.mul_1_r in U. lia. }
  clear L U. assert (N0 : (0 < n)%Z) by nia. assert ((n <=? 0)%Z = false) as -> by (apply Z.leb_gt; exact N0).
  pose proof (exponent_bound n (Zpos p) N0 eq_refl) as B. pose proof (exponent_upper n (Zpos p) N0 eq_refl) as C. set (e := exponent n (Z.pos p)) in *. clearbody e.
  unfold scaled_num, scaled_den, scale_back in *. set (d := Zpos p) in *. assert (D : (0 < d)%Z) by (unfold d; lia). clearbody d.
  destruct (0 <=? e)%Z eqn:E.
  - exfalso. apply Z.leb_le in E. pose proof (pow2_pos e E) as P. change (2 ^ 54)%Z with 18014398509481984%Z in U1. change (2 ^ 51)%Z with 2251799813685248%Z in K. change (2 ^ 52)%Z with 4503599627370496%Z in B.
    assert (d * 4503599627370496 <= n)%Z by nia. nia.
  - apply Z.leb_gt in E. pose proof (pow2_pos (- e) ltac:(lia)) as P. set (t := (2 ^ (- e))%Z) in *. clearbody t.
    assert (R : div_nearest_even (n * t) d = (k * t)%Z).
    { unfold div_nearest_even. assert (KT : (k * t < 2 ^ 53)%Z) by nia.
      assert (R2 : (2 * ((n - k * d) * t) < d)%Z). { change (2 ^ 54)%Z with (2 * 2 ^ 53)%Z in U1. set (w := (2 ^ 53)%Z) in *. assert (0 < w)%Z by (unfold w; lia). clearbody w. nia. }
      assert (R0 : (0 <= (n - k * d) * t)%Z) by nia.
      assert (Q1 : (n * t / d = k * t)%Z) by (symmetry; apply (Z.div_unique_pos _ _ _ ((n - k * d) * t)); [lia|ring]).
      assert (Q2 : ((n * t) mod d = (n - k * d) * t)%Z) by (symmetry; apply (Z.mod_unique_pos _ _ (k * t)); [lia|ring]).
      rewrite Q1, Q2. apply Z.ltb_lt in R2. rewrite R2. reflexivity. }
    rewrite R. unfold Qeq, inject_Z. cbn [Qnum Qden]. rewrite Z2Pos.id by exact P. lia.
Qed.
Local Close Scope Q_scope.
(** The search for nodes goes on while at least a tenth of the nodes known after an iteration are
    new, and stops when fewer are. *)
Lemma limit_bounds n : n < 2 ^ 50 ->
  (inject_Z (Z.of_N n) * (1 # 10) - (1 # 11) < fmul (f64_of n) (flit (1 # 10)) /\ fmul (f64_of n) (flit (1 # 10)) < inject_Z (Z.of_N n) * (1 # 10) + (1 # 11))%Q.
Proof.
  intros L. set (q := inject_Z (Z.of_N n)).
  assert (Q0 : (0 <= q)%Q) by (unfold q; change 0%Q with (inject_Z 0); rewrite <- Zle_Qle; lia).
  assert (Q1 : (q <= inject_Z (2 ^ 50))%Q) by (unfold q; rewrite <- Zle_Qle; lia). change (inject_Z (2 ^ 50)) with (1125899906842624 # 1)%Q in Q1.
  unfold fmul, f64_of, flit. fold q. destruct (round53_bounds q Q0) as (A1 & A2 & A3).
  destruct (round53_bounds (1 # 10) ltac:(discriminate)) as (B1 & B2 & B3).
  set (x := round53 q) in *. set (y := round53 (1 # 10)) in *. clearbody x y.
  assert (P : (0 <= x * y)%Q) by (apply Qmult_le_0_compat; assumption).
  destruct (round53_bounds (x * y) P) as (C1 & C2 & _). set (z := round53 (x * y)) in *. clearbody z q.
  unfold u in *. change (2 ^ 53)%positive with 9007199254740992%positive in *.
  assert (U : (x * y <= q * (1 + (1 # 9007199254740992)) * ((1 # 10) * (1 + (1 # 9007199254740992))))%Q) by (apply Qmult_le_compat_nonneg; split; lra).
  assert (V : (q * (1 - (1 # 9007199254740992)) * ((1 # 10) * (1 - (1 # 9007199254740992))) <= x * y)%Q) by (apply Qmult_le_compat_nonneg; split; lra).
  set (w := (x * y)%Q) in *. clearbody w. split; lra.
Qed.
Lemma enough_apart : forall s n, n < 2 ^ 50 ->
  ((10 * (Z.of_N n - Z.of_N s) < Z.of_N n)%Z -> enough s n = true) /\
  ((10 * (Z.of_N n - Z.of_N s) > Z.of_N n)%Z -> enough s n = false).
Proof.
  intros s n L. destruct (limit_bounds n L) as [A B]. unfold enough. set (l := fmul _ _) in *. clearbody l.
  set (d := (Z.of_N n - Z.of_N s)%Z) in *. set (m := Z.of_N n) in *. clearbody d m.
  split; intros H.
  - assert (X : (inject_Z (10 * d + 1) <= inject_Z m)%Q) by (rewrite <- Zle_Qle; lia). rewrite inject_Z_plus, inject_Z_mult in X.
    change (inject_Z 10) with 10%Q in X. change (inject_Z 1) with 1%Q in X. destruct (Qle_bool l (inject_Z d)) eqn:E; [|reflexivity].
    apply Qle_bool_iff in E. exfalso. lra.
  - assert (X : (inject_Z (m + 1) <= inject_Z (10 * d))%Q) by (rewrite <- Zle_Qle; lia). rewrite inject_Z_plus, inject_Z_mult in X.
    change (inject_Z 10) with 10%Q in X. change (inject_Z 1) with 1%Q in X. assert (E : Qle_bool l (inject_Z d) = true) by (apply Qle_bool_iff; lra).
    rewrite E. reflexivity.
Qed.
Lemma enough_tenth k : (0 <= k < 2 ^ 46)%Z -> (fmul (f64_of (Z.to_N (10 * k))) (flit (1 # 10)) == inject_Z k)%Q.
Proof.
  intros K. destruct (Z.eq_dec k 0) as [->|K0]; [vm_compute; reflexivity|]. unfold fmul, f64_of. rewrite Z2N.id by lia.
  assert (X : (round53 (inject_Z (10 * k)) == inject_Z (10 * k))%Q).
  { apply round53_integer; [change (2 ^ 51)%Z with (32 * 2 ^ 46)%Z; lia|apply Qle_refl|]. setoid_replace (inject_Z (10 * k) - inject_Z (10 * k))%Q with 0%Q by ring. rewrite Qmult_0_l. change 0%Q with (inject_Z 0). rewrite <- Zle_Qle. lia. }
  assert (Y : (flit (1 # 10) == 3602879701896397 # 36028797018963968)%Q) by (vm_compute; reflexivity).
  set (x := round53 (inject_Z (10 * k))) in *. set (y := flit (1 # 10)) in *. clearbody x y.
  assert (P : (x * y - inject_Z k == inject_Z k * (1 # 18014398509481984))%Q) by (rewrite X, Y, inject_Z_mult; change (inject_Z 10) with 10%Q; field).
  assert (K1 : (0 <= inject_Z k)%Q) by (change 0%Q with (inject_Z 0); rewrite <- Zle_Qle; lia).
  apply round53_integer; [change (2 ^ 51)%Z with (32 * 2 ^ 46)%Z; lia| |].
  - assert (0 <= inject_Z k * (1 # 18014398509481984))%Q by lra. lra.
  - rewrite P. change (inject_Z (2 ^ 54)) with (18014398509481984 # 1)%Q. apply Qle_lteq. right. field.
Qed.
Theorem C84_enough : forall s n, n < 2 ^ 49 -> (* before and after an iteration *)
  enough s n = true <-> (10 * (Z.of_N n - Z.of_N s) < Z.of_N n)%Z.
Proof.
  intros s n L. destruct (enough_apart s n) as [A B]; [change (2 ^ 50) with (2 * 2 ^ 49); lia|]. split; [|exact A]. intros E.
  destruct (Z.lt_trichotomy (10 * (Z.of_N n - Z.of_N s)) (Z.of_N n)) as [H|[H|H]]; [exact H| |rewrite B in E by lia; discriminate]. exfalso.
  set (k := (Z.of_N n - Z.of_N s)%Z) in *. assert (N1 : n = Z.to_N (10 * k)) by lia.
  assert (K : (0 <= k < 2 ^ 46)%Z). { assert (Z.of_N n < 2 ^ 49)%Z by lia. change (2 ^ 49)%Z with (8 * 2 ^ 46)%Z in *. lia. }
  pose proof (enough_tenth k K) as T. rewrite <- N1 in T. unfold enough in E. fold k in E. assert (Q : Qle_bool (fmul (f64_of n) (flit (1 # 10))) (inject_Z k) = true) by (apply Qle_bool_iff; rewrite T; apply Qle_refl).
  rewrite Q in E. discriminate.
Qed.
Print Assumptions C84_enough.
(** With no node known before and after an iteration the search goes on: it does not stop, and does
    not report that there are no peers, however long none of the nodes found answers as expected. *)
Theorem C84_init_refuted : forall rs, (forall r e, In r rs -> In e (r_found r) -> forall e' c rad, ~ alive e (r_ask r e) e' c rad) ->
  init no_peers rs = Ok (None, no_peers).
Proof.
  induction rs as [|r rs IH]; intros H; [reflexivity|]. cbn [init].
  assert (R : run_round no_peers r = Ok no_peers).
  { unfold run_round. set (es := newest_records (r_found r)).
    assert (X : forall l, (forall e, In e l -> In e (r_found r)) -> exists rr, run no_peers (map (fun e => Found (r_now r) e (r_ask r e)) l) = Ok (no_peers, rr)).
    { induction l as [|e l IHl]; intros Hl; [exists []; reflexivity|]. destruct (IHl (fun x I => Hl x (or_intror I))) as (rr & Rl). cbn [map run step].
      destruct (check_cases no_peers (r_now r) e (r_ask r e) inv_empty) as (st' & r' & L & C). rewrite L. cbn [omap obind fst snd].
      assert (st' = no_peers) as ->.
      { destruct C as [(_ & -> & _)|(_ & [(_ & _ & ->)|[(_ & _ & ->)|(e' & c & rad & _ & Al & _)]])]; try reflexivity.
        destruct (H r e (or_introl eq_refl) (Hl e (or_introl eq_refl)) _ _ _ Al). }
      rewrite Rl. cbn [omap fst snd]. eexists. reflexivity. }
    destruct (X es) as (rr & E); [|rewrite E; reflexivity]. intros e I. exact (proj1 (proj1 (proj2 (C84_newest (r_found r))) e I)). }
  rewrite R. cbn [obind]. replace (enough (blen (peers no_peers)) (blen (peers no_peers))) with false by (vm_compute; reflexivity).
  apply IH. intros r' e I. apply H. now right.
Qed.
Print Assumptions C84_init_refuted.
(** If setting up ends well, nodes are known.  It fails only if nodes were known before the last
    iteration and all of them were forgotten in it; in particular never in the first one. *)
Theorem C84_init_result : forall rs b st, init no_peers rs = Ok (Some b, st) ->
  if b then peers st <> []
  else peers st = [] /\ exists before r st1, init no_peers before = Ok (None, st1) /\ peers st1 <> [] /\ run_round st1 r = Ok st.
Proof.
  assert (X : forall rs done st0 b st, init no_peers done = Ok (None, st0) -> init st0 rs = Ok (Some b, st) ->
    if b then peers st <> [] else peers st = [] /\ exists before r st1, init no_peers before = Ok (None, st1) /\ peers st1 <> [] /\ run_round st1 r = Ok st).
  { induction rs as [|r rs IH]; intros done st0 b st D E; [discriminate|]. cbn [init] in E. destruct (run_round st0 r) as [st1| |] eqn:R; cbn [obind] in E; try discriminate.
    destruct (enough _ _) eqn:En.
    - injection E as <- <-. destruct (peers st1) as [|x l] eqn:P; cbn; [|discriminate]. split; [reflexivity|]. exists done, r, st0.
      split; [exact D|]. split; [|exact R]. intros P0. rewrite P0 in En. vm_compute in En. discriminate.
    - refine (IH (done ++ [r]) st1 b st _ E). clear E IH b st rs. revert D. generalize no_peers as s0. induction done as [|d done IHd]; intros s0 D.
      + injection D as ->. cbn [app init]. rewrite R. cbn [obind]. rewrite En. reflexivity.
      + cbn [app init] in *. destruct (run_round s0 d) as [s1| |]; cbn [obind] in *; try discriminate. destruct (enough (blen (peers s0)) (blen (peers s1))); [discriminate|].
        exact (IHd s1 D). }
  intros rs b st E. exact (X rs [] no_peers b st eq_refl E).
Qed.
Print Assumptions C84_init_result.

(** A node that answers, one that is silent until forgotten, and one whose answer is odd. *)
Definition node (id seq : N) : enr := {| enr_id := id; enr_seq := seq; enr_rest := [] |}.
Definition good (seq radius : N) (records : list enr) : answers :=
  {| pong := Ok (seq, Capabilities, payload_of (ECapabilities None radius [Capabilities])); own_records := Ok records |}.
Definition none : answers := {| pong := Err; own_records := Err |}.
Definition strange : answers := {| pong := Ok (1, BasicRadius, payload_of (EBasicRadius 7)); own_records := Err |}.
Example C84_answers_example : alive (node 5 1) (good 1 9 []) (node 5 1) None 9 /\ alive (node 5 1) (good 3 9 [node 6 8; node 5 2]) (node 5 2) None 9 /\
  silent (node 5 1) none /\ odd strange.
Proof.
  split; [|split; [|split]].
  - exists 1, Capabilities, (payload_of (ECapabilities None 9 [Capabilities])), [Capabilities]. split; [reflexivity|]. split; [vm_compute; reflexivity|]. left. split; [cbn; lia|reflexivity].
  - exists 3, Capabilities, (payload_of (ECapabilities None 9 [Capabilities])), [Capabilities]. split; [reflexivity|]. split; [vm_compute; reflexivity|]. right. split; [cbn; lia|].
    exists [node 6 8], []. split; [reflexivity|]. split; [reflexivity|]. intros x [<-|[]]. discriminate.
  - split; [intros (s & t & b & H & _); discriminate|intros e' c r (s & t & b & l & H & _); discriminate].
  - exists 1, BasicRadius, (payload_of (EBasicRadius 7)). split; [reflexivity|]. intros c r l. vm_compute. discriminate.
Qed.
Example C84_example :
  let minute := 60000 in
  let es := [Found 0 (node 5 1) (good 3 9 [node 5 2]); Found 10 (node 6 1) (good 1 4 []); Found 20 (node 7 1) none; Found 30 (node 5 1) none;
             Due (5 * minute) 5 (good 2 8 []); Due (6 * minute) 6 strange; Due (11 * minute) 6 none]
            ++ map (fun k => Due ((5 * k + 11) * minute) 5 none) [0; 1; 2; 3; 4; 5; 6; 7; 8] in
  exists st, run no_peers es = Ok (st, [Some Pass; Some Pass; Some Fail; Some Fresh; Some Pass; Some Fail; None] ++ repeat (Some Fail) 9) /\
    map fst (peers st) = [5; 6] /\ map fst (checks st) = [5] /\ option_map p_radius (get 5 (peers st)) = Some 8 /\ option_map p_enr (get 5 (peers st)) = Some (node 5 2) /\
  exists st', run st [Due (66 * minute) 5 none] = Ok (st', [Some Fail]) /\ map fst (peers st') = [6] /\ checks st' = [].
Proof. eexists. split; [vm_compute; reflexivity|]. repeat (split; [vm_compute; reflexivity|]). eexists. split; [vm_compute; reflexivity|]. split; vm_compute; reflexivity. Qed.
Example C84_init_example :
  let r := fun l => {| r_found := l; r_now := 0; r_ask := fun e => if enr_id e =? 5 then good 1 9 [] else none |} in
  exists st, init no_peers [r [node 6 1]; r []; r [node 5 1; node 6 1; node 5 1]; r [node 6 1]; r [node 9 9]] = Ok (Some true, st) /\ map fst (peers st) = [5].
Proof. eexists. split; vm_compute; reflexivity. Qed.

(** ** C85 *)
Lemma count_cons {A} f (x : A) l : count f (x :: l) = ((if f x then 1 else 0) + count f l)%Z.
Proof. unfold count. cbn [filter]. destruct (f x); cbn [length]; lia. Qed.
Ltac codes := repeat match goal with |- context [code_in ?l (?k ?c)] => let v := eval vm_compute in (code_in l (k c)) in change (code_in l (k c)) with v
  | |- context [code_in ?l None] => change (code_in l None) with false end; cbn [code_weight negb]; cbv iota beta.
Lemma recent_within now t : recent now t = within now t.
Proof. unfold recent, within, timeframe. destruct (N.leb_spec (now - t) 900000), (N.leb_spec now (t + 900000)); lia. Qed.
Lemma filter_recent {A} now (l : list (A * N)) : filter (fun c => recent now (snd c)) l = filter (fun c => within now (snd c)) l.
Proof. apply filter_ext. intros. apply recent_within. Qed.
Lemma live_sum l : zsum (map (fun c : bool * N => if fst c then success_weight else failure_weight) l) = (5 * count (fun b => b) (map fst l) - 10 * count negb (map fst l))%Z.
Proof.
  induction l as [|[b n] l IH]; [reflexivity|]. cbn [map]. rewrite !count_cons. unfold zsum in *. cbn [fold_right fst]. rewrite IH.
  unfold success_weight, failure_weight. destruct b; cbn [negb]; lia.
Qed.
Lemma offer_sum l : zsum (map (fun o : option accept_code * N => match fst o with Some c => code_weight c | None => failure_weight end) l) =
  (5 * count (code_in [Accepted]) (map fst l) - 2 * count (code_in [RateLimited; InboundTransferInProgress]) (map fst l)
   - 5 * count (code_in [Declined; Unspecified]) (map fst l) - 10 * count (code_in [NotWithinRadius]) (map fst l)
   - 10 * count (fun o => match o with None => true | _ => false end) (map fst l))%Z.
Proof.
  induction l as [|[o n] l IH]; [reflexivity|]. cbn [map]. rewrite !count_cons. unfold zsum in *. cbn [fold_right fst]. rewrite IH.
  destruct o as [[]|]; codes; unfold failure_weight; lia.
Qed.
Lemma interested_iff p key : match key with Some k => negb (is_interested p k) | None => false end = false <-> wants p key.
Proof.
  unfold wants, is_interested. destruct key as [[b id]|]; cbn [fst snd].
  - destruct b.
    + split; [intros H i [= <-]; apply Bool.negb_false_iff in H; now apply N.leb_le|]. intros H. apply Bool.negb_false_iff, N.leb_le, H. reflexivity.
    + split; [discriminate|reflexivity].
  - split; [discriminate|reflexivity].
Qed.
(** The weight of a node is its score of the last fifteen minutes, at least 0 and at most 400; it is
    0 if the content is outside its radius. *)
Theorem C85_weight : forall now key p,
  (wants p key -> weight now key p = Z.max 0 (Z.min 400 (score now p))) /\ (~ wants p key -> weight now key p = 0%Z) /\ (0 <= weight now key p <= 400)%Z.
Proof.
  intros now key p. pose proof (interested_iff p key) as I. assert (A : wants p key -> weight now key p = Z.max 0 (Z.min 400 (score now p))).
  { intros W. apply I in W. unfold weight. rewrite W. rewrite !filter_recent, live_sum, offer_sum. unfold score, starting_weight, maximum_weight. lia. }
  assert (B : ~ wants p key -> weight now key p = 0%Z).
  { intros W. unfold weight. destruct (match key with Some k => negb (is_interested p k) | None => false end); [reflexivity|]. exfalso. apply W, I. reflexivity. }
  split; [exact A|]. split; [exact B|]. unfold weight. destruct (match key with Some k => negb (is_interested p k) | None => false end); unfold maximum_weight; lia.
Qed.
Print Assumptions C85_weight.
(** Nothing overflows: the sums over any part of the checks and offers of a node are small. *)
Theorem C85_small : forall es st rs id p now key cs os, run no_peers es = Ok (st, rs) -> In (id, p) (peers st) ->
  (exists c', p_checks p = cs ++ c') -> (exists o', p_offers p = os ++ o') ->
  (-3000 <= zsum (map (fun c : bool * N => if fst c then success_weight else failure_weight) (filter (fun c => recent now (snd c)) cs)) <= 3000)%Z /\
  (-3000 <= zsum (map (fun o : option accept_code * N => match fst o with Some c => code_weight c | None => failure_weight end) (filter (fun o => recent now (snd o)) os)) <= 3000)%Z /\
  (-7000 <= score now p <= 7000)%Z /\ (Z.of_N (blen (peers st)) * weight now key p <= 400 * Z.of_N (blen (peers st)))%Z.
Proof.
  intros es st rs id p now key cs os R I (c' & Ec) (o' & Eo). destruct (C84_sound es) as (st2 & rs2 & R2 & _ & _ & S & _). rewrite R in R2. injection R2 as <- <-.
  destruct (S _ _ I) as (_ & L1 & L2 & _).
  assert (A : forall l, (length l <= 10)%nat -> (-3000 <= zsum (map (fun c : bool * N => if fst c then success_weight else failure_weight) (filter (fun c => recent now (snd c)) l)) <= 3000)%Z).
  { intros l Ll. pose proof (filter_len (fun c : bool * N => recent now (snd c)) l).
    pose proof (zsum_range (fun c : bool * N => if fst c then success_weight else failure_weight) (-10)%Z 10%Z (filter (fun c => recent now (snd c)) l)) as Z1.
    assert (Z2 := Z1 ltac:(intros [[] n]; unfold success_weight, failure_weight; cbn; lia)). lia. }
  assert (B : forall l, (length l <= 255)%nat -> (-3000 <= zsum (map (fun o : option accept_code * N => match fst o with Some c => code_weight c | None => failure_weight end) (filter (fun o => recent now (snd o)) l)) <= 3000)%Z).
  { intros l Ll. pose proof (filter_len (fun c : option accept_code * N => recent now (snd c)) l).
    pose proof (zsum_range (fun o : option accept_code * N => match fst o with Some c => code_weight c | None => failure_weight end) (-10)%Z 10%Z (filter (fun c => recent now (snd c)) l)) as Z1.
    assert (Z2 := Z1 ltac:(intros [[[]|] n]; cbn; unfold failure_weight; lia)). lia. }
  assert (La : (length (p_checks p) <= 10)%nat) by (unfold blen in L1; lia). assert (Lb : (length (p_offers p) <= 255)%nat) by (unfold blen in L2; lia).
  split; [apply A; rewrite Ec, app_length in La; lia|]. split; [apply B; rewrite Eo, app_length in Lb; lia|]. split.
  - specialize (A _ La). specialize (B _ Lb). rewrite filter_recent, live_sum in A. rewrite filter_recent, offer_sum in B. unfold score. cbv zeta. lia.
  - destruct (C85_weight now key p) as (_ & _ & W). nia.
Qed.
Print Assumptions C85_small.
(** A node that wants the content is left out only after at least twenty troubles in the last fifteen
    minutes. *)
Theorem C85_left_out : forall now key p, wants p key -> weight now key p = 0%Z -> (20 <= troubles now p)%Z.
Proof.
  intros now key p W Z. destruct (C85_weight now key p) as (E & _). rewrite (E W) in Z. assert (S : (score now p <= 0)%Z) by lia. clear E Z W.
  unfold score in S. unfold troubles.
  assert (A : forall l : list (bool * N), (count negb (map fst (filter (fun c => within now (snd c)) l)) <= count (fun c => within now (snd c) && negb (fst c)) l)%Z /\ (0 <= count (fun b => b) (map fst (filter (fun c => within now (snd c)) l)))%Z).
  { intros l. split; [|unfold count; lia]. induction l as [|[b n] l IH]; [unfold count; cbn [map filter length]; lia|]. cbn [filter snd]. rewrite count_cons. cbn [fst snd]. destruct (within now n); cbn [map andb fst]; rewrite ?count_cons; lia. }
  assert (B : forall l : list (option accept_code * N), let os := map fst (filter (fun o => within now (snd o)) l) in
    (count (code_in [RateLimited; InboundTransferInProgress]) os + count (code_in [Declined; Unspecified]) os + count (code_in [NotWithinRadius]) os + count (fun o => match o with None => true | _ => false end) os
     <= count (fun o => within now (snd o) && negb (code_in [Accepted; AlreadyStored] (fst o))) l)%Z /\ (0 <= count (code_in [Accepted]) os)%Z).
  { intros l os. split; [|unfold count; lia]. subst os. induction l as [|[o n] l IH]; [unfold count; cbn [map filter length]; lia|]. cbn [filter snd]. rewrite count_cons. cbn [fst snd]. destruct (within now n); cbn [map andb fst]; [|lia].
    rewrite !count_cons. destruct o as [[]|]; codes; lia. }
  destruct (A (p_checks p)) as [A1 A2]. destruct (B (p_offers p)) as [B1 B2]. unfold count in *. lia.
Qed.
Print Assumptions C85_left_out.
(** A selection for content: different known nodes, all of which want the content and have a positive
    weight, as many as there are up to the limit. *)
Theorem C85_selected : forall choose limit es st rs now key, (forall A, chooses (A := A) (choose A)) -> run no_peers es = Ok (st, rs) ->
  (peers st = [] -> select_peers (choose _) limit st now key = Err) /\
  (peers st <> [] -> exists chosen others, select_peers (choose _) limit st now key = Ok (map (fun x : N * peer => (p_enr (snd x), p_client (snd x))) chosen) /\
     Permutation (chosen ++ others) (filter (fun x : N * peer => (0 <? weight now key (snd x))%Z) (peers st)) /\
     blen chosen = N.min limit (blen (chosen ++ others)) /\ NoDup (map fst chosen) /\
     (forall id p, In (id, p) chosen -> In (id, p) (peers st) /\ enr_id (p_enr p) = id /\ wants p key /\ (0 < score now p)%Z) /\
     (forall id p, In (id, p) (peers st) -> wants p key -> (0 < score now p)%Z -> blen chosen < limit -> In (id, p) chosen)).
Proof.
  intros choose limit es st rs now key Ch R. destruct (C84_sound es) as (st2 & rs2 & R2 & _ & Nd & S & _). rewrite R in R2. injection R2 as <- <-.
  split; [intros E; unfold select_peers; rewrite E; reflexivity|]. intros Ne. unfold select_peers.
  destruct (peers st) as [|x0 l0] eqn:P0; [congruence|]. rewrite <- P0 in *. clear Ne. replace (blen (peers st) =? 0) with false by (rewrite P0; reflexivity).
  clear P0 x0 l0. set (f := fun x : N * peer => (snd x, weight now key (snd x))).
  set (good := filter (fun x : N * peer => (0 <? weight now key (snd x))%Z) (peers st)).
  assert (Ef : filter (fun x => (0 <? snd x)%Z) (map f (peers st)) = map f good).
  { unfold good. clear. induction (peers st) as [|x l IH]; [reflexivity|]. cbn [map filter]. change (snd (f x)) with (weight now key (snd x)). destruct (0 <? weight now key (snd x))%Z; cbn [map]; rewrite <- IH; reflexivity. }
  rewrite Ef. destruct (Ch _ limit (map f good)) as (left & Pm & Ln). set (sel := choose (peer * Z)%type limit (map f good)) in *. clearbody sel.
  assert (X : exists c o, map f c = sel /\ map f o = left /\ Permutation (c ++ o) good).
  { destruct (Permutation_map_inv _ _ Pm) as (g & Eg & Pg). symmetry in Eg. apply map_eq_app in Eg as (c & o & -> & E1 & E2). exists c, o. split; [auto|]. split; [auto|]. now apply Permutation_sym. }
  destruct X as (c & o & <- & <- & Pc). exists c, o. split; [rewrite map_map; reflexivity|]. split; [exact Pc|].
  assert (Ln' : blen c = N.min limit (blen (c ++ o))).
  { unfold blen in *. rewrite !map_length in Ln. rewrite Ln. f_equal. f_equal. symmetry. apply Permutation_length, Pc. }
  split; [exact Ln'|]. assert (Gd : forall x : N * peer, In x good <-> In x (peers st) /\ (0 < weight now key (snd x))%Z).
  { intros x. unfold good. rewrite filter_In, Z.ltb_lt. reflexivity. }
  assert (Wt : forall id p, In (id, p) (peers st) -> ((0 < weight now key p)%Z <-> wants p key /\ (0 < score now p)%Z)).
  { intros id p I. destruct (C85_weight now key p) as (A & B & _). split.
    - intros H. assert (W : wants p key) by (destruct (match key with Some k => negb (is_interested p k) | None => false end) eqn:E; [exfalso; unfold weight in H; rewrite E in H; lia|now apply interested_iff]).
      split; [exact W|]. rewrite (A W) in H. lia.
    - intros [W H]. rewrite (A W). lia. }
  split; [|split].
  - assert (Nf : NoDup (map fst (c ++ o))).
    { eapply Permutation_NoDup; [apply Permutation_map, Permutation_sym, Pc|]. unfold good. clear - Nd. induction (peers st) as [|x l IH]; [constructor|]. cbn [map] in Nd. inversion Nd as [|? ? Ni Nd']; subst.
      cbn [filter]. destruct (_ <? _)%Z; [|exact (IH Nd')]. cbn [map]. constructor; [|exact (IH Nd')]. intros H. apply Ni. apply in_map_iff in H as (y & Ey & Iy). apply filter_In in Iy as [Iy _]. apply in_map_iff. exists y. auto. }
    rewrite map_app in Nf. clear - Nf. induction (map fst c) as [|x l IH]; [constructor|]. cbn [app] in Nf. inversion Nf as [|? ? Ni Nd']; subst. constructor; [|exact (IH Nd')]. intros H. apply Ni, in_or_app. now left.
  - intros id p I. assert (Ig : In (id, p) good) by (apply (Permutation_in _ Pc), in_or_app; now left). apply Gd in Ig as [Ip W]. split; [exact Ip|]. split; [exact (proj1 (S _ _ Ip))|]. exact (proj1 (Wt id p Ip) W).
  - intros id p I W Sc Lt. assert (o = []) as ->.
    { rewrite Ln' in Lt. assert (blen (c ++ o) < limit) by lia. assert (blen c = blen (c ++ o)) by lia. rewrite blen_app in H0. destruct o; [reflexivity|]. rewrite blen_cons in H0. lia. }
    rewrite app_nil_r in Pc. apply (Permutation_in _ (Permutation_sym Pc)), Gd. split; [exact I|]. apply (Wt id p I). auto.
Qed.
Print Assumptions C85_selected.
Example C85_example :
  let es := [Found 0 (node 5 1) (good 1 9 []); Found 0 (node 6 1) (good 1 1 [])] ++ repeat (Offered 1000 5 (Some RateLimited)) 3 ++ [Offered 1000 5 None] in
  exists st, run no_peers es = Ok (st, [Some Pass; Some Pass; None; None; None; None]) /\
    map (fun x => (fst x, weight 2000 (Some (true, 12)) (snd x))) (peers st) = [(5, 189%Z); (6, 0%Z)] /\
    map (fun x => (fst x, weight 2000 None (snd x))) (peers st) = [(5, 189%Z); (6, 205%Z)] /\
    map (fun x => (fst x, weight 900500 None (snd x))) (peers st) = [(5, 184%Z); (6, 200%Z)] /\
    select_peers (fun n l => firstn (N.to_nat n) l) 4 st 2000 (Some (true, 12)) = Ok [(node 5 1, None)].
Proof. eexists. split; [vm_compute; reflexivity|]. repeat split; vm_compute; reflexivity. Qed.
Example C85_choose_example : forall A, chooses (A := A) (fun n l => firstn (N.to_nat n) l).
Proof. intros A n l. exists (skipn (N.to_nat n) l). split; [rewrite firstn_skipn; apply Permutation_refl|]. unfold blen. rewrite firstn_length. lia. Qed.
