(** Properties of the routing table. *)
From Verif Require Import Base.
From Verif Require Import Distance_Model Distance_Proofs Sort_Model Query_Proofs KBucket_Model KBucket_Spec KBucket_Proofs.

Section Props.
Variable local : N.

(** ** C54 *)
(** After any history no node has two entries, and the local node has none. *)
Theorem C54_one_entry : forall st t, reach local st t -> NoDup (map s_id (tbl st)) /\ ~ In local (map s_id (tbl st)).
Proof. intros st t H. exact (reach_wf local st t H). Qed.

(** A stored record changes only when a record of that node with a larger sequence number is
    discovered, and then to that record. *)
Theorem C54_newest : forall st t o s s', reach local st t -> (forall t', o = Bucket t' -> drift (tbl st) t') ->
  ~ by_hand o -> one_record o ->
  In s (tbl st) -> In s' (tbl (fst (step local st o))) -> s_id s' = s_id s ->
  n_enr (s_node s') = n_enr (s_node s) \/
  exists e f, o = Discovered [(e, f)] /\ enr_id e = s_id s /\ enr_seq (n_enr (s_node s)) < enr_seq e /\ n_enr (s_node s') = e.
Proof.
  intros st t o s s' H D Hh H1 Hs Hs' E. pose proof (reach_wf local st t H) as W. symmetry in E.
  assert (Eq : s' = s -> n_enr (s_node s') = n_enr (s_node s)) by congruence.
  destruct o as [l|source seq x f|source cached f|source f|id f|e c f|id|e f|id|t']; cbn [step fst] in Hs'; try (now destruct Hh).
  - destruct H1 as [[e f] ->]. unfold process_discovered in Hs'. cbn [filter fst] in Hs'.
    destruct (negb (enr_id e =? local)) eqn:L; cbn [discovered tbl] in Hs'; [|left; apply Eq; symmetry; now apply (wf_same local (tbl st))].
    destruct (present_or_pending (enr_id e) (tbl st)) as [n|] eqn:P.
    + destruct (enr_seq (n_enr n) <? enr_seq e) eqn:Q; [|left; apply Eq; symmetry; now apply (wf_same local (tbl st))].
      pose proof (update_node_pair local (tbl st) (set_enr n e) f s s' W Hs) as X.
      destruct (update_node local (tbl st) (set_enr n e) f) as [t2 ok]. cbn [tbl fst] in *.
      destruct (X Hs' E) as [Y|[Y1 Y2]]; [left; now apply Eq|]. cbn [set_enr n_enr] in Y2.
      rewrite (lookup_node local (tbl st) (enr_id e) s W Hs (eq_sym Y2)) in P. injection P as <-.
      right. exists e, f. split; [reflexivity|]. split; [exact Y2|]. split; [now apply N.ltb_lt|]. now rewrite Y1.
    + pose proof (insert_or_update_pair local (tbl st) (new_node e) false false f s s' W Hs) as X.
      destruct (insert_or_update local (tbl st) (new_node e) false false f) as [t2 r]. cbn [tbl fst] in *.
      destruct (X Hs' E) as [Y|[Y1 Y2]]; [left; now apply Eq|]. cbn [new_node n_enr] in Y2.
      rewrite (lookup_node local (tbl st) (enr_id e) s W Hs (eq_sym Y2)) in P. discriminate P.
  - left. unfold process_ping in Hs'. destruct (present_or_pending source (tbl st)) as [n|] eqn:P; [|apply Eq; symmetry; now apply (wf_same local (tbl st))].
    destruct x as [x|]; [|apply Eq; symmetry; now apply (wf_same local (tbl st))].
    destruct (handle_extension x n) as [n'|] eqn:X; [|apply Eq; symmetry; now apply (wf_same local (tbl st))].
    cbn [tbl fst] in Hs'. destruct (update_node_pair local _ _ _ _ _ W Hs Hs' E) as [Y|[Y1 Y2]]; [now apply Eq|].
    apply handle_enr in X. destruct X as [X _]. rewrite Y1, X. f_equal.
    unfold present_or_pending in P. destruct (lookup source (tbl st)) as [a|] eqn:L; [|discriminate]. injection P as <-.
    f_equal. apply lookup_some in L. apply (wf_same local (tbl st)); [exact W|apply L|exact Hs|]. unfold s_id. rewrite <- X. exact Y2.
  - left. unfold register_activity in Hs'. destruct (present_or_pending source (tbl st)) as [n|] eqn:P.
    + pose proof (update_status_pair local (tbl st) source true f s s' W Hs) as X.
      destruct (update_status local (tbl st) source true f) as [t2 ok]. cbn [tbl fst] in *. destruct (X Hs' E) as [Y|Y]; [now apply Eq|congruence].
    + destruct cached as [e|]; [|apply Eq; symmetry; now apply (wf_same local (tbl st))].
      destruct (enr_id e =? source) eqn:Q; [|apply Eq; symmetry; now apply (wf_same local (tbl st))]. apply N.eqb_eq in Q.
      rewrite connect_tbl in Hs'. destruct (insert_or_update_pair local _ _ _ _ _ _ _ W Hs Hs' E) as [Y|[Y1 Y2]]; [now apply Eq|].
      cbn [new_node n_enr] in Y2. rewrite <- Q, Y2, (lookup_node local (tbl st) (s_id s) s W Hs eq_refl) in P. discriminate P.
  - left. unfold process_response in Hs'. destruct (lookup (enr_id source) (tbl st)) as [a|] eqn:L.
    + apply lookup_some in L. destruct L as [L1 L2]. destruct (s_connected a).
      * pose proof (update_status_pair local (tbl st) (enr_id source) true f s s' W Hs) as X.
        destruct (update_status local (tbl st) (enr_id source) true f) as [t2 ok]. cbn [tbl fst] in *. destruct (X Hs' E) as [Y|Y]; [now apply Eq|congruence].
      * rewrite connect_tbl in Hs'. destruct (insert_or_update_pair local _ _ _ _ _ _ _ W Hs Hs' E) as [Y|[Y1 Y2]]; [now apply Eq|].
        rewrite Y1. f_equal. f_equal. apply (wf_same local (tbl st)); [exact W|exact L1|exact Hs|exact Y2].
    + rewrite connect_tbl in Hs'. destruct (insert_or_update_pair local _ _ _ _ _ _ _ W Hs Hs' E) as [Y|[Y1 Y2]]; [now apply Eq|].
      cbn [new_node n_enr] in Y2. apply lookup_none in L. exfalso. apply L. rewrite Y2. now apply in_map.
  - left. unfold request_failure in Hs'. cbn [tbl] in Hs'. destruct (update_status_pair local _ _ _ _ _ _ W Hs Hs' E) as [Y|Y]; [now apply Eq|congruence].
  - left. rewrite ping_due_tbl in Hs'. apply Eq. symmetry. now apply (wf_same local (tbl st)).
  - left. unfold delete_enr in Hs'. cbn [tbl] in Hs'. apply remove_in in Hs'. apply Eq. symmetry. now apply (wf_same local (tbl st)).
  - left. cbn [tbl] in Hs'. destruct (D t' eq_refl) as [_ D2]. destruct (D2 s' Hs') as [Hi|(a & Ha & _ & ->)].
    + apply Eq. symmetry. now apply (wf_same local (tbl st)).
    + cbn [admit s_node]. f_equal. f_equal. apply (wf_same local (tbl st)); [exact W|exact Ha|exact Hs|]. symmetry. exact E.
Qed.

(** A newer record is taken and nothing else about the peer changes; an older or equal one
    changes nothing; the record of an unknown node is added as that of a disconnected peer. *)
Theorem C54_discovered : forall st t e f, reach local st t -> f <> Refused ->
  let t' := tbl (fst (step local st (Discovered [(e, f)]))) in
  (enr_id e = local -> t' = tbl st) /\
  (forall s, In s (tbl st) -> s_id s = enr_id e ->
     (enr_seq e <= enr_seq (n_enr (s_node s)) -> t' = tbl st) /\
     (enr_seq (n_enr (s_node s)) < enr_seq e -> exists s', In s' t' /\ n_enr (s_node s') = e /\ n_radius (s_node s') = n_radius (s_node s) /\
        s_connected s' = s_connected s /\ s_pending s' = s_pending s)) /\
  (enr_id e <> local -> ~ In (enr_id e) (map s_id (tbl st)) ->
     exists s', In s' t' /\ n_enr (s_node s') = e /\ s_connected s' = false /\ n_radius (s_node s') = 2 ^ 256 - 1 /\
       (f = Accepted -> s_pending s' = false /\ In (enr_id e) (queue (fst (step local st (Discovered [(e, f)])))))).
Proof.
  intros st t e f H Hf t'. pose proof (reach_wf local st t H) as W. unfold t'. clear t'. cbn [step fst]. unfold process_discovered. cbn [filter fst].
  split; [intros ->; rewrite N.eqb_refl; reflexivity|]. split.
  - intros s Hs E. assert (L : enr_id e <> local). { intros L. apply (proj2 W). rewrite <- L, <- E. now apply in_map. }
    apply N.eqb_neq in L. rewrite L. cbn [negb discovered]. rewrite (lookup_node local (tbl st) (enr_id e) s W Hs E). split.
    + intros Hle. apply N.ltb_ge in Hle. rewrite Hle. reflexivity.
    + intros Hlt. apply N.ltb_lt in Hlt. rewrite Hlt. unfold update_node. cbn [set_enr n_enr]. rewrite L, <- E, (lookup_in _ _ (proj1 W) Hs).
      assert (Hid : In (s_id s) (map s_id (tbl st))) by now apply in_map.
      destruct f; [| |congruence]; cbn [tbl].
      * eexists. split; [apply replace_in; [exact Hid|left; reflexivity]|]. repeat split; reflexivity.
      * eexists. split; [apply replace_in; [exact Hid|left; reflexivity]|]. repeat split; reflexivity.
  - intros L Hn. apply N.eqb_neq in L. rewrite L. cbn [negb discovered]. apply lookup_none in Hn. unfold present_or_pending. rewrite Hn.
    unfold insert_or_update. cbn [new_node n_enr]. rewrite L, Hn. destruct f; [| |congruence]; cbn [tbl queue fold_left].
    + eexists. split; [apply in_app_iff; right; left; reflexivity|]. repeat split; try reflexivity.
      unfold enqueue. destruct (existsb (N.eqb (enr_id e)) (queue st)) eqn:X; [|apply in_app_iff; right; now left].
      apply existsb_exists in X. destruct X as (y & Hy & Ey). apply N.eqb_eq in Ey. now subst.
    + eexists. split; [apply in_app_iff; right; left; reflexivity|]. repeat split; try reflexivity; discriminate.
Qed.

(** Several records are taken in one after the other. *)
Theorem C54_batch : forall st a b,
  tbl (fst (step local st (Discovered (a ++ b)))) = tbl (fst (step local (fst (step local st (Discovered a))) (Discovered b))).
Proof.
  intros st a b. cbn [step fst]. unfold process_discovered.
  assert (X : forall a b t, fst (fst (discovered local t (a ++ b))) = fst (fst (discovered local (fst (fst (discovered local t a))) b))).
  { clear. induction a as [|[e f] a IH]; intros b t; [reflexivity|]. cbn [app discovered].
    destruct (present_or_pending (enr_id e) t) as [n|].
    - destruct (_ <? _); [|apply IH]. destruct (update_node _ _ _ _) as [t' ok]. specialize (IH b t').
      destruct (discovered local t' (a ++ b)) as [[? ?] ?]. destruct (discovered local t' a) as [[? ?] ?]. exact IH.
    - destruct (insert_or_update _ _ _ _ _ _) as [t' r]. specialize (IH b t').
      destruct (discovered local t' (a ++ b)) as [[? ?] ?]. destruct (discovered local t' a) as [[? ?] ?]. exact IH. }
  rewrite filter_app. set (p := fun x : enr * fate => negb (enr_id (fst x) =? local)).
  specialize (X (filter p a) (filter p b) (tbl st)).
  destruct (discovered local (tbl st) (filter p a ++ filter p b)) as [[? ?] ?]. destruct (discovered local (tbl st) (filter p a)) as [[t' ?] ?].
  cbn [tbl fst] in *. destruct (discovered local t' (filter p b)) as [[? ?] ?]. exact X.
Qed.

(** ** C63: the radius *)
(** The radius attributed to a peer is the one it reported last, or everything if it has not
    reported any since it entered the table. *)
Theorem C63_radius : forall st t o s', reach local st t -> (forall t', o = Bucket t' -> drift (tbl st) t') ->
  ~ by_hand o -> one_record o -> In s' (tbl (fst (step local st o))) ->
  (exists s, In s (tbl st) /\ s_id s = s_id s' /\
     n_radius (s_node s') = match o with
                            | PingOrPong source _ (Some x) _ => if source =? s_id s then radius_in x else n_radius (s_node s)
                            | _ => n_radius (s_node s) end) \/
  (~ In (s_id s') (map s_id (tbl st)) /\ n_radius (s_node s') = 2 ^ 256 - 1).
Proof.
  intros st t o s' H D Hh H1 Hs'. pose proof (reach_wf local st t H) as W.
  destruct (in_dec N.eq_dec (s_id s') (map s_id (tbl st))) as [Hi|Hi].
  - left. apply in_map_iff in Hi. destruct Hi as (s & E & Hs). exists s. split; [exact Hs|]. split; [exact E|].
    assert (Eq : s' = s -> n_radius (s_node s') = n_radius (s_node s)) by congruence.
    destruct o as [l|source seq x f|source cached f|source f|id f|e c f|id|e f|id|t']; cbn [step fst] in Hs'; try (now destruct Hh).
    + destruct H1 as [[e f] ->]. unfold process_discovered in Hs'. cbn [filter fst] in Hs'.
      destruct (negb (enr_id e =? local)) eqn:L; cbn [discovered tbl] in Hs'; [|apply Eq; symmetry; now apply (wf_same local (tbl st))].
      destruct (present_or_pending (enr_id e) (tbl st)) as [n|] eqn:P.
      * destruct (enr_seq (n_enr n) <? enr_seq e) eqn:Q; [|apply Eq; symmetry; now apply (wf_same local (tbl st))].
        pose proof (update_node_pair local (tbl st) (set_enr n e) f s s' W Hs) as X.
        destruct (update_node local (tbl st) (set_enr n e) f) as [t2 ok]. cbn [tbl fst] in *.
        destruct (X Hs' E) as [Y|[Y1 Y2]]; [now apply Eq|]. cbn [set_enr n_enr] in Y2.
        rewrite (lookup_node local (tbl st) (enr_id e) s W Hs (eq_sym Y2)) in P. injection P as <-. now rewrite Y1.
      * pose proof (insert_or_update_pair local (tbl st) (new_node e) false false f s s' W Hs) as X.
        destruct (insert_or_update local (tbl st) (new_node e) false false f) as [t2 r]. cbn [tbl fst] in *.
        destruct (X Hs' E) as [Y|[Y1 Y2]]; [now apply Eq|]. cbn [new_node n_enr] in Y2.
        rewrite (lookup_node local (tbl st) (enr_id e) s W Hs (eq_sym Y2)) in P. discriminate P.
    + unfold process_ping in Hs'. destruct (N.eq_dec source (s_id s)) as [->|Hne].
      * rewrite (lookup_node local (tbl st) (s_id s) s W Hs eq_refl), ?N.eqb_refl in *.
        destruct x as [x|]; [|apply Eq; symmetry; now apply (wf_same local (tbl st))].
        destruct (handle_extension x (s_node s)) as [n'|] eqn:X; cbn [tbl fst] in Hs'.
        { pose proof (handle_enr _ _ _ X) as [X1 X2].
          unfold update_node in Hs'. rewrite X1 in Hs'. change (enr_id (n_enr (s_node s))) with (s_id s) in Hs'.
          assert (L : (s_id s =? local) = false). { apply N.eqb_neq. intros L. apply (proj2 W). rewrite <- L. now apply in_map. }
          rewrite L, (lookup_in _ _ (proj1 W) Hs) in Hs'.
          assert (Hid : In (s_id s) (map s_id (tbl st))) by now apply in_map.
          destruct f; cbn [fst] in Hs'.
          - apply replace_in in Hs'; [|exact Hid]. destruct Hs' as [->|[_ Hx]]; [exact X2|congruence].
          - apply replace_in in Hs'; [|exact Hid]. destruct Hs' as [->|[_ Hx]]; [exact X2|congruence].
          - apply remove_in in Hs'. destruct Hs' as [_ Hx]. congruence. }
        { apply handle_none in X. rewrite <- X. apply Eq. symmetry. now apply (wf_same local (tbl st)). }
      * apply N.eqb_neq in Hne. rewrite Hne. apply N.eqb_neq in Hne.
        assert (G : n_radius (s_node s') = n_radius (s_node s)); [|now destruct x].
        destruct (present_or_pending source (tbl st)) as [n|] eqn:P; [|apply Eq; symmetry; now apply (wf_same local (tbl st))].
        destruct x as [x|]; [|apply Eq; symmetry; now apply (wf_same local (tbl st))].
        destruct (handle_extension x n) as [n'|] eqn:X; [|apply Eq; symmetry; now apply (wf_same local (tbl st))].
        cbn [tbl fst] in Hs'. destruct (update_node_pair local _ _ _ _ _ W Hs Hs' E) as [Y|[Y1 Y2]]; [now apply Eq|].
        exfalso. apply Hne. apply handle_enr in X. destruct X as [X _]. rewrite X in Y2.
        unfold present_or_pending in P. destruct (lookup source (tbl st)) as [a|] eqn:L; [|discriminate]. injection P as <-.
        apply lookup_some in L. unfold s_id in L at 1. rewrite <- Y2. symmetry. apply L.
    + unfold register_activity in Hs'. destruct (present_or_pending source (tbl st)) as [n|] eqn:P.
      * pose proof (update_status_pair local (tbl st) source true f s s' W Hs) as X.
        destruct (update_status local (tbl st) source true f) as [t2 ok]. cbn [tbl fst] in *. destruct (X Hs' E) as [Y|Y]; [now apply Eq|congruence].
      * destruct cached as [e|]; [|apply Eq; symmetry; now apply (wf_same local (tbl st))].
        destruct (enr_id e =? source) eqn:Q; [|apply Eq; symmetry; now apply (wf_same local (tbl st))]. apply N.eqb_eq in Q.
        rewrite connect_tbl in Hs'. destruct (insert_or_update_pair local _ _ _ _ _ _ _ W Hs Hs' E) as [Y|[Y1 Y2]]; [now apply Eq|].
        cbn [new_node n_enr] in Y2. rewrite <- Q, Y2, (lookup_node local (tbl st) (s_id s) s W Hs eq_refl) in P. discriminate P.
    + unfold process_response in Hs'. destruct (lookup (enr_id source) (tbl st)) as [a|] eqn:L.
      * apply lookup_some in L. destruct L as [L1 L2]. destruct (s_connected a).
        { pose proof (update_status_pair local (tbl st) (enr_id source) true f s s' W Hs) as X.
          destruct (update_status local (tbl st) (enr_id source) true f) as [t2 ok]. cbn [tbl fst] in *. destruct (X Hs' E) as [Y|Y]; [now apply Eq|congruence]. }
        { rewrite connect_tbl in Hs'. destruct (insert_or_update_pair local _ _ _ _ _ _ _ W Hs Hs' E) as [Y|[Y1 Y2]]; [now apply Eq|].
          rewrite Y1. f_equal. f_equal. apply (wf_same local (tbl st)); [exact W|exact L1|exact Hs|exact Y2]. }
      * rewrite connect_tbl in Hs'. destruct (insert_or_update_pair local _ _ _ _ _ _ _ W Hs Hs' E) as [Y|[Y1 Y2]]; [now apply Eq|].
        cbn [new_node n_enr] in Y2. apply lookup_none in L. exfalso. apply L. rewrite Y2. now apply in_map.
    + unfold request_failure in Hs'. cbn [tbl] in Hs'. destruct (update_status_pair local _ _ _ _ _ _ W Hs Hs' E) as [Y|Y]; [now apply Eq|congruence].
    + rewrite ping_due_tbl in Hs'. apply Eq. symmetry. now apply (wf_same local (tbl st)).
    + unfold delete_enr in Hs'. cbn [tbl] in Hs'. apply remove_in in Hs'. apply Eq. symmetry. now apply (wf_same local (tbl st)).
    + cbn [tbl] in Hs'. destruct (D t' eq_refl) as [_ D2]. destruct (D2 s' Hs') as [Hx|(a & Ha & _ & ->)].
      * apply Eq. symmetry. now apply (wf_same local (tbl st)).
      * cbn [admit s_node]. f_equal. f_equal. apply (wf_same local (tbl st)); [exact W|exact Ha|exact Hs|]. symmetry. exact E.
  - right. split; [exact Hi|].
    assert (Old : In s' (tbl st) -> n_radius (s_node s') = 2 ^ 256 - 1) by (intros X; destruct Hi; now apply in_map).
    assert (Ins : forall n c i f, n_radius n = 2 ^ 256 - 1 -> In s' (fst (insert_or_update local (tbl st) n c i f)) -> n_radius (s_node s') = 2 ^ 256 - 1).
    { intros n c i f Hn X. apply insert_or_update_after in X. destruct X as [[X _]|[(X & _)|[X _]]]; [now apply Old|congruence|now apply Old]. }
    assert (Sta : forall id c f, In s' (fst (update_status local (tbl st) id c f)) -> n_radius (s_node s') = 2 ^ 256 - 1).
    { intros id c f X. apply (in_map s_id) in X. destruct Hi. clear -X W. unfold update_status in X. destruct (_ =? local); [exact X|].
      destruct (lookup id (tbl st)) as [a|] eqn:L; [|exact X]. apply lookup_some in L. destruct L as [_ L].
      destruct f; cbn [fst] in X; [rewrite (replace_ids id) in X by exact L; exact X|rewrite (replace_ids id) in X by exact L; exact X|apply remove_ids in X; tauto]. }
    assert (Upd : forall n f, In s' (fst (update_node local (tbl st) n f)) -> n_radius (s_node s') = 2 ^ 256 - 1).
    { intros n f X. apply (in_map s_id) in X. destruct Hi. clear -X W. unfold update_node in X. destruct (_ =? local); [exact X|].
      destruct (lookup _ (tbl st)) as [a|] eqn:L; [|exact X].
      destruct f; cbn [fst] in X; [rewrite replace_ids in X by reflexivity; exact X|rewrite replace_ids in X by reflexivity; exact X|apply remove_ids in X; tauto]. }
    destruct o as [l|source seq x f|source cached f|source f|id f|e c f|id|e f|id|t']; cbn [step fst] in Hs'; try (now destruct Hh).
    + destruct H1 as [[e f] ->]. unfold process_discovered in Hs'. cbn [filter fst] in Hs'.
      destruct (negb (enr_id e =? local)) eqn:L; cbn [discovered tbl] in Hs'; [|now apply Old].
      destruct (present_or_pending (enr_id e) (tbl st)) as [n|] eqn:P.
      * destruct (enr_seq (n_enr n) <? enr_seq e) eqn:Q; [|now apply Old]. specialize (Upd (set_enr n e) f).
        destruct (update_node local (tbl st) (set_enr n e) f) as [t2 ok]. now apply Upd.
      * specialize (Ins (new_node e) false false f eq_refl). destruct (insert_or_update local (tbl st) (new_node e) false false f) as [t2 r]. now apply Ins.
    + unfold process_ping in Hs'. destruct (present_or_pending source (tbl st)) as [n|]; [|now apply Old]. destruct x as [x|]; [|now apply Old].
      destruct (handle_extension x n) as [n'|]; [|now apply Old]. exact (Upd _ _ Hs').
    + unfold register_activity in Hs'. destruct (present_or_pending source (tbl st)) as [n|].
      * specialize (Sta source true f). destruct (update_status local (tbl st) source true f) as [t2 ok]. now apply Sta.
      * destruct cached as [e|]; [|now apply Old]. destruct (_ =? _); [|now apply Old]. rewrite connect_tbl in Hs'. exact (Ins (new_node e) true true f eq_refl Hs').
    + unfold process_response in Hs'. destruct (lookup (enr_id source) (tbl st)) as [a|] eqn:L.
      * destruct (s_connected a).
        { specialize (Sta (enr_id source) true f). destruct (update_status local (tbl st) (enr_id source) true f) as [t2 ok]. now apply Sta. }
        { rewrite connect_tbl in Hs'. apply insert_or_update_after in Hs'. destruct Hs' as [[X _]|[(X & _)|[X _]]]; [now apply Old| |now apply Old].
          apply lookup_some in L. destruct Hi. unfold s_id. rewrite X. change (enr_id (n_enr (s_node a))) with (s_id a). now apply in_map. }
      * rewrite connect_tbl in Hs'. eapply (Ins (new_node source)); [reflexivity|exact Hs'].
    + exact (Sta _ _ _ Hs').
    + rewrite ping_due_tbl in Hs'. now apply Old.
    + unfold delete_enr in Hs'. cbn [tbl] in Hs'. apply remove_in in Hs'. now apply Old.
    + cbn [tbl] in Hs'. destruct (D t' eq_refl) as [_ D2]. destruct (D2 s' Hs') as [Hx|(a & Ha & _ & ->)]; [now apply Old|].
      destruct Hi. change (s_id (admit a)) with (s_id a). now apply in_map.
Qed.

(** ** C38 *)
Lemma connected_in t s : In s (connected t) <-> In s t /\ s_connected s = true /\ s_pending s = false.
Proof. unfold connected. rewrite filter_In, Bool.andb_true_iff, Bool.negb_true_iff. reflexivity. Qed.
Lemma nearer_total target a b : nearer target a b = true \/ nearer target b a = true.
Proof. unfold nearer. rewrite !N.leb_le. lia. Qed.
Lemma nearer_trans target a b c : nearer target a b = true -> nearer target b c = true -> nearer target a c = true.
Proof. unfold nearer. rewrite !N.leb_le. lia. Qed.
Lemma map_firstn {A B} (g : A -> B) n l : map g (firstn n l) = firstn n (map g l).
Proof. revert l. induction n as [|n IH]; intros [|a l]; cbn; [reflexivity..|]. now rewrite IH. Qed.

Theorem C38_closest : forall st t target limit, reach local st t ->
  let l := closest target limit (tbl st) in
  (forall e, In e l -> connected_peer (tbl st) e) /\
  NoDup (map enr_id l) /\
  StronglySorted (fun a b => N.lxor target (enr_id a) < N.lxor target (enr_id b)) l /\
  blen l <= limit /\ (blen l < limit -> forall e, connected_peer (tbl st) e -> In e l) /\
  forall e x, connected_peer (tbl st) e -> ~ In e l -> In x l -> N.lxor target (enr_id x) < N.lxor target (enr_id e).
Proof.
  intros st t target limit H l. pose proof (reach_wf local st t H) as W.
  set (full := sort_by (nearer target) (connected (tbl st))).
  assert (Full : forall s, In s full <-> In s (tbl st) /\ s_connected s = true /\ s_pending s = false).
  { intros s. unfold full. rewrite sort_by_In. apply connected_in. }
  assert (Nd : NoDup (map s_id full)).
  { eapply Permutation_NoDup; [apply Permutation_map, sort_by_perm|]. apply nodup_map_filter, W. }
  assert (Srt : StronglySorted (fun a b => N.lxor target (s_id a) < N.lxor target (s_id b)) full).
  { pose proof (sort_by_sorted (nearer target) (nearer_total target) (nearer_trans target) (connected (tbl st))) as S. fold full in S.
    revert S Nd. clear. induction full as [|a l IH]; intros S N; [constructor|]. inversion S as [|x y H1 H2]; subst. cbn in N. inversion N as [|x y H3 H4]; subst.
    constructor; [now apply IH|]. rewrite Forall_forall in *. intros b Hb. specialize (H2 b Hb). unfold le_rel, nearer in H2. apply N.leb_le in H2.
    destruct (N.eq_dec (N.lxor target (s_id a)) (N.lxor target (s_id b))) as [E|E]; [|lia].
    apply lxor_inj in E. destruct H3. rewrite E. now apply in_map. }
  assert (El : l = map (fun s => n_enr (s_node s)) (firstn (N.to_nat limit) full)) by reflexivity.
  pose proof (firstn_skipn (N.to_nat limit) full) as FS.
  assert (Hin : forall e, In e l -> exists s, In s (firstn (N.to_nat limit) full) /\ n_enr (s_node s) = e).
  { intros e He. rewrite El in He. apply in_map_iff in He. destruct He as (s & E & Hs). now exists s. }
  split; [|split; [|split; [|split; [|split]]]].
  - intros e He. destruct (Hin e He) as (s & Hs & E). apply firstn_incl in Hs. apply Full in Hs. exists s. tauto.
  - rewrite El, map_map. change (fun x => enr_id (n_enr (s_node x))) with s_id. rewrite map_firstn. 
    rewrite <- (firstn_skipn (N.to_nat limit) (map s_id full)) in Nd. revert Nd. generalize (firstn (N.to_nat limit) (map s_id full)). clear.
    induction l as [|a l IH]; intros N; [constructor|]. cbn in N. inversion N; subst. constructor; [intros X; apply H1, in_app_iff; now left|now apply IH].
  - rewrite El. rewrite <- FS in Srt. apply strongly_sorted_app in Srt. destruct Srt as [S _]. revert S. generalize (firstn (N.to_nat limit) full). clear.
    induction l as [|a l IH]; intros S; [constructor|]. inversion S as [|x y H1 H2]; subst. cbn. constructor; [now apply IH|].
    rewrite Forall_forall in *. intros e He. apply in_map_iff in He. destruct He as (b & <- & Hb). exact (H2 b Hb).
  - rewrite El. unfold blen. rewrite map_length, firstn_length. lia.
  - intros Hlt e (s & Hs & Hc & Hp & <-). rewrite El in *. apply (in_map (fun s => n_enr (s_node s))).
    unfold blen in Hlt. rewrite map_length, firstn_length in Hlt. rewrite firstn_all2 by lia. now apply Full.
  - intros e x (s & Hs & Hc & Hp & E) Hn Hx. destruct (Hin x Hx) as (a & Ha & Ea).
    assert (Hf : In s full) by now apply Full. rewrite <- FS in Hf. apply in_app_iff in Hf. destruct Hf as [Hf|Hf].
    + destruct Hn. rewrite El, <- E. now apply (in_map (fun s => n_enr (s_node s))).
    + rewrite <- FS in Srt. apply strongly_sorted_app in Srt. destruct Srt as (_ & _ & S). specialize (S a s Ha Hf).
      unfold s_id in S. now rewrite Ea, E in S.
Qed.

(** ** C39 *)
Lemma dedup_in l x : In x (dedup l) <-> In x l.
Proof.
  induction l as [|a l IH]; [reflexivity|]. cbn [dedup]. change (In x (a :: l)) with (a = x \/ In x l). rewrite <- IH. clear IH.
  destruct (dedup l) as [|b r]; [reflexivity|]. destruct (a =? b) eqn:X; [|reflexivity].
  apply N.eqb_eq in X. subst. split; [intros H; now right|]. intros [->|H]; [now left|exact H].
Qed.
Lemma dedup_sorted l : StronglySorted N.le l -> StronglySorted N.lt (dedup l).
Proof.
  induction 1 as [|a l S IH F]; [constructor|]. cbn [dedup].
  assert (G : forall y, In y (dedup l) -> a <= y) .
  { intros y Hy. apply (proj1 (dedup_in l y)) in Hy. rewrite Forall_forall in F. exact (F y Hy). }
  destruct (dedup l) as [|b r]; [repeat constructor|]. inversion IH as [|x y H1 H2]; subst.
  destruct (a =? b) eqn:X; [exact IH|]. apply N.eqb_neq in X.
  assert (a < b) by (specialize (G b (or_introl eq_refl)); lia).
  constructor; [exact IH|]. constructor; [assumption|]. rewrite Forall_forall in *. intros y Hy. specialize (H2 y Hy). lia.
Qed.

Lemma at_distance_spec d s : at_distance local d s = true <-> log2 (N.lxor local (s_id s)) = Some d /\ s_pending s = false.
Proof.
  unfold at_distance. rewrite Bool.andb_true_iff, Bool.negb_true_iff. destruct (log2 _) as [k|].
  - rewrite N.eqb_eq. split; intros [H1 H2]; (split; [congruence|exact H2]).
  - split; intros [H1 H2]; discriminate.
Qed.

(** The log distance of the node of a record. *)
Definition record_distance (e : enr) : option N := if enr_id e =? local then Some 0 else log2 (N.lxor local (enr_id e)).

Lemma push_spec limit : forall l acc r done, push_connected limit acc l = (r, done) ->
  exists new, r = acc ++ new /\
    (forall e, In e new -> exists s, In s l /\ s_connected s = true /\ n_enr (s_node s) = e) /\
    (NoDup (map s_id l) -> NoDup (map enr_id new)) /\
    (blen acc < limit -> blen r <= limit) /\ (done = true -> limit <= blen r) /\
    (done = false -> forall s, In s l -> s_connected s = true -> In (n_enr (s_node s)) new) /\
    (done = false -> blen acc < limit -> blen r < limit).
Proof.
  induction l as [|s l IH]; intros acc r done H; cbn [push_connected] in H.
  - injection H as <- <-. exists []. rewrite app_nil_r. split; [reflexivity|]. split; [intros e []|]. split; [constructor|]. split; [lia|].
    split; [discriminate|]. split; [intros _ s []|auto].
  - destruct (s_connected s) eqn:C.
    + destruct (limit <=? blen (acc ++ [n_enr (s_node s)])) eqn:B.
      * injection H as <- <-. apply N.leb_le in B. exists [n_enr (s_node s)]. split; [reflexivity|].
        split; [intros e [<-|[]]; exists s; cbn; auto|]. split; [intros _; cbn; constructor; [intros []|constructor]|].
        split; [intros Ha; rewrite blen_app; change (blen [n_enr (s_node s)]) with 1; lia|]. split; [intros _; exact B|]. split; [discriminate|discriminate].
      * apply N.leb_gt in B. destruct (IH _ _ _ H) as (new & -> & P1 & P2 & P3 & P4 & P5 & P6). exists (n_enr (s_node s) :: new).
        split; [now rewrite <- app_assoc|]. split; [intros e [<-|He]; [exists s; cbn; auto|]; destruct (P1 e He) as (a & ? & ? & ?); exists a; cbn; auto|].
        split.
        { intros Nd. cbn [map] in Nd. inversion Nd as [|x y Hx Hy]; subst. cbn [map]. constructor; [|now apply P2]. intros Hi. apply Hx.
          apply in_map_iff in Hi. destruct Hi as (e & E & He). destruct (P1 e He) as (a & Ha & _ & <-). apply in_map_iff. exists a. split; [exact E|exact Ha]. }
        rewrite <- app_assoc in *. cbn [app] in *. split; [intros _; apply P3; exact B|]. split; [exact P4|]. split.
        { intros Hd a [<-|Ha] Hc; [now left|right; now apply P5]. }
        { intros Hd _. apply P6; [exact Hd|exact B]. }
    + destruct (IH _ _ _ H) as (new & -> & P1 & P2 & P3 & P4 & P5 & P6). exists new. split; [reflexivity|].
      split; [intros e He; destruct (P1 e He) as (a & ? & ?); exists a; cbn; auto|].
      split; [intros Nd; cbn [map] in Nd; inversion Nd; subst; now apply P2|]. split; [exact P3|]. split; [exact P4|]. split; [|exact P6].
      intros Hd a [<-|Ha] Hc; [congruence|now apply P5].
Qed.

Section Collect.
Variables (st : service) (hist : list op) (local_enr : enr) (limit : N).
Hypothesis R : reach local st hist.
Hypothesis Hl : enr_id local_enr = local.
Let good (ds : list N) (e : enr) : Prop :=
  exists d, In d ds /\ record_distance e = Some d /\ (d = 0 -> e = local_enr) /\ (d <> 0 -> connected_peer (tbl st) e).
Let covered (e : enr) (d : N) : Prop := (d = 0 /\ e = local_enr) \/ (d <> 0 /\ connected_peer (tbl st) e /\ record_distance e = Some d).

Lemma log2_zero : log2 0 = None.
Proof. reflexivity. Qed.
Lemma record_distance_local e : enr_id e = local -> record_distance e = Some 0.
Proof. intros E. unfold record_distance. rewrite E, N.eqb_refl. reflexivity. Qed.
Lemma record_distance_other s : In s (tbl st) -> record_distance (n_enr (s_node s)) = log2 (N.lxor local (s_id s)).
Proof.
  intros Hs. unfold record_distance. change (enr_id (n_enr (s_node s))) with (s_id s). destruct (s_id s =? local) eqn:E; [|reflexivity].
  apply N.eqb_eq in E. exfalso. apply (proj2 (reach_wf local st hist R)). rewrite <- E. now apply in_map.
Qed.

Lemma collect_spec : forall ds acc, StronglySorted N.lt ds -> (acc = [] \/ blen acc < limit) ->
  exists new, collect local local_enr limit (tbl st) acc ds = acc ++ new /\
    (forall e, In e new -> good ds e) /\ NoDup (map enr_id new) /\
    (0 < limit -> blen acc < limit -> blen (acc ++ new) <= limit) /\
    (blen (acc ++ new) < limit -> (forall d, In d ds -> blen (bucket local d (tbl st)) <= limit) -> forall e d, In d ds -> covered e d -> In e new) /\
    StronglySorted (fun a b => forall x y, record_distance a = Some x -> record_distance b = Some y -> x <= y) new.
Proof.
  pose proof (reach_wf local st hist R) as W.
  induction ds as [|d ds IH]; intros acc S Hacc; cbn [collect].
  { exists []. rewrite app_nil_r. split; [reflexivity|]. split; [intros e []|]. split; [constructor|]. split; [lia|]. split; [intros _ _ e d []|constructor]. }
  inversion S as [|x y S1 S2]; subst. rewrite Forall_forall in S2.
  assert (Low : forall e, good ds e -> good (d :: ds) e) by (intros e (k & ? & ?); exists k; cbn; auto).
  (* the part [first] for [d] followed by the part for [ds] *)
  assert (Glue : forall first new, (forall e, In e first -> exists k, record_distance e = Some k /\ k = d) -> NoDup (map enr_id first) ->
    (forall e, In e new -> good ds e) -> NoDup (map enr_id new) ->
    StronglySorted (fun a b => forall x y, record_distance a = Some x -> record_distance b = Some y -> x <= y) new ->
    NoDup (map enr_id (first ++ new)) /\
    StronglySorted (fun a b => forall x y, record_distance a = Some x -> record_distance b = Some y -> x <= y) (first ++ new)).
  { intros first new F1 F2 N1 N2 N3. assert (Gt : forall e, In e new -> exists k, record_distance e = Some k /\ d < k).
    { intros e He. destruct (N1 e He) as (k & Hk & E & _). exists k. split; [exact E|]. now apply S2. }
    induction first as [|a first IHf]; [split; [exact N2|exact N3]|]. cbn [map] in F2. inversion F2 as [|x y Hx Hy]; subst.
    destruct IHf as [I1 I2]; [intros e He; apply F1; now right|exact Hy|]. destruct (F1 a (or_introl eq_refl)) as (ka & Ea & ->). split.
    - cbn [app map]. constructor; [|exact I1]. rewrite map_app, in_app_iff. intros [Hi|Hi]; [now apply Hx|].
      apply in_map_iff in Hi. destruct Hi as (e & E & He). destruct (Gt e He) as (k & Ek & Hk). unfold record_distance in Ea, Ek. rewrite E in Ek.
      rewrite Ea in Ek. injection Ek as <-. lia.
    - cbn [app]. constructor; [exact I2|]. apply Forall_forall. intros e He x y Ex Ey. apply in_app_iff in He. destruct He as [He|He].
      + destruct (F1 e (or_intror He)) as (k & Ek & ->). rewrite Ea in Ex. rewrite Ek in Ey. injection Ex as <-. injection Ey as <-. lia.
      + destruct (Gt e He) as (k & Ek & Hk). rewrite Ea in Ex. rewrite Ek in Ey. injection Ex as <-. injection Ey as <-. lia. }
  destruct (d =? 0) eqn:D.
  - apply N.eqb_eq in D. subst d. pose proof (record_distance_local local_enr Hl) as RL.
    destruct (limit <=? blen (acc ++ [local_enr])) eqn:B.
    + apply N.leb_le in B. exists [local_enr]. split; [reflexivity|].
      split; [intros e [<-|[]]; exists 0; split; [now left|]; split; [exact RL|]; split; [reflexivity|intros X; now destruct X]|].
      split; [cbn; constructor; [intros []|constructor]|]. split; [intros _ Ha; rewrite blen_app; change (blen [local_enr]) with 1; lia|].
      split; [intros Hlt; lia|repeat constructor].
    + apply N.leb_gt in B. destruct (IH (acc ++ [local_enr]) S1 (or_intror B)) as (new & -> & P1 & P2 & P3 & P4 & P5). exists (local_enr :: new).
      rewrite <- app_assoc in *. cbn [app] in *. split; [reflexivity|].
      destruct (Glue [local_enr] new) as [G1 G2]; [intros e [<-|[]]; now exists 0|cbn; constructor; [intros []|constructor]|exact P1|exact P2|exact P5|].
      split; [intros e [<-|He]; [exists 0; split; [now left|]; split; [exact RL|]; split; [reflexivity|intros X; now destruct X]|apply Low, P1, He]|].
      split; [exact G1|]. split; [intros H0 _; apply P3; [exact H0|exact B]|]. split; [|exact G2].
      intros Hlt Hb e k [<-|Hk] Hc; [|right; apply (P4 Hlt (fun d Hd => Hb d (or_intror Hd)) e k Hk Hc)].
      left. destruct Hc as [[_ ->]|[X _]]; [reflexivity|now destruct X].
  - apply N.eqb_neq in D. destruct (push_connected limit acc (bucket_cut local d limit (tbl st))) as [r done] eqn:Pu.
    destruct (push_spec _ _ _ _ _ Pu) as (first & -> & Q1 & Q2 & Q3 & Q4 & Q5 & Q6).
    assert (Cut : forall s, In s (bucket_cut local d limit (tbl st)) -> In s (tbl st) /\ log2 (N.lxor local (s_id s)) = Some d /\ s_pending s = false).
    { intros s Hs. unfold bucket_cut, bucket in Hs. apply firstn_incl in Hs. apply filter_In in Hs. destruct Hs as [Hs Hd]. apply at_distance_spec in Hd. tauto. }
    assert (Hf : forall e, In e first -> connected_peer (tbl st) e /\ record_distance e = Some d).
    { intros e He. destruct (Q1 e He) as (s & Hs & Hc & <-). destruct (Cut s Hs) as (X1 & X2 & X3). split; [exists s; auto|].
      now rewrite record_distance_other. }
    assert (Ndf : NoDup (map enr_id first)).
    { apply Q2. unfold bucket_cut. rewrite map_firstn. pose proof (nodup_map_filter s_id (at_distance local d) (tbl st) (proj1 W)) as N0. unfold bucket.
      rewrite <- (firstn_skipn (N.to_nat (N.max limit 1)) (map s_id (filter (at_distance local d) (tbl st)))) in N0. revert N0. generalize (firstn (N.to_nat (N.max limit 1)) (map s_id (filter (at_distance local d) (tbl st)))). clear.
      induction l as [|a l IH]; intros N; [constructor|]. cbn in N. inversion N; subst. constructor; [intros X; apply H1, in_app_iff; now left|now apply IH]. }
    assert (Gf : forall e, In e first -> good (d :: ds) e).
    { intros e He. destruct (Hf e He) as [X1 X2]. exists d. split; [now left|]. split; [exact X2|]. split; [intros X; now destruct D|auto]. }
    destruct done.
    + exists first. split; [reflexivity|]. split; [exact Gf|]. split; [exact Ndf|]. split; [intros _ Ha; now apply Q3|].
      split; [intros Hlt; specialize (Q4 eq_refl); lia|].
      assert (X : forall e, In e first -> record_distance e = Some d) by (intros e He; now apply Hf). revert X. clear.
      induction first as [|a l IH]; intros X; [constructor|]. constructor; [apply IH; intros e He; apply X; now right|]. apply Forall_forall.
      intros e He x y Ex Ey. rewrite (X a (or_introl eq_refl)) in Ex. rewrite (X e (or_intror He)) in Ey. injection Ex as <-. injection Ey as <-. lia.
    + assert (Hacc' : acc ++ first = [] \/ blen (acc ++ first) < limit).
      { destruct Hacc as [->|Hacc]; [|right; now apply Q6]. destruct first as [|e0 first]; [now left|]. right. apply Q6; [reflexivity|].
        change (blen (@nil enr)) with 0. destruct (N.eq_dec limit 0) as [->|]; [|lia].
        exfalso. cbn [app] in Pu. destruct (bucket_cut local d 0 (tbl st)) as [|s0 l0] eqn:Bc; [discriminate Pu|].
        revert Pu. generalize (s0 :: l0). clear. intros l. induction l as [|s l IH]; cbn [push_connected]; [discriminate|].
        destruct (s_connected s); [|exact IH]. destruct (0 <=? blen ([] ++ [n_enr (s_node s)])) eqn:X; [discriminate|]. apply N.leb_gt in X. lia. }
      destruct (IH (acc ++ first) S1 Hacc') as (new & E & P1 & P2 & P3 & P4 & P5). exists (first ++ new).
      rewrite <- app_assoc in *. split; [exact E|].
      destruct (Glue first new) as [G1 G2]; [intros e He; exists d; split; [now apply Hf|reflexivity]|exact Ndf|exact P1|exact P2|exact P5|].
      split; [intros e He; apply in_app_iff in He; destruct He as [He|He]; [now apply Gf|apply Low, P1, He]|].
      split; [exact G1|]. split.
      { intros H0 Ha. apply P3; [exact H0|]. now apply Q6. }
      split; [|exact G2]. intros Hlt Hb e k [<-|Hk] Hc; apply in_app_iff.
      * left. destruct Hc as [[X _]|(_ & (s & Hs & Hcn & Hp & <-) & Hd)]; [now destruct D|]. apply Q5; [reflexivity| |exact Hcn].
        unfold bucket_cut. rewrite firstn_all2. { apply filter_In. split; [exact Hs|]. apply at_distance_spec. rewrite record_distance_other in Hd by exact Hs. now split. }
        specialize (Hb d (or_introl eq_refl)). unfold blen in Hb. lia.
      * right. exact (P4 Hlt (fun d Hd => Hb d (or_intror Hd)) e k Hk Hc).
Qed.
End Collect.

(** C39: only the local record, for distance zero, and records of connected peers at the requested
    distances; each node once; in order of distance; at most [limit] (at least one is
    returned if there is any, even for limit zero).  If fewer than [limit] are returned and no requested
    bucket has more than [limit] entries, nobody is left out. *)
Theorem C39_nodes_by_distance : forall st t local_enr distances limit, reach local st t -> enr_id local_enr = local ->
  let l := nodes_by_distances local local_enr distances limit (tbl st) in
  (forall e, In e l -> exists d, In d distances /\ record_distance e = Some d /\
     (d = 0 -> e = local_enr) /\ (d <> 0 -> connected_peer (tbl st) e)) /\
  NoDup (map enr_id l) /\
  (0 < limit -> blen l <= limit) /\
  StronglySorted (fun a b => forall x y, record_distance a = Some x -> record_distance b = Some y -> x <= y) l /\
  (blen l < limit -> (forall d, In d distances -> blen (bucket local d (tbl st)) <= limit) ->
     (In 0 distances -> In local_enr l) /\
     forall e d, In d distances -> connected_peer (tbl st) e -> record_distance e = Some d -> In e l).
Proof.
  intros st t local_enr distances limit R Hl l. unfold l, nodes_by_distances.
  assert (S : StronglySorted N.lt (dedup (sort_by N.leb distances))).
  { apply dedup_sorted. pose proof (sort_by_sorted N.leb (fun x y => ltac:(rewrite !N.leb_le; lia)) (fun x y z => ltac:(rewrite !N.leb_le; lia)) distances) as S.
    revert S. generalize (sort_by N.leb distances). clear. induction l as [|a l IH]; intros S; [constructor|]. inversion S as [|x y H1 H2]; subst.
    constructor; [now apply IH|]. rewrite Forall_forall in *. intros y Hy. apply N.leb_le. exact (H2 y Hy). }
  assert (I : forall d, In d (dedup (sort_by N.leb distances)) <-> In d distances) by (intros d; now rewrite dedup_in, sort_by_In).
  destruct (collect_spec st t local_enr limit R Hl _ [] S (or_introl eq_refl)) as (new & -> & P1 & P2 & P3 & P4 & P5). cbn [app] in *.
  split; [intros e He; destruct (P1 e He) as (d & Hd & X); exists d; split; [now apply I|exact X]|].
  split; [exact P2|]. split; [intros H0; apply P3; [exact H0|exact H0]|]. split; [exact P5|].
  intros Hlt Hb. assert (Hb' : forall d, In d (dedup (sort_by N.leb distances)) -> blen (bucket local d (tbl st)) <= limit) by (intros d Hd; apply Hb; now apply I).
  split.
  - intros H0. apply (P4 Hlt Hb' local_enr 0); [now apply I|]. left. now split.
  - intros e d Hd Hc Hr. apply (P4 Hlt Hb' e d); [now apply I|]. destruct (N.eq_dec d 0) as [->|Hn]; [|right; auto]. exfalso.
    destruct Hc as (s & Hs & _ & _ & <-). rewrite (record_distance_other st t R s Hs) in Hr.
    unfold log2 in Hr. pose proof (reach_wf local st t R) as [_ Wl].
    destruct (N.lxor local (s_id s)) as [|p] eqn:X.
    + apply N.lxor_eq in X. apply Wl. rewrite X. now apply in_map.
    + rewrite <- X in Hr. assert (Y : N.lxor local (s_id s) <> 0) by (rewrite X; discriminate). revert Hr Y. generalize (N.lxor local (s_id s)). clear.
      intros q Hr Y. destruct (q =? 0) eqn:Z; [discriminate|]. injection Hr as Hr. unfold leading_zeros256 in Hr.
      assert (0 < N.size q) by (destruct q; [congruence|reflexivity]). lia.
Qed.

(** ** C62: liveness checks *)
(** Histories without requests from peers, entries made by hand, and full buckets. *)
Definition plain (o : op) : Prop :=
  match o with
  | Incoming _ _ _ | AddEnr _ _ => False
  | Discovered l => forall e f d, In (e, f) l -> f <> AsPending d
  | PingOrPong _ _ _ f | Response _ f | Failure _ f | Bootnode _ _ f => forall d, f <> AsPending d
  | _ => True
  end.

Lemma enqueue_in id q x : In x (enqueue id q) <-> x = id \/ In x q.
Proof.
  unfold enqueue. destruct (existsb (N.eqb id) q) eqn:E.
  - apply existsb_exists in E. destruct E as (y & Hy & Ey). apply N.eqb_eq in Ey. subst. split; [tauto|]. intros [->|H]; assumption.
  - rewrite in_app_iff. cbn. split; [intros [H|[->|[]]]; tauto|]. intros [->|H]; tauto.
Qed.
Lemma dequeue_in id q x : In x (dequeue id q) <-> In x q /\ x <> id.
Proof. unfold dequeue. rewrite filter_In, Bool.negb_true_iff, N.eqb_neq. reflexivity. Qed.

Definition watched (st : service) : Prop :=
  forall s, In s (tbl st) -> s_pending s = false /\ (s_connected s = true -> In (s_id s) (queue st)).

Lemma insert_watched t n c i f s' (q : list N) : wf local t -> (forall d, f <> AsPending d) ->
  (forall s, In s t -> s_pending s = false /\ (s_connected s = true -> In (s_id s) q)) ->
  In s' (fst (insert_or_update local t n c i f)) ->
  s_pending s' = false /\ (s_connected s' = true -> (In s' t /\ In (s_id s') q) \/ (s_id s' = enr_id (n_enr n) /\ c = true)).
Proof.
  intros W Hf Q X. unfold insert_or_update in X. destruct (_ =? local); cbn [fst] in X.
  { destruct (Q s' X) as [Q1 Q2]. auto. }
  destruct (lookup _ t) as [s|] eqn:L.
  - apply lookup_some in L. destruct L as [L1 L2].
    assert (Hid : In (enr_id (n_enr n)) (map s_id t)) by (rewrite <- L2; now apply in_map).
    destruct f as [|d|]; [|now destruct (Hf d)|]; cbn [fst] in X.
    + apply replace_in in X; [|exact Hid]. destruct X as [->|[X _]]; cbn [s_pending s_connected].
      * split; [now apply Q|]. intros ->. right. now split.
      * destruct (Q s' X). auto.
    + apply remove_in in X. destruct X as [X _]. destruct (Q s' X). auto.
  - destruct f as [|d|]; [|now destruct (Hf d)|]; cbn [fst] in X.
    + apply in_app_iff in X. destruct X as [X|[<-|[]]]; cbn [s_pending s_connected]; [destruct (Q s' X); auto|]. split; [reflexivity|]. intros ->. right. now split.
    + destruct (Q s' X). auto.
Qed.

Lemma status_watched t id c f s' (q : list N) : wf local t -> (forall s, In s t -> s_pending s = false /\ (s_connected s = true -> In (s_id s) q)) ->
  In s' (fst (update_status local t id c f)) ->
  s_pending s' = false /\ (s_connected s' = true -> (In s' t /\ In (s_id s') q /\ (s_id s' <> id \/ snd (update_status local t id c f) = true)) \/ (s_id s' = id /\ c = true)).
Proof.
  intros W Q X. unfold update_status in *. destruct (id =? local) eqn:El; cbn [fst snd] in *.
  { destruct (Q s' X) as [Q1 Q2]. auto 6. }
  destruct (lookup id t) as [s|] eqn:L.
  - apply lookup_some in L. destruct L as [L1 L2]. assert (Hid : In id (map s_id t)) by (rewrite <- L2; now apply in_map).
    assert (Y : forall w, In s' (replace id {| s_node := s_node s; s_connected := c; s_incoming := s_incoming s; s_pending := s_pending s |} t) ->
      s_pending s' = false /\ (s_connected s' = true -> (In s' t /\ In (s_id s') q /\ (s_id s' <> id \/ w = true)) \/ (s_id s' = id /\ c = true))).
    { intros w Z. apply replace_in in Z; [|exact Hid]. destruct Z as [->|[Z Zn]]; cbn [s_pending s_connected].
      - split; [now apply Q|]. intros ->. right. now split.
      - destruct (Q s' Z). auto 6. }
    destruct f as [|d|]; cbn [fst snd] in *; [now apply Y|now apply Y|].
    apply remove_in in X. destruct X as [X Xn]. destruct (Q s' X). auto 6.
  - cbn [fst snd] in *. destruct (Q s' X). split; [assumption|]. intros Hc. left. split; [exact X|]. split; [auto|]. left.
    apply lookup_none in L. intros E. apply L. rewrite <- E. now apply in_map.
Qed.

Lemma update_watched t n f s' (q : list N) : wf local t -> (forall s, In s t -> s_pending s = false /\ (s_connected s = true -> In (s_id s) q)) ->
  In s' (fst (update_node local t n f)) ->
  s_pending s' = false /\ (s_connected s' = true -> In (s_id s') q /\ (s_id s' <> enr_id (n_enr n) \/ snd (update_node local t n f) = true) /\ exists s, In s t /\ s_connected s = true /\ s_id s = s_id s').
Proof.
  intros W Q X. unfold update_node in *. destruct (_ =? local) eqn:El; cbn [fst snd] in *.
  { destruct (Q s' X) as [Q1 Q2]. split; [exact Q1|]. intros Hc. split; [auto|]. split; [auto|]. exists s'. auto. }
  destruct (lookup _ t) as [s|] eqn:L.
  - apply lookup_some in L. destruct L as [L1 L2]. assert (Hid : In (enr_id (n_enr n)) (map s_id t)) by (rewrite <- L2; now apply in_map).
    assert (Y : In s' (replace (enr_id (n_enr n)) {| s_node := n; s_connected := s_connected s; s_incoming := s_incoming s; s_pending := s_pending s |} t) ->
      s_pending s' = false /\ (s_connected s' = true -> In (s_id s') q /\ (s_id s' <> enr_id (n_enr n) \/ true = true) /\ exists s, In s t /\ s_connected s = true /\ s_id s = s_id s')).
    { intros Z. apply replace_in in Z; [|exact Hid]. destruct Z as [->|[Z Zn]]; cbn [s_pending s_connected].
      - destruct (Q s L1) as [Q1 Q2]. split; [exact Q1|]. intros Hc. change (s_id {| s_node := n; s_connected := s_connected s; s_incoming := s_incoming s; s_pending := s_pending s |}) with (enr_id (n_enr n)).
        rewrite <- L2. split; [auto|]. split; [auto|]. exists s. auto.
      - destruct (Q s' Z) as [Q1 Q2]. split; [exact Q1|]. intros Hc. split; [auto|]. split; [auto|]. exists s'. auto. }
    destruct f as [|d|]; cbn [fst snd] in *; [now apply Y|now apply Y|].
    apply remove_in in X. destruct X as [X Xn]. destruct (Q s' X) as [Q1 Q2]. split; [exact Q1|]. intros Hc. split; [auto|]. split; [auto|]. exists s'. auto.
  - cbn [fst snd] in *. destruct (Q s' X) as [Q1 Q2]. split; [exact Q1|]. intros Hc. split; [auto|]. split; [|exists s'; auto]. left.
    apply lookup_none in L. intros E. apply L. rewrite <- E. now apply in_map.
Qed.

Lemma discovered_watched : forall l t q t2 ins rem, wf local t -> (forall e f d, In (e, f) l -> f <> AsPending d) ->
  (forall s, In s t -> s_pending s = false /\ (s_connected s = true -> In (s_id s) q)) ->
  discovered local t l = (t2, ins, rem) ->
  forall s', In s' t2 -> s_pending s' = false /\ (s_connected s' = true -> In (s_id s') q /\ ~ In (s_id s') rem /\ exists s, In s t /\ s_connected s = true /\ s_id s = s_id s').
Proof.
  induction l as [|[e f] l IH]; intros t q t2 ins rem W Hf Q D s' Hs'.
  { cbn in D. injection D as <- <- <-. destruct (Q s' Hs') as [Q1 Q2]. split; [exact Q1|]. intros Hc. split; [auto|]. split; [intros []|]. exists s'. auto. }
  assert (Hf' : forall e f d, In (e, f) l -> f <> AsPending d) by (intros e0 f0 d X; apply (Hf e0 f0 d); now right).
  cbn [discovered] in D. destruct (present_or_pending (enr_id e) t) as [n|] eqn:P.
  - destruct (enr_seq (n_enr n) <? enr_seq e).
    + pose proof (update_node_wf local t (set_enr n e) f W) as W2. pose proof (fun s' => update_watched t (set_enr n e) f s' q W Q) as U.
      destruct (update_node local t (set_enr n e) f) as [t1 ok]. cbn [fst snd] in *.
      destruct (discovered local t1 l) as [[t3 ins'] rem'] eqn:D'. injection D as <- <- <-.
      destruct (IH t1 q _ _ _ W2 Hf' (fun s Hs => conj (proj1 (U s Hs)) (fun Hc => proj1 (proj2 (U s Hs) Hc))) D' s' Hs') as [I1 I2].
      split; [exact I1|]. intros Hc. destruct (I2 Hc) as (J1 & J2 & s & Hs & Hsc & Es). destruct (U s Hs) as [_ U2]. destruct (U2 Hsc) as (V1 & V2 & V3).
      split; [exact J1|]. split.
      * destruct ok; [exact J2|]. intros [X|X]; [|now apply J2]. destruct V2 as [V2|V2]; [|discriminate]. apply V2. cbn [set_enr n_enr]. rewrite Es. symmetry. exact X.
      * destruct V3 as (a & Ha & Hac & Ea). exists a. split; [exact Ha|]. split; [exact Hac|]. congruence.
    + eapply IH; eassumption.
  - pose proof (insert_or_update_wf local t (new_node e) false false f W) as W2.
    pose proof (fun s' => insert_watched t (new_node e) false false f s' q W (fun d => Hf e f d (or_introl eq_refl)) Q) as U.
    destruct (insert_or_update local t (new_node e) false false f) as [t1 r]. cbn [fst snd] in *.
    destruct (discovered local t1 l) as [[t3 ins'] rem'] eqn:D'. injection D as <- <- <-.
    assert (U' : forall s, In s t1 -> s_pending s = false /\ (s_connected s = true -> In s t /\ In (s_id s) q)).
    { intros s Hs. destruct (U s Hs) as [U1 U2]. split; [exact U1|]. intros Hc. destruct (U2 Hc) as [X|[_ X]]; [exact X|discriminate]. }
    destruct (IH t1 q _ _ _ W2 Hf' (fun s Hs => conj (proj1 (U' s Hs)) (fun Hc => proj2 (proj2 (U' s Hs) Hc))) D' s' Hs') as [I1 I2].
    split; [exact I1|]. intros Hc. destruct (I2 Hc) as (J1 & J2 & s & Hs & Hsc & Es). split; [exact J1|]. split; [exact J2|].
    exists s. split; [now apply U'|]. auto.
Qed.

Lemma watched_step st o : wf local (tbl st) -> (forall t', o = Bucket t' -> drift (tbl st) t') -> plain o -> watched st -> watched (fst (step local st o)).
Proof.
  intros W D P Q s' Hs'.
  assert (Dq : forall id s0, In s0 (queue st) -> s0 <> id -> In s0 (dequeue id (queue st))) by (intros; now apply dequeue_in).
  assert (Con : forall n i f, (forall d, f <> AsPending d) -> In s' (tbl (fst (connect_node local st n i f))) ->
    (forall s, lookup (enr_id (n_enr n)) (tbl st) = Some s -> s_connected s = false) ->
    s_pending s' = false /\ (s_connected s' = true -> In (s_id s') (queue (fst (connect_node local st n i f))))).
  { intros n i f Hf X Hd. rewrite connect_tbl in X. pose proof (insert_watched (tbl st) n true i f s' (queue st) W Hf Q X) as [Y1 Y2]. split; [exact Y1|].
    intros Hc. specialize (Y2 Hc). unfold connect_node. unfold insert_or_update in *. destruct (enr_id (n_enr n) =? local) eqn:El; cbn [fst queue] in *.
    - apply N.eqb_eq in El. destruct Y2 as [[Y2 Y3]|[Y2 _]].
      + apply Dq; [exact Y3|]. intros E. apply (proj2 W). rewrite <- El, <- E. now apply in_map.
      + exfalso. apply (proj2 W). rewrite <- El, <- Y2. now apply in_map.
    - destruct (lookup (enr_id (n_enr n)) (tbl st)) as [s|] eqn:L.
      + destruct f as [|d|]; [|now destruct (Hf d)|]; cbn [fst snd queue] in *.
        * pose proof L as L0. apply lookup_some in L0. destruct L0 as [L1 L2]. rewrite (proj1 (Q s L1)), (Hd s eq_refl). cbn [negb andb fst queue].
          apply enqueue_in. destruct Y2 as [[_ Y2]|[Y2 _]]; [now right|now left].
        * apply remove_in in X. destruct X as [X Xn]. apply Dq; [|exact Xn]. now apply Q.
      + destruct f as [|d|]; [|now destruct (Hf d)|]; cbn [fst snd queue] in *.
        * apply enqueue_in. destruct Y2 as [[_ Y2]|[Y2 _]]; [now right|now left].
        * apply Dq; [now apply Q|]. intros E. apply lookup_none in L. apply L. rewrite <- E. now apply in_map. }
  destruct o as [l|source seq x f|source cached f|source f|id f|e c f|id|e f|id|t']; cbn [step fst plain] in *; try (now destruct P).
  - unfold process_discovered in *. destruct (discovered local (tbl st) _) as [[t2 ins] rem] eqn:Di. cbn [tbl queue] in *.
    eapply (discovered_watched _ _ (queue st)) in Di; [|exact W| |exact Q|exact Hs'].
    + destruct Di as [D1 D2]. split; [exact D1|]. intros Hc. destruct (D2 Hc) as (X1 & X2 & _).
      assert (Y : In (s_id s') (fold_left (fun q id => enqueue id q) ins (queue st))).
      { clear -X1. revert X1. generalize (queue st). induction ins as [|a ins IH]; intros q X; [exact X|]. cbn [fold_left]. apply IH. apply enqueue_in. now right. }
      revert Y X2. clear. generalize (fold_left (fun q id => enqueue id q) ins (queue st)). induction rem as [|a rem IH]; intros q Y X; [exact Y|].
      cbn [fold_left]. apply IH; [|intros Z; apply X; now right]. apply dequeue_in. split; [exact Y|]. intros E. apply X. left. now symmetry.
    + intros e f d X. apply filter_In in X. apply (P e f d). apply X.
  - unfold process_ping in *. destruct (present_or_pending source (tbl st)) as [n|]; [|now apply Q]. destruct x as [x|]; [|now apply Q].
    destruct (handle_extension x n) as [n'|]; [|now apply Q]. cbn [fst tbl queue] in *.
    destruct (update_watched _ _ _ _ _ W Q Hs') as [U1 U2]. split; [exact U1|]. intros Hc. now destruct (U2 Hc).
  - unfold process_response in *. destruct (lookup (enr_id source) (tbl st)) as [s|] eqn:L.
    + pose proof L as L0. apply lookup_some in L0. destruct L0 as [L1 L2]. destruct (s_connected s) eqn:C.
      * pose proof (status_watched (tbl st) (enr_id source) true f s' (queue st) W Q) as U.
        unfold update_status in *. destruct (enr_id source =? local) eqn:El; cbn [fst snd tbl queue] in *; [now apply Q|].
        rewrite L in *. destruct f as [|d|]; cbn [fst snd tbl queue] in *; [| |].
        { destruct (U Hs') as [U1 U2]. split; [exact U1|]. intros Hc. destruct (U2 Hc) as [(_ & X & _)|[X _]]; [exact X|]. rewrite X, <- L2. now apply Q. }
        { now destruct (P d). }
        { apply remove_in in Hs'. destruct Hs' as [X Xn]. split; [now apply Q|]. intros Hc. apply Dq; [now apply Q|exact Xn]. }
      * apply (Con _ _ _ P Hs'). intros a La. cbn in La. change (enr_id (n_enr (s_node s))) with (s_id s) in La. rewrite L2, L in La. congruence.
    + apply (Con _ _ _ P Hs'). intros a La. cbn [new_node n_enr] in La. congruence.
  - unfold request_failure in *. cbn [tbl queue] in *. destruct (status_watched _ _ _ _ _ _ W Q Hs') as [U1 U2]. split; [exact U1|]. intros Hc.
    destruct (U2 Hc) as [(X1 & X2 & X3)|[_ X]]; [|discriminate]. apply Dq; [exact X2|]. intros E. subst id.
    unfold update_status in Hs'. destruct (s_id s' =? local) eqn:El.
    { apply N.eqb_eq in El. apply (proj2 W). rewrite <- El. now apply in_map. }
    rewrite (lookup_in _ _ (proj1 W) X1) in Hs'. assert (Hid : In (s_id s') (map s_id (tbl st))) by now apply in_map.
    destruct f as [|d|]; cbn [fst] in Hs'; [|now destruct (P d)|].
    + apply replace_in in Hs'; [|exact Hid]. destruct Hs' as [Y|[_ Y]]; [|congruence]. rewrite Y in Hc. cbn in Hc. discriminate.
    + apply remove_in in Hs'. destruct Hs' as [_ Y]. congruence.
  - unfold add_bootnode in *. pose proof (insert_watched (tbl st) (new_node e) c false f s' (queue st) W P Q) as U.
    unfold insert_or_update in *. cbn [new_node n_enr] in *. destruct (enr_id e =? local) eqn:El; cbn [fst tbl queue] in *; [now apply Q|].
    destruct (lookup (enr_id e) (tbl st)) as [s|] eqn:L.
    + destruct f as [|d|]; [|now destruct (P d)|]; cbn [fst tbl queue] in *.
      * destruct (U Hs') as [U1 U2]. split; [exact U1|]. intros Hc. assert (Y : In (s_id s') (enqueue (enr_id e) (queue st))).
        { apply enqueue_in. destruct (U2 Hc) as [[_ X]|[X _]]; [now right|now left]. }
        destruct (s_pending s); exact Y.
      * apply remove_in in Hs'. apply Q. apply Hs'.
    + destruct f as [|d|]; [|now destruct (P d)|]; cbn [fst tbl queue] in *; [|now apply Q].
      destruct (U Hs') as [U1 U2]. split; [exact U1|]. intros Hc. apply enqueue_in. destruct (U2 Hc) as [[_ X]|[X _]]; [now right|now left].
  - rewrite ping_due_tbl in Hs'. destruct (Q s' Hs') as [Q1 Q2]. split; [exact Q1|]. intros Hc. specialize (Q2 Hc). unfold ping_due.
    destruct (existsb (N.eqb id) (queue st)); [|exact Q2]. destruct (N.eq_dec (s_id s') id) as [E|E].
    + unfold present. rewrite <- E, (lookup_in _ _ (proj1 W) Hs'), Q1. cbn [fst queue]. apply enqueue_in. now left.
    + destruct (present id (tbl st)); cbn [fst queue]; [apply enqueue_in; right|]; now apply Dq.
  - unfold delete_enr in *. cbn [tbl queue] in *. apply remove_in in Hs'. apply Q. apply Hs'.
  - cbn [tbl queue] in *. destruct (D t' eq_refl) as [_ D2]. destruct (D2 s' Hs') as [X|(a & Ha & Hp & ->)]; [now apply Q|].
    destruct (Q a Ha) as [Q1 _]. congruence.
Qed.

Lemma reach_app_plain : forall st t, reach local st t -> Forall plain t -> watched st.
Proof.
  intros st t R. induction R as [|st t o R IH D]; intros F; [intros s []|]. apply Forall_app in F. destruct F as [F1 F2]. inversion F2; subst.
  apply watched_step; [eapply reach_wf; eassumption|exact D|assumption|now apply IH].
Qed.

(** As long as peers send no requests, nothing is entered by hand and no bucket is full, every connected peer is
    pinged when its time comes, and stays in the queue for its next turn. *)
Theorem C62_pinged_partial : forall st t e, reach local st t -> Forall plain t -> connected_peer (tbl st) e ->
  snd (step local st (PingDue (enr_id e))) = [OPing (enr_id e)] /\ In (enr_id e) (queue (fst (step local st (PingDue (enr_id e))))).
Proof.
  intros st t e R F (s & Hs & Hc & Hp & <-). destruct (reach_app_plain st t R F s Hs) as [_ Q]. specialize (Q Hc).
  change (enr_id (n_enr (s_node s))) with (s_id s). cbn [step]. unfold ping_due.
  assert (X : existsb (N.eqb (s_id s)) (queue st) = true). { apply existsb_exists. exists (s_id s). split; [exact Q|apply N.eqb_refl]. }
  unfold present. rewrite X, (lookup_in _ _ (proj1 (reach_wf local st t R)) Hs), Hp. split; [reflexivity|]. cbn [fst queue]. apply enqueue_in. now left.
Qed.

(** Nobody who is not in the table is pinged. *)
Theorem C62_only_known : forall st t o id, reach local st t -> In (OPing id) (snd (step local st o)) -> o = PingDue id ->
  exists s, In s (tbl st) /\ s_id s = id /\ s_pending s = false.
Proof.
  intros st t o id R H ->. cbn [step] in H. unfold ping_due in H. destruct (existsb _ _); [|destruct H].
  unfold present in H. destruct (lookup id (tbl st)) as [s|] eqn:L; [|destruct H]. apply lookup_some in L. destruct (s_pending s) eqn:P; [destruct H|].
  exists s. tauto.
Qed.
End Props.

(** In general it is not so: a peer whose request timed out is dropped from the queue; a request from
    that peer makes it connected again but does not put it back, and whatever happens afterwards, short of
    another failure or removal, leaves it connected and never pinged. *)
Definition peer1 : enr := {| enr_id := 5; enr_seq := 1; enr_rest := [] |}.
Definition unwatched_history : list op := [Discovered [(peer1, Accepted)]; Response peer1 Accepted; Failure 5 Accepted; Incoming 5 None Accepted].
Definition run_ops (local : N) (l : list op) : service := fold_left (fun st o => fst (step local st o)) l {| tbl := []; queue := [] |}.
Lemma run_reach local l : (forall o t', In o l -> o <> Bucket t') -> reach local (run_ops local l) l.
Proof.
  unfold run_ops. induction l as [|o l IH] using rev_ind; intros H; [constructor|]. rewrite fold_left_app. cbn [fold_left].
  apply R_step; [apply IH; intros o' t' Ho; apply H, in_app_iff; now left|]. intros t' E. exfalso. apply (H o t'); [apply in_app_iff; right; now left|exact E].
Qed.
Lemma failure_dequeues local st id f x : In x (queue (fst (step local st (Failure id f)))) -> x <> id.
Proof. cbn [step fst]. unfold request_failure. cbn [queue]. rewrite dequeue_in. tauto. Qed.

(** Requests, responses, pings, pongs and records of the peer, none of them a failure. *)
Definition quiet (o : op) : Prop :=
  match o with
  | Incoming id _ f | PingOrPong id _ _ f => id = 5 /\ f = Accepted
  | Response e f => enr_id e = 5 /\ f = Accepted
  | Discovered l => forall e f, In (e, f) l -> enr_id e = 5 /\ f = Accepted
  | PingDue _ => True
  | _ => False
  end.
Definition alone (st : service) : Prop := exists n i, tbl st = [{| s_node := n; s_connected := true; s_incoming := i; s_pending := false |}] /\ enr_id (n_enr n) = 5 /\ queue st = [].
Lemma alone_step st o : alone st -> quiet o -> alone (fst (step 9 st o)) /\ snd (step 9 st o) <> [OPing 5].
Proof.
  intros (n & i & Et & En & Eq) Q. destruct st as [t q]. cbn in Et, Eq. subst t q.
  assert (L : lookup 5 [{| s_node := n; s_connected := true; s_incoming := i; s_pending := false |}] = Some {| s_node := n; s_connected := true; s_incoming := i; s_pending := false |}).
  { unfold lookup. cbn [find]. unfold s_id. cbn [s_node]. rewrite En. reflexivity. }
  assert (Rp : forall x, replace 5 x [{| s_node := n; s_connected := true; s_incoming := i; s_pending := false |}] = [x]).
  { intros x. unfold replace. cbn [map]. unfold s_id. cbn [s_node]. rewrite En. reflexivity. }
  destruct o as [l|source seq x f|source cached f|source f|id f|e c f|id|e f|id|t']; cbn [quiet] in Q; try (now destruct Q).
  - split; [|discriminate]. cbn [step fst]. unfold process_discovered. cbn [tbl queue].
    assert (X : forall l n, (forall e f, In (e, f) l -> enr_id e = 5 /\ f = Accepted) -> enr_id (n_enr n) = 5 ->
      exists n', discovered 9 [{| s_node := n; s_connected := true; s_incoming := i; s_pending := false |}] l = ([{| s_node := n'; s_connected := true; s_incoming := i; s_pending := false |}], [], []) /\ enr_id (n_enr n') = 5).
    { clear. induction l as [|[e f] l IH]; intros n Q En; [exists n; split; [reflexivity|exact En]|].
      destruct (Q e f (or_introl eq_refl)) as [Ee ->]. cbn [discovered]. rewrite Ee.
      assert (L : lookup 5 [{| s_node := n; s_connected := true; s_incoming := i; s_pending := false |}] = Some {| s_node := n; s_connected := true; s_incoming := i; s_pending := false |}).
      { unfold lookup. cbn [find]. unfold s_id. cbn [s_node]. rewrite En. reflexivity. }
      unfold present_or_pending. rewrite L. cbn [s_node]. destruct (_ <? _).
      - unfold update_node. cbn [set_enr n_enr]. rewrite Ee. change (5 =? 9) with false. cbv iota. rewrite L. unfold replace. cbn [map]. unfold s_id. cbn [s_node]. rewrite En.
        change (5 =? 5) with true. cbv iota. cbn [s_connected s_incoming s_pending]. destruct (IH (set_enr n e)) as (n' & -> & E'); [intros e0 f0 X; apply Q; now right|exact Ee|].
        exists n'. split; [reflexivity|exact E'].
      - apply IH; [intros e0 f0 X; apply Q; now right|exact En]. }
    destruct (X (filter (fun x => negb (enr_id (fst x) =? 9)) l) n) as (n' & -> & E'); [intros e f Hi; apply filter_In in Hi; apply Q; apply Hi|exact En|].
    exists n', i. split; [reflexivity|]. split; [exact E'|reflexivity].
  - destruct Q as [-> ->]. cbn [step]. unfold process_ping, present_or_pending. cbn [tbl queue]. rewrite L. cbn [s_node].
    assert (Al : alone {| tbl := [{| s_node := n; s_connected := true; s_incoming := i; s_pending := false |}]; queue := [] |}) by (exists n, i; auto).
    assert (O : (if enr_seq (n_enr n) <? seq then [ORequestRecord 5] else []) <> [OPing 5]) by (destruct (_ <? _); discriminate).
    destruct x as [x|]; [|split; [exact Al|exact O]]. destruct (handle_extension x n) as [n'|] eqn:H; [|split; [exact Al|exact O]].
    split; [|exact O]. cbn [fst]. apply handle_enr in H. destruct H as [H _]. unfold update_node. rewrite H, En. change (5 =? 9) with false. cbv iota. rewrite L, Rp.
    exists n', i. cbn. rewrite H. auto.
  - destruct Q as [-> ->]. cbn [step]. unfold register_activity, present_or_pending. cbn [tbl queue]. rewrite L. unfold update_status. change (5 =? 9) with false. cbv iota. rewrite L, Rp.
    split; [|discriminate]. exists n, i. auto.
  - destruct Q as [E ->]. cbn [step]. unfold process_response. cbn [tbl queue]. rewrite E, L. cbn [s_node s_connected s_incoming]. unfold update_status. change (5 =? 9) with false. cbv iota. rewrite L, Rp.
    split; [|discriminate]. exists n, i. auto.
  - cbn [step]. unfold ping_due. cbn [queue existsb]. split; [exists n, i; auto|discriminate].
Qed.

Theorem C62_pinged_refuted : exists local st t, reach local st t /\ connected_peer (tbl st) peer1 /\
  forall more o, Forall quiet (more ++ [o]) ->
    let st' := fold_left (fun st o => fst (step local st o)) more st in
    (exists e, connected_peer (tbl st') e /\ enr_id e = enr_id peer1) /\ ~ In (OPing (enr_id peer1)) (snd (step local st' o)).
Proof.
  exists 9, (run_ops 9 unwatched_history), unwatched_history. split; [apply run_reach; intros o t'; cbn; intros [<-|[<-|[<-|[<-|[]]]]]; discriminate|].
  split; [eexists; vm_compute; split; [left; reflexivity|]; repeat split; reflexivity|].
  assert (A : alone (run_ops 9 unwatched_history)) by (exists (new_node peer1), false; repeat split; reflexivity).
  intros more o F. apply Forall_app in F. destruct F as [F1 F2]. inversion F2 as [|x y Fo _]; subst. clear F2.
  assert (A' : alone (fold_left (fun st o => fst (step 9 st o)) more (run_ops 9 unwatched_history))).
  { revert A F1. generalize (run_ops 9 unwatched_history). clear. induction more as [|o more IH]; intros st A F; [exact A|]. inversion F; subst. cbn [fold_left].
    apply IH; [|assumption]. apply alone_step; assumption. }
  cbv zeta. split.
  - destruct A' as (n & i & Et & En & _). rewrite Et. exists (n_enr n). split; [eexists; split; [left; reflexivity|]; repeat split|exact En].
  - destruct (alone_step _ o A' Fo) as [_ S]. revert S Fo.
    destruct A' as (n & i & Et & En & Eq). destruct (fold_left _ _ _) as [t q]. cbn in Et, Eq. subst t q.
    intros S Fo X. destruct o as [l|source seq x f|source cached f|source f|id f|e c f|id|e f|id|t']; cbn [quiet step] in *; try (now destruct Fo); try (now destruct X).
    + revert X. unfold process_ping. destruct (present_or_pending _ _) as [n0|]; [|intros []]. destruct (_ <? seq); destruct x as [x|]; try destruct (handle_extension x n0); cbn [snd In]; intuition discriminate.
    + revert X. destruct Fo as [-> ->]. unfold register_activity, present_or_pending. cbn [tbl]. unfold lookup. cbn [find]. unfold s_id. cbn [s_node]. rewrite En. change (5 =? 5) with true. cbv iota.
      destruct (update_status _ _ _ _ _); intros [].
    + revert X. destruct Fo as [E ->]. unfold process_response. cbn [tbl]. unfold lookup. cbn [find]. unfold s_id. cbn [s_node]. rewrite En, E. change (5 =? 5) with true. cbv iota. cbn [s_node s_connected s_incoming].
      destruct (update_status _ _ _ _ _); intros [].
Qed.

(** A record entered by hand replaces a newer one, and the radius reported by the peer is forgotten. *)
Theorem C54_by_hand_refuted : exists local st t s s' e, reach local st t /\ In s (tbl st) /\ s_id s = enr_id e /\ enr_seq e < enr_seq (n_enr (s_node s)) /\
  In s' (tbl (fst (step local st (AddEnr e Accepted)))) /\ s_id s' = s_id s /\ n_enr (s_node s') = e /\ n_radius (s_node s) = 7 /\ n_radius (s_node s') = 2 ^ 256 - 1.
Proof.
  set (h := [Discovered [({| enr_id := 5; enr_seq := 2; enr_rest := [] |}, Accepted)]; PingOrPong 5 2 (Some (XBasicRadius 7)) Accepted]).
  exists 9, (run_ops 9 h), h. eexists. eexists. exists peer1.
  split; [apply run_reach; intros o t'; cbn; intros [<-|[<-|[]]]; discriminate|].
  split; [vm_compute; left; reflexivity|]. split; [vm_compute; reflexivity|]. split; [vm_compute; reflexivity|]. split; [vm_compute; left; reflexivity|].
  repeat split; vm_compute; reflexivity.
Qed.

(** A bucket with more entries than [limit] can hide connected peers although fewer than [limit]
    records are returned: the cut is made before disconnected entries are left out.  (The service
    asks for up to 32 records and buckets hold 16.) *)
Theorem C39_small_limit_refuted : exists local st t local_enr d limit e, reach local st t /\ enr_id local_enr = local /\
  connected_peer (tbl st) e /\ record_distance local e = Some d /\ nodes_by_distances local local_enr [d] limit (tbl st) = [] /\ 0 < limit.
Proof.
  set (h := [Discovered [({| enr_id := 6; enr_seq := 2; enr_rest := [] |}, Accepted)]; Response {| enr_id := 7; enr_seq := 2; enr_rest := [] |} Accepted]).
  exists 0, (run_ops 0 h), h, {| enr_id := 0; enr_seq := 0; enr_rest := [] |}, 3, 1. exists {| enr_id := 7; enr_seq := 2; enr_rest := [] |}.
  split; [apply run_reach; intros o t'; cbn; intros [<-|[<-|[]]]; discriminate|]. split; [reflexivity|].
  split; [eexists; vm_compute; split; [right; left; reflexivity|]; repeat split; reflexivity|]. split; [vm_compute; reflexivity|]. split; vm_compute; reflexivity.
Qed.

(** ** Examples *)
Definition sample : list op :=
  [Discovered [({| enr_id := 6; enr_seq := 2; enr_rest := [] |}, Accepted); ({| enr_id := 40; enr_seq := 1; enr_rest := [] |}, Accepted)];
   Response {| enr_id := 6; enr_seq := 2; enr_rest := [] |} Accepted;
   PingOrPong 6 3 (Some (XBasicRadius 100)) Accepted;
   Discovered [({| enr_id := 6; enr_seq := 3; enr_rest := [1] |}, Accepted)];
   Response {| enr_id := 41; enr_seq := 2; enr_rest := [] |} Accepted].
Lemma sample_reach : reach 9 (run_ops 9 sample) sample.
Proof. apply run_reach. intros o t'. cbn. intros [<-|[<-|[<-|[<-|[<-|[]]]]]]; discriminate. Qed.
Example sample_table : map (fun s => (s_id s, enr_seq (n_enr (s_node s)), s_connected s, n_radius (s_node s) =? 100)) (tbl (run_ops 9 sample)) =
  [(6, 3, true, true); (40, 1, false, false); (41, 2, true, false)].
Proof. vm_compute. reflexivity. Qed.
Example sample_plain : Forall plain sample.
Proof.
  assert (A : forall d, Accepted <> AsPending d) by discriminate.
  repeat constructor; cbn; try exact A; intros e f d X; repeat (destruct X as [X|X]; [injection X as <- <-; discriminate|]); destruct X.
Qed.
Example sample_closest : map enr_id (closest 44 2 (tbl (run_ops 9 sample))) = [41; 6].
Proof. vm_compute. reflexivity. Qed.
Example sample_nodes : map enr_id (nodes_by_distances 9 {| enr_id := 9; enr_seq := 0; enr_rest := [] |} [6; 0; 4; 6] 3 (tbl (run_ops 9 sample))) = [9; 6; 41].
Proof. vm_compute. reflexivity. Qed.

Print Assumptions C54_one_entry.
Print Assumptions C54_newest.
Print Assumptions C54_discovered.
Print Assumptions C54_batch.
Print Assumptions C54_by_hand_refuted.
Print Assumptions C63_radius.
Print Assumptions C38_closest.
Print Assumptions C39_nodes_by_distance.
Print Assumptions C39_small_limit_refuted.
Print Assumptions C62_pinged_partial.
Print Assumptions C62_only_known.
Print Assumptions C62_pinged_refuted.
