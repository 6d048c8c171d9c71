(** C111: lookups of nodes. *)
From Verif Require Import Base.
From Verif Require Import Query_Model Query_Spec Query_Proofs Query_Props QueryPool_Model QueryPool_Spec QueryPool_Props KBucket_Model KBucket_Proofs OverlayApi_Model OverlayApi_Props NodeLookup_Model NodeLookup_Spec NodeLookup_Proofs.
Import NodeLookup_Model NodeLookup_Spec.

Section Lookup.
Context (local : N) (c : config) (k target : N) (closest : list enr).
(** At most 127 distances are asked for, ids have 32 bytes, and the routing table gives different nodes *)
Context (Hk : k <= 127) (Ht : target < 2 ^ 256) (Hclosest : NoDup (map enr_id closest)).
Notation ran := (ran local c k target closest).
Notation seen t := (observe_all c target (map enr_id closest) (transcript t)).
Definition proper (t : list line) : Prop := Forall (fun e => enr_id e < 2 ^ 256) (told closest t).

Lemma known_proper t n : proper t -> In n (known (seen t)) -> n < 2 ^ 256.
Proof.
  intros P I. apply known_told in I. apply in_map_iff in I. destruct I as (e & <- & I). unfold proper in P. rewrite Forall_forall in P. auto.
Qed.
Lemma no_distances n : n < 2 ^ 256 -> (findnode_log2distance target n k = Ok None <-> n = target).
Proof.
  intros Hn. destruct (C37_log_distances target n k Ht Hn Hk) as [A B]. split; [|exact A].
  intros E. destruct (N.eq_dec n target) as [|D]; [assumption|]. destruct (B D) as (d & l & _ & Q & _). congruence.
Qed.
Lemma own_record w lk t n : ran lk t -> In n (known (seen t)) -> find_enr w lk n <> None.
Proof.
  intros R I. pose proof (ran_kept _ _ _ _ _ _ _ Hclosest R) as K. apply known_told in I. apply (k_ids _ _ _ K) in I.
  unfold find_enr. destruct (discovery w n); [discriminate|]. destruct (table_record w n); [discriminate|].
  intros F. apply in_map_iff in I. destruct I as (e & E & I).
  assert (In e (concat (earlier w ++ [lk_untrusted lk] ++ later w))) as I2.
  { rewrite !concat_app. apply in_or_app. right. apply in_or_app. left. cbn. now rewrite app_nil_r. }
  apply (List.find_none _ _ F) in I2. unfold has_id in I2. rewrite E, N.eqb_refl in I2. discriminate.
Qed.
(** The nodes a poll chooses *)
Lemma poll_contact lk t now q n : ran lk t -> poll (lk_query lk) now = Ok (q, QWaiting (Some n)) ->
  q_target q = target /\ over (seen t) = false /\ In n (known (seen t)) /\ ~ In n (asked (seen t)) /\
  forall m, In m (known (seen t)) -> distance_to target m < distance_to target n -> In m (asked (seen t)).
Proof.
  intros R P. pose proof (ran_inv _ _ _ _ _ _ _ R) as I. destruct (poll_inv c target _ _ now I) as (q' & s & P' & [R' _] & H & _).
  rewrite P in P'. injection P' as <- <-. destruct (H n eq_refl) as (_ & _ & H1 & H2 & H3). split; [exact (r_target _ _ _ _ R')|].
  split; [|auto]. destruct (over (seen t)) eqn:O; [|reflexivity]. rewrite (r_over _ _ _ _ (proj1 I)) in O. rewrite (finished_poll _ now O) in P. discriminate.
Qed.

(** No node that is to be contacted is left out, except the target itself. *)
Theorem C111_skipped : forall lk t w now lk' n, ran lk t -> proper t ->
  poll_lookup k w lk now = Ok (lk', Skip n) -> n = target.
Proof.
  intros lk t w now lk' n R P H. apply poll_cases in H. destruct H as (q & s & H & U & -> & F & [D|D]).
  - destruct (poll_contact _ _ _ _ _ R H) as (Q & _ & I & _). rewrite Q in D. apply no_distances in D; [exact D|]. exact (known_proper _ _ P I).
  - destruct (poll_contact _ _ _ _ _ R H) as (_ & _ & I & _). destruct (own_record w lk t n R I D).
Qed.

(** Each request goes to a node that is known and was not asked before, nearer nodes first, for distances around the distance of that
    node to the target; the record used is that of the discovery, else that of the routing table, else one that was told to some lookup. *)
Theorem C111_asked : forall lk t w now lk' e ds, ran lk t -> proper t -> honest w ->
  poll_lookup k w lk now = Ok (lk', Ask e ds) ->
  let v := seen t in let n := enr_id e in
  In n (known v) /\ ~ In n (asked v) /\ n <> target /\
  (forall m, In m (known v) -> distance_to target m < distance_to target n -> In m (asked v)) /\
  (exists d, Distance_Model.log2 (N.lxor n target) = Some d /\ blen ds = k /\ NoDup ds /\ (0 < k -> hd_error ds = Some d) /\
     forall x y, In x ds -> y <= 256 -> ~ In y ds -> gap x d <= gap y d) /\
  (discovery w n = Some e \/
   discovery w n = None /\ table_record w n = Some e \/
   discovery w n = None /\ table_record w n = None /\ In e (concat (earlier w) ++ told closest t ++ concat (later w))).
Proof.
  intros lk t w now lk' e ds R P W H. apply poll_cases in H. destruct H as (q & s & H & U & Q & n & -> & D & F).
  rewrite (find_enr_id _ _ _ _ W F). destruct (poll_contact _ _ _ _ _ R H) as (Qt & _ & I & A & N1). rewrite Qt in D.
  pose proof (known_proper _ _ P I) as B. split; [exact I|]. split; [exact A|].
  assert (Ne : n <> target) by (intros E; apply (no_distances n B) in E; congruence). split; [exact Ne|]. split; [exact N1|]. split.
  - destruct (C37_log_distances target n k Ht B Hk) as [_ X]. destruct (X Ne) as (d & l & L & El & X1 & X2 & X3 & _ & _ & X4).
    rewrite El in D. injection D as <-. exists d. auto.
  - unfold find_enr in F. destruct (discovery w n) as [x|]; [left; exact F|right]. destruct (table_record w n) as [x|]; [left; auto|right].
    split; [reflexivity|]. split; [reflexivity|]. apply find_some in F. destruct F as [F _]. rewrite U, !concat_app in F.
    apply in_app_or in F. apply in_or_app. destruct F as [F|F]; [now left|right]. apply in_app_or in F. apply in_or_app.
    destruct F as [F|F]; [left|now right]. cbn in F. rewrite app_nil_r in F. exact (k_incl _ _ _ (ran_kept _ _ _ _ _ _ _ Hclosest R) _ F).
Qed.

(** Nothing makes a lookup panic. *)
Theorem C111_no_panic : forall lk t, ran lk t -> proper t ->
  (forall w now, exists r, poll_lookup k w lk now = Ok r) /\ (forall source enrs, exists lk', advance_lookup local lk source enrs = Ok lk').
Proof.
  intros lk t R P. pose proof (ran_inv _ _ _ _ _ _ _ R) as I. split.
  - intros w now. destruct (poll_inv c target _ _ now I) as (q & s & H & [R' _] & _). unfold poll_lookup. rewrite H. cbn [obind].
    assert (F : forall n u, exists r, failing q n u = Ok r).
    { intros n u. unfold failing. destruct (failure_inv c target q _ n R') as (q' & E & _). rewrite E. cbn. eauto. }
    destruct s as [[n|]| |m|]; [|destruct (timed_out w); eauto|destruct (timed_out w); eauto|destruct (timed_out w); eauto|eauto].
    destruct (poll_contact _ _ _ _ _ R H) as (Q & _ & K & _). rewrite Q. pose proof (known_proper _ _ P K) as B.
    destruct (C37_log_distances target n k Ht B Hk) as [X Y]. destruct (N.eq_dec n target) as [E|D].
    + rewrite (X E). cbn. apply F.
    + destruct (Y D) as (d & l & _ & E & _). rewrite E. cbn. destruct (find_enr w _ n); eauto.
  - intros source enrs. unfold advance_lookup. destruct (success_inv c target _ _ source (map enr_id enrs) (proj1 I)) as (q & E & _).
    rewrite E. cbn. eauto.
Qed.

Lemma reply_ids lk t w now lk' l : ran lk t -> poll_lookup k w lk now = Ok (lk', Reply l) ->
  exists q s, poll (lk_query lk) now = Ok (q, s) /\ (s = QFinished \/ timed_out w = true) /\ (forall n, s <> QWaiting (Some n)) /\
  map enr_id l = into_result q /\ incl (into_result q) (answered (seen t)) /\
  Forall (fun e => In e (told closest t) /\ (enr_id e <> local -> first_record (enr_id e) (told closest t) e)) l.
Proof.
  intros R H. apply poll_cases in H. destruct H as (q & s & H & U & Q & -> & E & NW). exists q, s. split; [exact H|]. split; [exact E|]. split; [exact NW|].
  pose proof (poll_step _ _ _ _ _ _ _ _ (ran_history _ _ _ _ _ _ _ R) H) as Hh.
  destruct (C32_result _ _ _ _ _ Hh) as [(near & C & Q2) _]. rewrite observe_all_snoc in C. cbn [observe answered] in C.
  pose proof (ran_kept _ _ _ _ _ _ _ Hclosest R) as K. pose proof (ran_inv _ _ _ _ _ _ _ R) as [I _].
  assert (Sub : incl (into_result q) (answered (seen t))).
  { intros n J. rewrite Q2 in J. apply firstn_incl in J. exact (Permutation_in _ (proj1 C) J). }
  assert (Nd : NoDup (into_result q)).
  { rewrite Q2. assert (NoDup near) as X by exact (Permutation_NoDup (Permutation_sym (proj1 C)) (r_answered_nodup _ _ _ _ I)).
    rewrite <- (firstn_skipn (N.to_nat (num_results c)) near) in X. clear -X. induction (firstn _ near) as [|x a IH]; [constructor|]. inversion X as [|? ? X1 X2]; subst. constructor; [|auto]. intros Y. apply X1, in_or_app. now left. }
  assert (In2 : incl (into_result q) (map enr_id (lk_untrusted lk'))).
  { rewrite U. intros n J. apply (k_ids _ _ _ K), (known_told c target), (r_asked_known _ _ _ _ I), (r_answered _ _ _ _ I), Sub, J. }
  unfold NodeLookup_Model.found. rewrite Q.
  pose proof (collect_spec local w {| lk_query := q; lk_untrusted := [] |} (into_result q) (lk_untrusted lk') Nd In2) as S.
  rewrite U in S |- *. specialize (S (k_single _ _ _ K)). split; [|split; [exact Sub|]].
  - clear -S. induction S as [|n e ids l [E _] S IH]; [reflexivity|]. cbn. now rewrite E, IH.
  - clear -S K. induction S as [|n e ids l [E J] S IH]; constructor; [|exact IH]. split; [exact (k_incl _ _ _ K _ J)|exact (k_first _ _ _ K _ J)].
Qed.

(** The records that the caller gets: of the nearest nodes that answered, nearest first; each is the first one that was told for its node. *)
Theorem C111_result : forall lk t w now lk' l, ran lk t ->
  poll_lookup k w lk now = Ok (lk', Reply l) ->
  (exists near, closest_first target near (answered (seen t)) /\ map enr_id l = firstn (N.to_nat (num_results c)) near) /\
  Forall (fun e => In e (told closest t) /\ (enr_id e <> local -> first_record (enr_id e) (told closest t) e)) l.
Proof.
  intros lk t w now lk' l R H. destruct (reply_ids _ _ _ _ _ _ R H) as (q & s & P & _ & _ & M & _ & F). split; [|exact F].
  pose proof (poll_step _ _ _ _ _ _ _ _ (ran_history _ _ _ _ _ _ _ R) P) as Hh.
  destruct (C32_result _ _ _ _ _ Hh) as [(near & C & Q2) _]. rewrite observe_all_snoc in C. cbn [observe answered] in C. exists near. split; [exact C|congruence].
Qed.
(** A lookup that is not cut off by the clock has asked every node it was told of that is nearer than the last of the result,
    and all of them if the result is not full. *)
Theorem C111_complete : forall lk t w now lk' l, ran lk t -> timed_out w = false ->
  poll_lookup k w lk now = Ok (lk', Reply l) ->
  let v := observe c target (seen t) (EPoll now QFinished) in
  forall n, In n (known v) -> (blen l < num_results c \/ exists e, In e l /\ distance_to target n <= distance_to target (enr_id e)) ->
  settled c v n.
Proof.
  intros lk t w now lk' l R T H. destruct (reply_ids _ _ _ _ _ _ R H) as (q & s & P & [->|E] & _ & M & _ & F); [|congruence].
  pose proof (poll_step _ _ _ _ _ _ _ _ (ran_history _ _ _ _ _ _ _ R) P) as Hh.
  destruct (C32_result _ _ _ _ _ Hh) as [_ W]. rewrite observe_all_snoc in W. cbv zeta. intros n K X.
  apply W; [reflexivity|exact K|]. rewrite <- M. destruct X as [X|(e & I & X)].
  - left. unfold blen in *. now rewrite map_length.
  - right. exists (enr_id e). split; [now apply in_map|exact X].
Qed.

(** ** The target itself *)
Lemma proper_front t l : proper (t ++ [l]) -> proper t.
Proof. unfold proper, told. rewrite flat_map_app, app_assoc, Forall_app. now intros []. Qed.
Lemma seen_snoc t l : seen (t ++ [l]) = fold_left (observe c target) (events l) (seen t).
Proof. rewrite transcript_snoc. unfold observe_all. now rewrite fold_left_app. Qed.
Lemma target_state lk t : ran lk t -> proper t ->
  (In target (asked (seen t)) -> In target (failed (seen t))) /\ ~ In target (answered (seen t)) /\ incl (failed (seen t)) [target].
Proof.
  intros R. induction R as [lk I|lk t w now lk' e ds R IH W P|lk t w now lk' n R IH W P|lk t w now lk' s R IH W P|lk t src enrs lk' R IH P]; intros Pr.
  - cbn. split; [auto|]. split; [auto|]. intros ? [].
  - pose proof (proper_front _ _ Pr) as Pr'. specialize (IH Pr'). destruct IH as (A & B & C). rewrite seen_snoc. cbn [events fold_left].
    destruct (C111_asked _ _ _ _ _ _ _ R Pr' W P) as (_ & _ & Ne & _). cbn [observe failed answered]. split; [|auto].
    unfold asked. cbn [contacted]. rewrite map_app, in_app_iff. intros [I|[I|[]]]; [auto|]. exfalso. exact (Ne I).
  - pose proof (proper_front _ _ Pr) as Pr'. specialize (IH Pr'). destruct IH as (A & B & C). rewrite seen_snoc. cbn [events fold_left].
    assert (n = target) as -> by exact (C111_skipped _ _ _ _ _ _ R Pr' P).
    apply poll_cases in P. destruct P as (q & s & P & U & -> & F & D). destruct (poll_contact _ _ _ _ _ R P) as (_ & O & K & NA & _).
    pose proof (ran_inv _ _ _ _ _ _ _ R) as [I _].
    set (v1 := observe c target (seen t) (EPoll now (QWaiting (Some target)))).
    assert (Cn : counts v1 target = true).
    { unfold counts, v1. cbn [observe over answered failed]. unfold asked. cbn [contacted]. rewrite O. cbn [negb andb].
      assert (mem target (map fst (contacted (seen t) ++ [(target, now)])) = true) as -> by (apply mem_spec; rewrite map_app; apply in_or_app; right; now left).
      assert (mem target (answered (seen t)) = false) as -> by (apply mem_false; exact B).
      assert (mem target (failed (seen t)) = false) as -> by (apply mem_false; intros J; exact (NA (r_failed _ _ _ _ I _ J))). reflexivity. }
    cbn [observe]. fold v1. change (observe c target (seen t) (EPoll now (QWaiting (Some target)))) with v1. rewrite Cn. cbn [failed answered].
    split; [intros _; apply in_or_app; right; now left|]. split; [exact B|]. intros x J. apply in_app_or in J. destruct J as [J|J]; [exact (C x J)|exact J].
  - pose proof (proper_front _ _ Pr) as Pr'. specialize (IH Pr'). destruct IH as (A & B & C). rewrite seen_snoc. cbn [events fold_left].
    apply poll_cases in P. destruct P as (q & s' & P & U & Q & -> & _ & _ & NW). cbn [observe failed answered]. split; [|auto].
    unfold asked. cbn [contacted]. destruct s' as [[n|]| | |]; auto. destruct (NW n eq_refl).
  - pose proof (proper_front _ _ Pr) as Pr'. specialize (IH Pr'). destruct IH as (A & B & C). rewrite seen_snoc. cbn [events fold_left observe].
    destruct (counts (seen t) src) eqn:Cn; [|auto]. cbn [failed answered]. split; [exact A|]. split; [|exact C].
    intros J. apply in_app_or in J. destruct J as [J|[->|[]]]; [auto|]. unfold counts in Cn. rewrite !andb_true_iff, !negb_true_iff in Cn.
    destruct Cn as [[[_ X] _] Y]. apply mem_spec in X. apply mem_false in Y. auto.
Qed.
(** A search for a node never finds it: the node is not asked, and it is not in the result, however often it is named. *)
Theorem C111_target_refuted : forall lk t w now lk' l, ran lk t -> proper t ->
  poll_lookup k w lk now = Ok (lk', Reply l) ->
  ~ In target (map enr_id l) /\ forall e ds at_, ~ In (LAsked target e ds at_) t.
Proof.
  intros lk t w now lk' l R P H. split.
  - destruct (reply_ids _ _ _ _ _ _ R H) as (q & s & _ & _ & _ & M & Sub & _). rewrite M. intros I. apply Sub in I.
    exact (proj1 (proj2 (target_state _ _ R P)) I).
  - clear H w now lk' l. intros e ds at_. induction R as [lk I|lk t w now lk' e' ds' R IH W Po|lk t w now lk' n R IH W Po|lk t w now lk' s R IH W Po|lk t src enrs lk' R IH Po];
      [intros []| | | |]; pose proof (proper_front _ _ P) as P'; specialize (IH P'); intros J; apply in_app_or in J; destruct J as [J|[J|[]]]; auto; try discriminate.
    injection J as J _ _ _. destruct (C111_asked _ _ _ _ _ _ _ R P' W Po) as (_ & _ & Ne & _). exact (Ne J).
Qed.
(** So the record of a node that is not in the routing table is never what asking for that record gives. *)
Theorem C111_record_refuted : forall own cached ask lk t w now lk' l table e,
  ran lk t -> proper t -> poll_lookup k w lk now = Ok (lk', Reply l) ->
  enr_id own <> target -> ~ In target (map s_id table) ->
  lookup_enr own cached (fun _ => l) ask table target = Ok e -> enr_id e <> target.
Proof.
  intros own cached ask lk t w now lk' l table e R P H O Nt L. destruct (C111_target_refuted _ _ _ _ _ _ R P H) as [NI _].
  assert (O' : target <> enr_id own) by congruence. assert (Q' := O'). apply N.eqb_neq in Q'.
  assert (Lk := proj2 (lookup_none target table) Nt).
  assert (G : get_enr own table target = Err) by (unfold get_enr, present; rewrite Q', Lk; reflexivity).
  assert (Ln : lookup_node own cached (fun _ => l) table target = l) by (unfold lookup_node, is_connected; rewrite Q', Lk; reflexivity).
  destruct (C82_lookup own cached (fun _ => l) ask table target O') as (_ & _ & X & _).
  destruct (X e L) as [(known & es & G' & _)|[[Nw _]|[G' _]]]; [congruence| |congruence].
  rewrite Ln in Nw. destruct Nw as [I _]. intros E. apply NI. rewrite <- E. now apply in_map.
Qed.

(** A request that fails is not reported to the lookup: its node counts as one whose answer is awaited until its time is up. *)
Theorem C111_failure_refuted : forall lk t n e ds now, ran lk t -> proper t ->
  In (LAsked n e ds now) t -> ~ In n (answered (seen t)) -> clock (seen t) < now + peer_timeout c ->
  In (n, now) (contacted (seen t)) /\ out_at c (seen t) (n, now) = true.
Proof.
  intros lk t n e ds now R P J A T.
  assert (Ne : n <> target /\ In (n, now) (contacted (seen t))).
  { clear A T. induction R as [lk I|lk t w now' lk' e' ds' R IH W Po|lk t w now' lk' n' R IH W Po|lk t w now' lk' s R IH W Po|lk t src enrs lk' R IH Po];
      [destruct J| | | |]; pose proof (proper_front _ _ P) as P'; specialize (IH P'); apply in_app_or in J; rewrite seen_snoc; cbn [events fold_left].
    - destruct J as [J|[J|[]]].
      + destruct (IH J) as [X Y]. split; [exact X|]. cbn [observe contacted]. apply in_or_app. now left.
      + injection J as <- <- <- <-. split; [exact (proj1 (proj2 (proj2 (C111_asked _ _ _ _ _ _ _ R P' W Po))))|]. cbn [observe contacted]. apply in_or_app. right. now left.
    - destruct J as [J|[J|[]]]; [|discriminate]. destruct (IH J) as [X Y]. split; [exact X|].
      unfold observe at 1. destruct (counts _ _); cbn [observe contacted]; apply in_or_app; now left.
    - destruct J as [J|[J|[]]]; [|discriminate]. destruct (IH J) as [X Y]. split; [exact X|]. cbn [observe contacted].
      destruct s as [[m|]| | |]; try exact Y. apply in_or_app; now left.
    - destruct J as [J|[J|[]]]; [|discriminate]. destruct (IH J) as [X Y]. split; [exact X|]. cbn [observe]. destruct (counts _ _); exact Y. }
  destruct Ne as [Ne Ic]. split; [exact Ic|]. unfold out_at. cbn [fst snd].
  assert (mem n (answered (seen t)) = false) as -> by (apply mem_false; exact A).
  assert (mem n (failed (seen t)) = false) as ->.
  { apply mem_false. intros F. destruct (proj2 (proj2 (target_state _ _ R P)) _ F) as [X|[]]. congruence. }
  apply N.ltb_lt in T. now rewrite T.
Qed.
(** The nodes contacted are those asked, and the target *)
Lemma contacted_asked lk t n : ran lk t -> proper t -> In n (asked (seen t)) -> n <> target -> exists e ds now, In (LAsked n e ds now) t.
Proof.
  intros R P J Ne.
  induction R as [lk I|lk t w now' lk' e' ds' R IH W Po|lk t w now' lk' n' R IH W Po|lk t w now' lk' s R IH W Po|lk t src enrs lk' R IH Po];
    [destruct J| | | |]; pose proof (proper_front _ _ P) as P'; specialize (IH P'); rewrite seen_snoc in J; cbn [events fold_left] in J.
  - unfold asked in J. cbn [observe contacted] in J. rewrite map_app, in_app_iff in J. destruct J as [J|[J|[]]].
    + destruct (IH J) as (e & ds & now & X). exists e, ds, now. apply in_or_app. now left.
    + cbn in J. subst n. exists e', ds', now'. apply in_or_app. right. now left.
  - assert (n' = target) as -> by exact (C111_skipped _ _ _ _ _ _ R P' Po).
    assert (J' : In n (asked (seen t))).
    { unfold observe at 1 in J. unfold asked in J. destruct (counts _ _); cbn [observe contacted] in J; rewrite map_app, in_app_iff in J;
        destruct J as [J|[J|[]]]; auto; cbn in J; congruence. }
    destruct (IH J') as (e & ds & now & X). exists e, ds, now. apply in_or_app. now left.
  - apply poll_cases in Po. destruct Po as (q & s' & _ & _ & _ & -> & _ & _ & NW).
    assert (J' : In n (asked (seen t))) by (unfold asked in *; cbn [observe contacted] in J; destruct s' as [[m|]| | |]; auto; destruct (NW m eq_refl)).
    destruct (IH J') as (e & ds & now & X). exists e, ds, now. apply in_or_app. now left.
  - assert (J' : In n (asked (seen t))) by (cbn [observe] in J; destruct (counts _ _); exact J).
    destruct (IH J') as (e & ds & now & X). exists e, ds, now. apply in_or_app. now left.
Qed.
(** A node that is named by a peer asks itself: a lookup that is not cut off and whose result is not full has asked the local node. *)
Theorem C111_self_refuted : forall lk t w now lk' l, ran lk t -> proper t -> timed_out w = false ->
  poll_lookup k w lk now = Ok (lk', Reply l) -> local <> target -> In local (known (seen t)) -> blen l < num_results c ->
  exists e ds at_, In (LAsked local e ds at_) t.
Proof.
  intros lk t w now lk' l R P T H Ne K B. destruct (C111_complete _ _ _ _ _ _ R T H local K (or_introl B)) as (at_ & I & _).
  apply (contacted_asked lk t local R P); [|exact Ne]. unfold asked. apply in_map_iff. exists (local, at_). split; [reflexivity|]. exact I.
Qed.
(** A newer record of a node that is told later is not returned. *)
Theorem C111_stale_refuted : forall lk t w now lk' l e e', ran lk t -> poll_lookup k w lk now = Ok (lk', Reply l) ->
  enr_id e <> local -> first_record (enr_id e) (told closest t) e -> In e' (told closest t) -> enr_id e' = enr_id e -> enr_seq e < enr_seq e' ->
  ~ In e' l.
Proof.
  intros lk t w now lk' l e e' R H L F _ E S I. destruct (C111_result _ _ _ _ _ _ R H) as [_ A]. rewrite Forall_forall in A.
  destruct (A e' I) as [_ X]. rewrite E in X. pose proof (first_unique _ _ _ _ (X L) F). subst e'. lia.
Qed.
(** Nothing is looked up if the routing table is empty. *)
Theorem C111_empty : init_find_nodes_query c target closest = None <-> closest = [].
Proof. unfold init_find_nodes_query. destruct closest; split; congruence. Qed.
End Lookup.
Print Assumptions C111_skipped.
Print Assumptions C111_asked.
Print Assumptions C111_no_panic.
Print Assumptions C111_result.
Print Assumptions C111_complete.
Print Assumptions C111_target_refuted.
Print Assumptions C111_record_refuted.
Print Assumptions C111_failure_refuted.
Print Assumptions C111_self_refuted.
Print Assumptions C111_stale_refuted.
Print Assumptions C111_empty.

(** A search for node 12 by node 1: node 8 names node 12 and a newer record of itself, and node 1; node 12 is left out, node 1 is asked. *)
Definition nobody : surroundings := {| discovery := fun _ => None; table_record := fun _ => None; earlier := []; later := []; timed_out := false |}.
Definition cfg : config := {| parallelism := 3; num_results := 3; peer_timeout := 10 |}.
Definition near : list enr := [rec 8 1; rec 4 1].
Definition lines : list line :=
  [LAsked 8 (rec 8 1) [3; 4; 2] 0; LAnswer 8 [rec 12 5; rec 1 1; rec 8 2]; LSkipped 12 1; LAsked 4 (rec 4 1) [4; 5; 3] 1;
   LAsked 1 (rec 1 1) [4; 5; 3] 1; LAnswer 4 []; LIdle 2 (QWaiting None)].
Lemma nobody_honest : honest nobody.
Proof. split; discriminate. Qed.
Ltac polled K H now :=
  match type of H with ran _ _ _ _ _ ?lk ?t =>
    let x := eval vm_compute in (poll_lookup 3 nobody lk now) in
    match x with Ok (?l, ?e) =>
      let P := fresh in assert (P : poll_lookup 3 nobody lk now = Ok (l, e)) by (vm_compute; reflexivity); first [apply (K _ _ _ _ _ _ _ _ _ _ _ _ H nobody_honest) in P|apply (K _ _ _ _ _ _ _ _ _ _ _ H nobody_honest) in P];
      clear H; rename P into H
    end
  end.
Ltac answered H source enrs :=
  match type of H with ran _ _ _ _ _ ?lk ?t =>
    let x := eval vm_compute in (advance_lookup 1 lk source enrs) in
    match x with Ok ?l =>
      let P := fresh in assert (P : advance_lookup 1 lk source enrs = Ok l) by (vm_compute; reflexivity); apply (R_answer _ _ _ _ _ _ _ _ _ _ H) in P;
      clear H; rename P into H
    end
  end.
Example C111_example : exists lk, ran 1 cfg 3 12 near lk lines /\ NoDup (map enr_id near) /\ proper near lines /\
  exists lk', poll_lookup 3 nobody lk 20 = Ok (lk', Reply [rec 8 1; rec 4 1]).
Proof.
  assert (S0 : exists lk, init_find_nodes_query cfg 12 near = Some lk /\ ran 1 cfg 3 12 near lk []).
  { let x := eval vm_compute in (init_find_nodes_query cfg 12 near) in match x with Some ?l => exists l end.
    match goal with |- ?A /\ _ => assert (E : A) by (vm_compute; reflexivity) end. split; [exact E|exact (R_start _ _ _ _ _ _ E)]. }
  destruct S0 as (lk & E & H). vm_compute in E. injection E as <-.
  polled R_asked H 0. answered H 8 [rec 12 5; rec 1 1; rec 8 2]. polled R_skipped H 1. polled R_asked H 1. polled R_asked H 1.
  answered H 4 (@nil enr). polled R_idle H 2.
  eexists. split; [exact H|]. split; [|split].
  - cbn. repeat constructor; cbn; intuition discriminate.
  - unfold proper. cbn. repeat constructor.
  - eexists. vm_compute. reflexivity.
Qed.
