(** The invariant between a lookup and what its observer knows. *)
From Verif Require Import Base.
From Verif Require Import Query_Model Query_Spec.

Definition ids (m : peer_map) : list N := map (fun e => p_id (snd e)) m.
Definition is_waiting (p : peer) : bool := match p_state p with Waiting _ => true | _ => false end.
Definition waiting_in (m : peer_map) : N := blen (filter (fun e => is_waiting (snd e)) m).

Definition entry_ok (c : config) (v : view) (p : peer) : Prop :=
  match p_state p with
  | NotContacted => ~ In (p_id p) (asked v)
  | Waiting t => (exists now, In (p_id p, now) (contacted v) /\ t = now + peer_timeout c) /\
                 ~ In (p_id p) (answered v) /\ ~ In (p_id p) (failed v)
  | Unresponsive => (exists now, In (p_id p, now) (contacted v) /\ now + peer_timeout c <= clock v) /\
                    ~ In (p_id p) (answered v) /\ ~ In (p_id p) (failed v)
  | Failed => In (p_id p) (failed v) /\ ~ In (p_id p) (answered v)
  | Succeeded => In (p_id p) (answered v) /\ ~ In (p_id p) (failed v)
  end.

Record rel (c : config) (target : N) (q : query) (v : view) : Prop := {
  r_config : q_config q = c;
  r_target : q_target q = target;
  r_sorted : StronglySorted N.lt (map fst (q_peers q));
  r_keys : Forall (fun e => fst e = N.lxor target (p_id (snd e))) (q_peers q);
  r_known : forall id, In id (known v) <-> In id (ids (q_peers q));
  r_known_nodup : NoDup (known v);
  r_entries : Forall (fun e => entry_ok c v (snd e)) (q_peers q);
  r_waiting : q_waiting q = waiting_in (q_peers q);
  r_asked_known : incl (asked v) (known v);
  r_asked_nodup : NoDup (asked v);
  r_answered : incl (answered v) (asked v);
  r_answered_nodup : NoDup (answered v);
  r_failed : incl (failed v) (asked v);
  r_failed_nodup : NoDup (failed v);
  r_over : over v = is_finished q;
  r_streak : 0 < parallelism c ->
             match q_progress q with
             | Iterating n => streak v = n /\ n < parallelism c
             | Stalled => parallelism c <= streak v
             | Finished => True
             end;
  r_cap : q_waiting q <= N.max (parallelism c) (num_results c)
}.

(** ** Lists *)
Lemma blen_cons {A} (a : A) l : blen (a :: l) = 1 + blen l.
Proof. unfold blen. cbn [length]. lia. Qed.
Lemma blen_app {A} (a b : list A) : blen (a ++ b) = blen a + blen b.
Proof. unfold blen. rewrite app_length. lia. Qed.
Lemma mem_spec x l : mem x l = true <-> In x l.
Proof.
  unfold mem. rewrite existsb_exists. split.
  - intros (y & H & E). apply N.eqb_eq in E. now subst.
  - intros H. exists x. split; [exact H|apply N.eqb_refl].
Qed.
Lemma mem_false x l : mem x l = false <-> ~ In x l.
Proof. rewrite <- mem_spec. destruct (mem x l); split; intros; congruence. Qed.
Lemma nodup_app_end {A} (l : list A) x : NoDup l -> ~ In x l -> NoDup (l ++ [x]).
Proof.
  intros N H. apply (Permutation_NoDup (l := x :: l)); [|now constructor].
  apply Permutation_cons_append.
Qed.
Lemma nodup_same_length {A} (a b : list A) : NoDup a -> NoDup b -> (forall x, In x a <-> In x b) -> blen a = blen b.
Proof.
  intros Na Nb H. unfold blen.
  assert (length a <= length b)%nat by (apply NoDup_incl_length; [exact Na|intros x; apply H]).
  assert (length b <= length a)%nat by (apply NoDup_incl_length; [exact Nb|intros x; apply H]).
  lia.
Qed.
Lemma learn_all_in new : forall l x, In x (learn_all l new) <-> In x l \/ In x new.
Proof.
  induction new as [|y r IH]; intros l x; cbn [learn_all].
  - cbn. tauto.
  - rewrite IH. destruct (mem y l) eqn:E.
    + apply mem_spec in E. cbn. split; [tauto|]. intros [H|[->|H]]; tauto.
    + rewrite in_app_iff. cbn. tauto.
Qed.
Lemma learn_all_nodup new : forall l, NoDup l -> NoDup (learn_all l new).
Proof.
  induction new as [|y r IH]; intros l H; cbn [learn_all]; [exact H|].
  apply IH. destruct (mem y l) eqn:E; [exact H|]. apply nodup_app_end; [exact H|now apply mem_false].
Qed.

(** ** The map of peers *)
Lemma lxor_inj t a b : N.lxor t a = N.lxor t b -> a = b.
Proof.
  intros H. apply (f_equal (N.lxor t)) in H.
  rewrite <- !N.lxor_assoc, N.lxor_nilpotent, !N.lxor_0_l in H. exact H.
Qed.
Lemma sorted_nodup l : StronglySorted N.lt l -> NoDup l.
Proof.
  induction 1 as [|a l S IH F]; constructor; [|exact IH].
  intros H. rewrite Forall_forall in F. specialize (F a H). lia.
Qed.
Definition keys_ok (target : N) (m : peer_map) := Forall (fun e => fst e = N.lxor target (p_id (snd e))) m.
Lemma keys_map target m : keys_ok target m -> map fst m = map (N.lxor target) (ids m).
Proof. induction 1 as [|[d p] m H F IH]; cbn; [reflexivity|]. cbn in H. now rewrite H, IH. Qed.
Lemma nodup_map_inv {A B} (f : A -> B) l : NoDup (map f l) -> NoDup l.
Proof. apply NoDup_map_inv. Qed.
Lemma ids_nodup target m : StronglySorted N.lt (map fst m) -> keys_ok target m -> NoDup (ids m).
Proof. intros S K. apply sorted_nodup in S. rewrite (keys_map _ _ K) in S. exact (NoDup_map_inv _ _ S). Qed.
Lemma ids_app a b : ids (a ++ b) = ids a ++ ids b.
Proof. apply map_app. Qed.
Lemma waiting_app a b : waiting_in (a ++ b) = waiting_in a + waiting_in b.
Proof. unfold waiting_in. rewrite filter_app. apply blen_app. Qed.
Lemma waiting_cons e m : waiting_in (e :: m) = (if is_waiting (snd e) then 1 else 0) + waiting_in m.
Proof. unfold waiting_in. cbn [filter]. destruct (is_waiting (snd e)); [apply blen_cons|lia]. Qed.

Lemma find_split d m p s : find_peer d m = Some p ->
  exists pre post, m = pre ++ (d, p) :: post /\ set_peer d s m = pre ++ (d, set_state p s) :: post.
Proof.
  induction m as [|[k p'] r IH]; cbn [find_peer set_peer]; [discriminate|].
  destruct (d =? k) eqn:E.
  - intros [= ->]. apply N.eqb_eq in E. subst k. now exists [], r.
  - intros H. destruct (IH H) as (pre & post & -> & E2). exists ((k, p') :: pre), post.
    split; [reflexivity|]. now rewrite E2.
Qed.
Lemma find_none target d m : keys_ok target m -> find_peer d m = None -> forall id, d = N.lxor target id -> ~ In id (ids m).
Proof.
  induction 1 as [|[k p'] r H F IH]; cbn [find_peer ids map]; [intros _ id _ []|].
  cbn [fst snd] in H. destruct (d =? k) eqn:E; [discriminate|]. intros Hr id Hd [Hi|Hi].
  - apply N.eqb_neq in E. subst. now apply E.
  - exact (IH Hr id Hd Hi).
Qed.

Lemma or_insert_in target id m : keys_ok target m -> StronglySorted N.lt (map fst m) ->
  forall e, In e (or_insert (N.lxor target id) (new_peer id) m) <->
            In e m \/ (~ In id (ids m) /\ e = (N.lxor target id, new_peer id)).
Proof.
  induction m as [|[k p'] r IH]; intros K S e; cbn [or_insert].
  - cbn. split; [intros [<-|[]]; right; split; [tauto|reflexivity]|]. intros [[]|[_ ->]]. now left.
  - set (d := N.lxor target id) in *.
    assert (K' : keys_ok target r) by (inversion K; assumption).
    assert (Hk : k = N.lxor target (p_id p')) by (inversion K; assumption).
    assert (S' : StronglySorted N.lt (map fst r)) by (inversion S; assumption).
    assert (F : Forall (N.lt k) (map fst r)) by (inversion S; assumption).
    destruct (d <? k) eqn:L.
    + apply N.ltb_lt in L.
      assert (~ In id (ids ((k, p') :: r))).
      { intros Hi. assert (Hd : In d (map fst ((k, p') :: r))).
        { rewrite (keys_map _ _ K). now apply in_map. }
        cbn in Hd. destruct Hd as [Hd|Hd]; [lia|]. rewrite Forall_forall in F. specialize (F _ Hd). lia. }
      cbn [In]. split; [intros [<-|[<-|He]]; tauto|]. intros [[<-|He]|[_ ->]]; tauto.
    + destruct (d =? k) eqn:E.
      * apply N.eqb_eq in E. split; [tauto|]. intros [He|[Hn _]]; [exact He|].
        exfalso. apply Hn. cbn. left. apply (lxor_inj target). now rewrite <- Hk.
      * apply N.eqb_neq in E. cbn [In]. rewrite (IH K' S').
        assert (Hne : p_id p' <> id) by (intros <-; now apply E).
        cbn [ids map]. cbn [In snd]. fold (ids r). tauto.
Qed.
Lemma or_insert_sorted d p m : StronglySorted N.lt (map fst m) -> StronglySorted N.lt (map fst (or_insert d p m)).
Proof.
  induction m as [|[k p'] r IH]; intros S; cbn [or_insert].
  - cbn. constructor; constructor.
  - assert (S' : StronglySorted N.lt (map fst r)) by (inversion S; assumption).
    assert (F : Forall (N.lt k) (map fst r)) by (inversion S; assumption).
    destruct (d <? k) eqn:L.
    + apply N.ltb_lt in L. cbn [map fst]. constructor; [exact S|].
      constructor; [exact L|]. eapply Forall_impl; [|exact F]. cbn. intros. lia.
    + destruct (d =? k) eqn:E; [exact S|]. cbn [map fst]. constructor; [now apply IH|].
      apply N.ltb_ge in L. apply N.eqb_neq in E.
      clear IH S. induction r as [|[k2 p2] r IH]; cbn [or_insert].
      * cbn. constructor; [lia|constructor].
      * assert (Hk2 : k < k2) by (inversion F; assumption).
        assert (F2 : Forall (N.lt k) (map fst r)) by (inversion F; assumption).
        destruct (d <? k2); [cbn; constructor; [lia|exact F]|].
        destruct (d =? k2); [exact F|]. cbn. constructor; [exact Hk2|].
        apply IH; [inversion S'; assumption|exact F2].
Qed.
Lemma or_insert_waiting d id m : waiting_in (or_insert d (new_peer id) m) = waiting_in m.
Proof.
  induction m as [|[k p'] r IH]; cbn [or_insert]; [reflexivity|].
  destruct (d <? k); [now rewrite waiting_cons|]. destruct (d =? k); [reflexivity|].
  now rewrite !waiting_cons, IH.
Qed.
Lemma or_insert_keys target id m : keys_ok target m -> StronglySorted N.lt (map fst m) ->
  keys_ok target (or_insert (N.lxor target id) (new_peer id) m).
Proof.
  intros K S. unfold keys_ok. apply Forall_forall. intros e He.
  apply (or_insert_in _ _ _ K S) in He. destruct He as [He|[_ ->]]; [|reflexivity].
  unfold keys_ok in K. rewrite Forall_forall in K. now apply K.
Qed.
Lemma or_insert_ids target id m : keys_ok target m -> StronglySorted N.lt (map fst m) ->
  forall x, In x (ids (or_insert (N.lxor target id) (new_peer id) m)) <-> In x (ids m) \/ x = id.
Proof.
  intros K S x. unfold ids. rewrite !in_map_iff. split.
  - intros (e & <- & He). apply (or_insert_in _ _ _ K S) in He. destruct He as [He|[_ ->]].
    + left. now exists e.
    + now right.
  - intros [(e & <- & He)| ->].
    + exists e. split; [reflexivity|]. apply (or_insert_in _ _ _ K S). now left.
    + destruct (in_dec N.eq_dec id (ids m)) as [Hi|Hn].
      * apply in_map_iff in Hi. destruct Hi as (e & <- & He). exists e. split; [reflexivity|].
        apply (or_insert_in _ _ _ K S). now left.
      * exists (N.lxor target id, new_peer id). split; [reflexivity|].
        apply (or_insert_in _ _ _ K S). right. now split.
Qed.

Lemma add_peers target : forall l m, keys_ok target m -> StronglySorted N.lt (map fst m) ->
  let m' := fold_left (add_peer target) l m in
  keys_ok target m' /\ StronglySorted N.lt (map fst m') /\ waiting_in m' = waiting_in m /\
  (forall x, In x (ids m') <-> In x (ids m) \/ In x l) /\
  (forall e, In e m' -> In e m \/ (~ In (p_id (snd e)) (ids m) /\ p_state (snd e) = NotContacted)).
Proof.
  induction l as [|id l IH]; intros m K S; cbn [fold_left].
  - cbn. split; [exact K|split; [exact S|split; [reflexivity|split]]]; [tauto|tauto].
  - destruct (IH (add_peer target m id) (or_insert_keys _ _ _ K S) (or_insert_sorted _ _ _ S)) as (K' & S' & W & I & E).
    cbn zeta. split; [exact K'|split; [exact S'|split; [|split]]].
    + rewrite W. apply or_insert_waiting.
    + intros x. rewrite I. unfold add_peer. rewrite (or_insert_ids _ _ _ K S). cbn. intuition congruence.
    + intros e He. destruct (E e He) as [H|[H H2]].
      * apply (or_insert_in _ _ _ K S) in H. destruct H as [H|[H ->]]; [now left|right].
        split; [exact H|reflexivity].
      * right. split; [|exact H2]. intros Hi. apply H. apply (or_insert_ids _ _ _ K S). now left.
Qed.

(** ** The start *)
Lemma rel_init c target initial : rel c target (new_query c target initial) (view0 c initial).
Proof.
  destruct (add_peers target (firstn (N.to_nat (num_results c)) initial) []) as (K & S & W & I & E);
    [constructor|constructor|].
  constructor; cbn [new_query view0 q_config q_target q_peers q_waiting q_progress known contacted answered failed streak over clock asked map is_finished];
    try reflexivity; try exact K; try exact S; try (apply NoDup_nil); try (intros x []; fail).
  - intros id. rewrite I, learn_all_in. cbn. tauto.
  - apply learn_all_nodup. constructor.
  - apply Forall_forall. intros e He. destruct (E e He) as [[]|[_ H]]. unfold entry_ok. rewrite H. intros [].
  - symmetry. exact W.
  - intros H. split; [reflexivity|exact H].
  - apply N.le_0_l.
Qed.

(** ** Replies and failures *)
Definition mark (v : view) (id : N) (good : bool) : view :=
  {| known := known v; contacted := contacted v;
     answered := if good then answered v ++ [id] else answered v;
     failed := if good then failed v else failed v ++ [id];
     streak := streak v; over := over v; clock := clock v |}.

Lemma in_asked v id : In id (asked v) <-> exists now, In (id, now) (contacted v).
Proof.
  unfold asked. rewrite in_map_iff. split.
  - intros ([a b] & <- & H). now exists b.
  - intros (now & H). now exists (id, now).
Qed.

Lemma entry_mark c v p id (good : bool) : p_id p <> id -> entry_ok c v p -> entry_ok c (mark v id good) p.
Proof.
  intros Hne. unfold entry_ok, mark, asked.
  destruct (p_state p); destruct good; cbn [answered failed contacted clock]; rewrite ?in_app_iff; cbn [In];
    intuition congruence.
Qed.

Lemma settle_rel c target q v id (good : bool) :
  rel c target q v ->
  (counts v id = false /\ settle q id (if good then Succeeded else Failed) = Ok None) \/
  (counts v id = true /\ exists q', settle q id (if good then Succeeded else Failed) = Ok (Some q') /\
     rel c target q' (mark v id good) /\ q_progress q' = q_progress q /\ q_config q' = q_config q /\
     ids (q_peers q') = ids (q_peers q)).
Proof.
  intros R. set (s := if good then Succeeded else Failed). unfold settle.
  destruct (is_finished q) eqn:Hf.
  { left. split; [|reflexivity]. unfold counts. rewrite (r_over _ _ _ _ R), Hf. reflexivity. }
  rewrite (r_target _ _ _ _ R).
  destruct (find_peer (N.lxor target id) (q_peers q)) as [p|] eqn:Hp.
  2:{ left. split; [|reflexivity]. unfold counts.
      assert (H : mem id (asked v) = false).
      { apply mem_false. intros H. apply (r_asked_known _ _ _ _ R) in H. apply (r_known _ _ _ _ R) in H.
        exact (find_none target _ _ (r_keys _ _ _ _ R) Hp id eq_refl H). }
      rewrite H. now rewrite !andb_false_r. }
  destruct (find_split _ _ _ s Hp) as (pre & post & Hm & Hs).
  pose proof (r_keys _ _ _ _ R) as K. fold (keys_ok target (q_peers q)) in K.
  assert (Hid : p_id p = id).
  { unfold keys_ok in K. rewrite Hm in K. apply Forall_app in K. destruct K as [_ K]. inversion K as [|x y Hx Hy]; subst x y.
    cbn in Hx. apply (lxor_inj target). now symmetry. }
  pose proof (ids_nodup target _ (r_sorted _ _ _ _ R) K) as ND.
  rewrite Hm, ids_app in ND. cbn [ids map snd] in ND. fold (ids post) in ND. rewrite Hid in ND.
  pose proof (NoDup_remove_2 _ _ _ ND) as Hnot. rewrite in_app_iff in Hnot.
  pose proof (r_entries _ _ _ _ R) as E. rewrite Hm in E. apply Forall_app in E. destruct E as [Epre E].
  assert (Ep : entry_ok c v p) by (inversion E; assumption).
  assert (Epost : Forall (fun e => entry_ok c v (snd e)) post) by (inversion E; assumption).
  assert (Hov : over v = false) by (rewrite (r_over _ _ _ _ R); exact Hf).
  (* when the peer's state is Waiting or Unresponsive the event counts *)
  assert (Main : forall w, In id (asked v) -> ~ In id (answered v) -> ~ In id (failed v) ->
    w = waiting_in pre + waiting_in post -> w <= q_waiting q ->
    counts v id = true /\ exists q', Ok (Some (with_peers q (set_peer (N.lxor target id) s (q_peers q)) w)) = Ok (Some q') /\
     rel c target q' (mark v id good) /\ q_progress q' = q_progress q /\ q_config q' = q_config q /\ ids (q_peers q') = ids (q_peers q)).
  { intros w Ha Hna Hnf Hw Hle. split.
    { unfold counts. rewrite Hov, (proj2 (mem_spec _ _) Ha), (proj2 (mem_false _ _) Hna), (proj2 (mem_false _ _) Hnf). reflexivity. }
    eexists. split; [reflexivity|].
    assert (Hids : ids (set_peer (N.lxor target id) s (q_peers q)) = ids (q_peers q)).
    { rewrite Hs, Hm, !ids_app. cbn [ids map snd]. reflexivity. }
    split; [|split; [reflexivity|split; [reflexivity|exact Hids]]].
    constructor; cbn [with_peers q_config q_target q_peers q_waiting q_progress].
    - exact (r_config _ _ _ _ R).
    - exact (r_target _ _ _ _ R).
    - replace (map fst (set_peer (N.lxor target id) s (q_peers q))) with (map fst (q_peers q)); [exact (r_sorted _ _ _ _ R)|].
      rewrite Hs, Hm, !map_app. reflexivity.
    - rewrite Hs. unfold keys_ok in K. rewrite Hm in K. apply Forall_app in K. destruct K as [K1 K2].
      apply Forall_app. split; [exact K1|]. inversion K2; subst. constructor; assumption.
    - intros x. cbn [mark known]. rewrite Hids. apply (r_known _ _ _ _ R).
    - exact (r_known_nodup _ _ _ _ R).
    - rewrite Hs. apply Forall_app. split; [|constructor].
      + apply Forall_forall. intros e He. rewrite Forall_forall in Epre. apply entry_mark; [|now apply Epre].
        intros Hx. apply Hnot. left. unfold ids. apply in_map_iff. now exists e.
      + cbn [snd]. unfold entry_ok, s, mark. cbn [set_state p_state p_id]. rewrite Hid.
        destruct good; cbn [answered failed]; rewrite in_app_iff; cbn; tauto.
      + apply Forall_forall. intros e He. rewrite Forall_forall in Epost. apply entry_mark; [|now apply Epost].
        intros Hx. apply Hnot. right. unfold ids. apply in_map_iff. now exists e.
    - rewrite Hs, waiting_app, waiting_cons. cbn [snd]. unfold is_waiting, s. cbn [set_state p_state].
      destruct good; cbn; lia.
    - exact (r_asked_known _ _ _ _ R).
    - exact (r_asked_nodup _ _ _ _ R).
    - cbn [mark answered]. intros x Hx. destruct good; [|now apply (r_answered _ _ _ _ R)].
      apply in_app_iff in Hx. destruct Hx as [Hx|[<-|[]]]; [now apply (r_answered _ _ _ _ R)|exact Ha].
    - cbn [mark answered]. destruct good; [|exact (r_answered_nodup _ _ _ _ R)].
      apply nodup_app_end; [exact (r_answered_nodup _ _ _ _ R)|exact Hna].
    - cbn [mark failed]. intros x Hx. destruct good; [now apply (r_failed _ _ _ _ R)|].
      apply in_app_iff in Hx. destruct Hx as [Hx|[<-|[]]]; [now apply (r_failed _ _ _ _ R)|exact Ha].
    - cbn [mark failed]. destruct good; [exact (r_failed_nodup _ _ _ _ R)|].
      apply nodup_app_end; [exact (r_failed_nodup _ _ _ _ R)|exact Hnf].
    - exact (r_over _ _ _ _ R).
    - exact (r_streak _ _ _ _ R).
    - pose proof (r_cap _ _ _ _ R). lia. }
  pose proof (r_waiting _ _ _ _ R) as W. rewrite Hm, waiting_app, waiting_cons in W. cbn [snd] in W.
  unfold is_waiting in W. unfold entry_ok in Ep. rewrite Hid in Ep.
  destruct (p_state p) as [|t| | |] eqn:Hst.
  - left. split; [|reflexivity]. unfold counts. rewrite (proj2 (mem_false _ _) Ep). now rewrite !andb_false_r.
  - right. destruct Ep as ((now & Hc & _) & Hna & Hnf).
    destruct (q_waiting q =? 0) eqn:Hz; [apply N.eqb_eq in Hz; lia|].
    apply Main; [apply in_asked; now exists now|exact Hna|exact Hnf|lia|lia].
  - right. destruct Ep as ((now & Hc & _) & Hna & Hnf).
    apply Main; [apply in_asked; now exists now|exact Hna|exact Hnf|lia|lia].
  - left. split; [|reflexivity]. destruct Ep as [H _]. unfold counts. rewrite (proj2 (mem_spec _ _) H). now rewrite !andb_false_r.
  - left. split; [|reflexivity]. destruct Ep as [H _]. unfold counts. rewrite (proj2 (mem_spec _ _) H). now rewrite !andb_false_r.
Qed.

(** ** Learning peers *)
Lemma incorporate_map target n k : forall nodes m flag,
  fst (incorporate target n k m flag nodes) = fold_left (add_peer target) nodes m.
Proof. induction nodes as [|id r IH]; intros m flag; cbn [incorporate fold_left]; [reflexivity|]. apply IH. Qed.
Lemma incorporate_snoc target n k : forall nodes m flag id,
  snd (incorporate target n k m flag (nodes ++ [id])) =
  ((match fold_left (add_peer target) (nodes ++ [id]) m with (k', _) :: _ => k' =? N.lxor target id | [] => false end) || (k <? n)).
Proof.
  induction nodes as [|x r IH]; intros m flag id; cbn [app incorporate fold_left].
  - reflexivity.
  - apply IH.
Qed.
Lemma first_key target m id : keys_ok target m -> StronglySorted N.lt (map fst m) -> In id (ids m) ->
  (match m with (k', _) :: _ => k' =? N.lxor target id | [] => false end) =
  forallb (fun k => N.lxor target id <=? N.lxor target k) (ids m).
Proof.
  intros K S H. apply eq_true_iff_eq. rewrite forallb_forall. destruct m as [|[k p] r]; [destruct H|].
  assert (Hk : k = N.lxor target (p_id p)) by (inversion K; assumption).
  assert (K' : keys_ok target r) by (inversion K; assumption).
  assert (F : Forall (N.lt k) (map fst r)) by (inversion S; assumption).
  rewrite (keys_map _ _ K') in F. split.
  - intros E x Hx. apply N.eqb_eq in E. apply N.leb_le. rewrite <- E. cbn in Hx. destruct Hx as [<-|Hx]; [lia|].
    rewrite Forall_forall in F. specialize (F (N.lxor target x) (in_map _ _ _ Hx)). lia.
  - intros E. apply N.eqb_eq. specialize (E (p_id p) (or_introl eq_refl)). apply N.leb_le in E. rewrite <- Hk in E.
    cbn in H. destruct H as [<-|H]; [now symmetry|].
    rewrite Forall_forall in F. specialize (F (N.lxor target id) (in_map _ _ _ H)). lia.
Qed.

Lemma rel_known_length c target q v : rel c target q v -> blen (known v) = blen (q_peers q).
Proof.
  intros R. transitivity (blen (ids (q_peers q))).
  - apply nodup_same_length; [exact (r_known_nodup _ _ _ _ R)| |exact (r_known _ _ _ _ R)].
    exact (ids_nodup target _ (r_sorted _ _ _ _ R) (r_keys _ _ _ _ R)).
  - unfold blen, ids. now rewrite map_length.
Qed.

Lemma incorporate_flag c target q v nodes : rel c target q v ->
  snd (incorporate target (num_results c) (blen (q_peers q)) (q_peers q) false nodes) =
  brings_progress c target (known v) nodes.
Proof.
  intros R. unfold brings_progress.
  destruct (rev nodes) as [|id r] eqn:Hr.
  - assert (nodes = []) as -> by (rewrite <- (rev_involutive nodes), Hr; reflexivity). reflexivity.
  - assert (Hn : nodes = rev r ++ [id]) by (rewrite <- (rev_involutive nodes), Hr; reflexivity).
    rewrite Hn, incorporate_snoc, <- Hn, (rel_known_length _ _ _ _ R).
    destruct (add_peers target nodes (q_peers q) (r_keys _ _ _ _ R) (r_sorted _ _ _ _ R)) as (K & S & _ & I & _).
    f_equal. rewrite (first_key target _ id K S).
    + apply eq_true_iff_eq. rewrite !forallb_forall. unfold distance_to. split; intros H x Hx; apply H.
      * apply in_app_iff in Hx. rewrite I. rewrite <- (r_known _ _ _ _ R). exact Hx.
      * apply in_app_iff. rewrite I in Hx. rewrite <- (r_known _ _ _ _ R) in Hx. exact Hx.
    + rewrite I, Hn. right. apply in_app_iff. right. now left.
Qed.

Definition learned (c : config) (target : N) (v : view) (nodes : list N) : view :=
  {| known := learn_all (known v) nodes; contacted := contacted v; answered := answered v; failed := failed v;
     streak := if brings_progress c target (known v) nodes then 0 else streak v + 1;
     over := over v; clock := clock v |}.
Lemma learn_rel c target q v nodes : rel c target q v -> is_finished q = false -> rel c target (learn q nodes) (learned c target v nodes).
Proof.
  intros R Hf. unfold learn.
  pose proof (incorporate_map (q_target q) (num_results (q_config q)) (blen (q_peers q)) nodes (q_peers q) false) as HM.
  pose proof (incorporate_flag c target q v nodes R) as HF.
  rewrite (r_config _ _ _ _ R), (r_target _ _ _ _ R) in *.
  destruct (incorporate target (num_results c) (blen (q_peers q)) (q_peers q) false nodes) as [m flag].
  cbn [fst snd] in HM, HF. subst m. subst flag.
  destruct (add_peers target nodes (q_peers q) (r_keys _ _ _ _ R) (r_sorted _ _ _ _ R)) as (K & S & W & I & E).
  constructor; cbn [with_progress with_peers learned q_config q_target q_peers q_waiting q_progress known contacted answered failed streak over clock asked].
  - exact (r_config _ _ _ _ R).
  - exact (r_target _ _ _ _ R).
  - exact S.
  - exact K.
  - intros id. rewrite learn_all_in, I, (r_known _ _ _ _ R). tauto.
  - apply learn_all_nodup. exact (r_known_nodup _ _ _ _ R).
  - apply Forall_forall. intros e He. destruct (E e He) as [H|[H H2]].
    + pose proof (r_entries _ _ _ _ R) as F. rewrite Forall_forall in F. exact (F e H).
    + unfold entry_ok. rewrite H2. intros Ha. apply H. apply (r_known _ _ _ _ R). now apply (r_asked_known _ _ _ _ R).
  - rewrite W. exact (r_waiting _ _ _ _ R).
  - intros x Hx. apply learn_all_in. left. now apply (r_asked_known _ _ _ _ R).
  - exact (r_asked_nodup _ _ _ _ R).
  - exact (r_answered _ _ _ _ R).
  - exact (r_answered_nodup _ _ _ _ R).
  - exact (r_failed _ _ _ _ R).
  - exact (r_failed_nodup _ _ _ _ R).
  - rewrite (r_over _ _ _ _ R), Hf. unfold is_finished, next_progress in *. cbn [with_progress q_progress].
    destruct (q_progress q); [|now destruct brings_progress|discriminate].
    now destruct (parallelism c <=? _).
  - intros Hp. pose proof (r_streak _ _ _ _ R Hp) as H. unfold next_progress.
    destruct (q_progress q) as [n| |].
    + destruct H as [H1 H2]. destruct brings_progress.
      * assert (parallelism c <=? 0 = false) as -> by (apply N.leb_gt; lia). lia.
      * destruct (parallelism c <=? n + 1) eqn:L; [apply N.leb_le in L; lia|apply N.leb_gt in L; lia].
    + destruct brings_progress; [lia|lia].
    + exact Logic.I.
  - exact (r_cap _ _ _ _ R).
Qed.

(** ** Polling *)
Definition expire (now : N) (e : N * peer) : N * peer :=
  (fst e, match p_state (snd e) with
          | Waiting t => if t <=? now then set_state (snd e) Unresponsive else snd e
          | _ => snd e
          end).
Definition quiet (e : N * peer) : Prop := is_waiting (snd e) = false.

Lemma succeeded_one d p : blen (succeeded_ids [(d, p)]) = match p_state p with Succeeded => 1 | _ => 0 end.
Proof. unfold succeeded_ids. cbn [flat_map snd]. destruct (p_state p); reflexivity. Qed.
Lemma succeeded_cons d p m : blen (succeeded_ids ((d, p) :: m)) = blen (succeeded_ids [(d, p)]) + blen (succeeded_ids m).
Proof. rewrite <- blen_app. unfold succeeded_ids. cbn [flat_map]. now rewrite app_nil_r. Qed.
Lemma scan_spec c now cap : forall m w count, waiting_in m <= w ->
  exists m' w' e pre rest,
    scan c now cap m w count = Ok (m', w', e) /\ m = pre ++ rest /\ w' + waiting_in m = w + waiting_in m' /\
    Forall (fun e => p_state (snd e) <> NotContacted) pre /\
    match e with
    | Through => rest = [] /\ m' = map (expire now) pre
    | Capacity => cap = true /\ m' = map (expire now) pre ++ rest
    | Contact id => cap = false /\ exists d p r, rest = (d, p) :: r /\ p_state p = NotContacted /\ p_id p = id /\
                    m' = map (expire now) pre ++ (d, set_state p (Waiting (now + peer_timeout c))) :: r
    | Done => exists n d p r, count = Some n /\ rest = (d, p) :: r /\ p_state p = Succeeded /\
              m' = map (expire now) pre ++ rest /\ Forall quiet (map (expire now) pre) /\
              num_results c <= n + blen (succeeded_ids pre) + 1
    end.
Proof.
  induction m as [|[d p] r IH]; intros w count Hw; cbn [scan].
  - exists [], w, Through, [], []. repeat split; try constructor. 
  - assert (Go : forall w1 count1, waiting_in r <= w1 ->
      forall p', snd (expire now (d, p)) = p' -> p_state p <> NotContacted ->
      w1 + (if is_waiting p then 1 else 0) = w + (if is_waiting p' then 1 else 0) ->
      (forall n1, count1 = Some n1 -> is_waiting p' = false /\ exists n, count = Some n /\
          n1 = n + blen (succeeded_ids [(d, p)])) ->
      exists m' w' e pre rest,
        omap (fun x => match x with (r', w, e) => ((d, p') :: r', w, e) end) (scan c now cap r w1 count1) = Ok (m', w', e) /\
        (d, p) :: r = pre ++ rest /\ w' + waiting_in ((d, p) :: r) = w + waiting_in m' /\
        Forall (fun e => p_state (snd e) <> NotContacted) pre /\
        match e with
        | Through => rest = [] /\ m' = map (expire now) pre
        | Capacity => cap = true /\ m' = map (expire now) pre ++ rest
        | Contact id => cap = false /\ exists d p r, rest = (d, p) :: r /\ p_state p = NotContacted /\ p_id p = id /\
                        m' = map (expire now) pre ++ (d, set_state p (Waiting (now + peer_timeout c))) :: r
        | Done => exists n d p r, count = Some n /\ rest = (d, p) :: r /\ p_state p = Succeeded /\
                  m' = map (expire now) pre ++ rest /\ Forall quiet (map (expire now) pre) /\
                  num_results c <= n + blen (succeeded_ids pre) + 1
        end).
    { intros w1 count1 Hw1 p' Hp' Hnc Hbal Hcount.
      destruct (IH w1 count1 Hw1) as (m' & w' & e & pre & rest & Hs & Hr & Hb & Hn & He).
      exists ((d, p') :: m'), w', e, ((d, p) :: pre), rest. rewrite Hs. cbn [omap obind].
      assert (Hx : expire now (d, p) = (d, p')) by (rewrite <- Hp'; reflexivity).
      split; [reflexivity|]. split; [now rewrite Hr|].
      split; [rewrite !waiting_cons; cbn [snd]; lia|].
      split; [constructor; assumption|].
      destruct e as [id| | |].
      - destruct He as (Hc & d0 & p0 & r0 & H1 & H2 & H3 & H4). split; [exact Hc|]. exists d0, p0, r0.
        cbn [map app]. rewrite Hx, H4. auto.
      - destruct He as (Hc & H4). split; [exact Hc|]. cbn [map app]. now rewrite Hx, H4.
      - destruct He as (n1 & d0 & p0 & r0 & H0 & H1 & H2 & H4 & H5 & H6).
        destruct (Hcount n1 H0) as (Hq & n & Hcn & Hn1).
        exists n, d0, p0, r0. split; [exact Hcn|]. split; [exact H1|]. split; [exact H2|].
        cbn [map app]. rewrite Hx, H4. split; [reflexivity|]. split; [constructor; [exact Hq|exact H5]|].
        rewrite succeeded_cons. lia.
      - destruct He as (Hrest & H4). split; [exact Hrest|]. cbn [map app]. now rewrite Hx, H4. }
    rewrite waiting_cons in Hw. cbn [snd] in Hw. unfold is_waiting in Hw.
    destruct (p_state p) as [|t| | |] eqn:Hst.
    + destruct cap eqn:Hcap.
      * exists ((d, p) :: r), w, Capacity, [], ((d, p) :: r). repeat split; try constructor.
      * exists ((d, set_state p (Waiting (now + peer_timeout c))) :: r), (w + 1), (Contact (p_id p)), [], ((d, p) :: r).
        split; [reflexivity|]. split; [reflexivity|].
        split; [rewrite !waiting_cons; cbn [snd]; unfold is_waiting; cbn [set_state p_state]; rewrite Hst; lia|].
        split; [constructor|]. split; [reflexivity|]. exists d, p, r. now repeat split.
    + destruct (t <=? now) eqn:Ht.
      * assert (w =? 0 = false) as -> by (apply N.eqb_neq; lia).
        apply Go; [lia|cbn [expire snd fst]; rewrite Hst, Ht; reflexivity|congruence| |].
        -- unfold is_waiting. cbn [set_state p_state]. rewrite Hst. lia.
        -- intros n1 ->. split; [reflexivity|]. exists n1. split; [reflexivity|]. rewrite succeeded_one, Hst. lia.
      * destruct cap eqn:Hcap.
        { exists ((d, p) :: r), w, Capacity, [], ((d, p) :: r). repeat split; try constructor. }
        apply Go; [lia|cbn [expire snd fst]; rewrite Hst, Ht; reflexivity|congruence|lia|discriminate].
    + apply Go; [lia|cbn [expire snd fst]; rewrite Hst; reflexivity|congruence|lia|].
      intros n1 ->. split; [unfold is_waiting; now rewrite Hst|]. exists n1. split; [reflexivity|]. rewrite succeeded_one, Hst. lia.
    + apply Go; [lia|cbn [expire snd fst]; rewrite Hst; reflexivity|congruence|lia|].
      intros n1 ->. split; [unfold is_waiting; now rewrite Hst|]. exists n1. split; [reflexivity|]. rewrite succeeded_one, Hst. lia.
    + destruct count as [n|].
      * destruct (num_results c <=? n + 1) eqn:Hn.
        { apply N.leb_le in Hn. exists ((d, p) :: r), w, Done, [], ((d, p) :: r).
          split; [reflexivity|]. split; [reflexivity|]. split; [lia|]. split; [constructor|].
          exists n, d, p, r. cbn. repeat split; try assumption; try constructor. lia. }
        apply Go; [lia|cbn [expire snd fst]; rewrite Hst; reflexivity|congruence|lia|].
        intros n1 [= <-]. split; [unfold is_waiting; now rewrite Hst|]. exists n. split; [reflexivity|]. rewrite succeeded_one, Hst. lia.
      * apply Go; [lia|cbn [expire snd fst]; rewrite Hst; reflexivity|congruence|lia|discriminate].
Qed.

Lemma expire_fst now m : map fst (map (expire now) m) = map fst m.
Proof. rewrite map_map. reflexivity. Qed.
Lemma expire_id now e : p_id (snd (expire now e)) = p_id (snd e).
Proof. unfold expire. cbn [snd]. destruct (p_state (snd e)); try reflexivity. now destruct (_ <=? _). Qed.
Lemma expire_ids now m : ids (map (expire now) m) = ids m.
Proof. unfold ids. rewrite map_map. apply map_ext. intros e. apply expire_id. Qed.
Lemma expire_keys target now m : keys_ok target m -> keys_ok target (map (expire now) m).
Proof.
  unfold keys_ok. rewrite Forall_map. apply Forall_impl. intros e H. rewrite expire_id. exact H.
Qed.
Lemma expire_succeeded now m : succeeded_ids (map (expire now) m) = succeeded_ids m.
Proof.
  unfold succeeded_ids. induction m as [|e m IH]; [reflexivity|]. cbn [map flat_map]. rewrite IH. f_equal.
  unfold expire. cbn [snd]. destruct (p_state (snd e)) eqn:H; rewrite ?H; try reflexivity.
  destruct (_ <=? _); cbn [set_state p_state]; rewrite ?H; reflexivity.
Qed.

Lemma entry_later c v v' e now :
  contacted v' = contacted v -> answered v' = answered v -> failed v' = failed v -> clock v <= clock v' -> now <= clock v' ->
  entry_ok c v (snd e) -> entry_ok c v' (snd e) /\ entry_ok c v' (snd (expire now e)).
Proof.
  intros H1 H2 H3 H4 H5 H. unfold entry_ok, expire, asked in *. cbn [snd].
  rewrite H1, H2, H3. destruct (p_state (snd e)) as [|t| | |] eqn:Hst; rewrite ?Hst.
  - split; exact H.
  - split; [exact H|]. destruct (t <=? now) eqn:Ht; cbn [set_state p_state p_id]; [|rewrite Hst; exact H].
    apply N.leb_le in Ht. destruct H as ((n0 & Hn & ->) & H). split; [|exact H]. exists n0. split; [exact Hn|lia].
  - assert (X : (exists now0, In (p_id (snd e), now0) (contacted v) /\ now0 + peer_timeout c <= clock v') /\
      ~ In (p_id (snd e)) (answered v) /\ ~ In (p_id (snd e)) (failed v)).
    { destruct H as ((n0 & Hn & Hc) & H). split; [|exact H]. exists n0. split; [exact Hn|lia]. }
    split; exact X.
  - split; exact H.
  - split; exact H.
Qed.
Lemma entry_other c v v' p id now :
  contacted v' = contacted v ++ [(id, now)] -> answered v' = answered v -> failed v' = failed v -> clock v' = clock v ->
  p_id p <> id -> entry_ok c v p -> entry_ok c v' p.
Proof.
  intros H1 H2 H3 H4 Hne H. unfold entry_ok, asked in *. rewrite H1, H2, H3, H4.
  destruct (p_state p).
  - rewrite map_app, in_app_iff. cbn. intuition.
  - destruct H as ((n0 & Hn & E) & H). split; [|exact H]. exists n0. split; [apply in_app_iff; now left|exact E].
  - destruct H as ((n0 & Hn & E) & H). split; [|exact H]. exists n0. split; [apply in_app_iff; now left|exact E].
  - exact H.
  - exact H.
Qed.

Lemma sorted_app_le target pre d p rest : keys_ok target (pre ++ (d, p) :: rest) ->
  StronglySorted N.lt (map fst (pre ++ (d, p) :: rest)) ->
  forall id, In id (ids (pre ++ (d, p) :: rest)) -> N.lxor target id <= d -> In id (ids pre) \/ id = p_id p.
Proof.
  intros K S id Hi Hd. rewrite ids_app, in_app_iff in Hi. destruct Hi as [Hi|Hi]; [now left|].
  cbn in Hi. destruct Hi as [<-|Hi]; [now right|]. exfalso.
  unfold keys_ok in K. apply Forall_app in K. destruct K as [_ K]. assert (K' : keys_ok target rest) by (inversion K; assumption).
  rewrite map_app in S. cbn [map fst] in S.
  assert (F : Forall (N.lt d) (map fst rest)).
  { clear -S. induction (map fst pre) as [|a l IH]; cbn in S; inversion S; [assumption|now apply IH]. }
  rewrite (keys_map _ _ K'), Forall_forall in F. specialize (F _ (in_map _ _ _ Hi)). lia.
Qed.

Lemma settled_entry c v p : entry_ok c v p -> p_state p <> NotContacted -> is_waiting p = false ->
  incl (answered v) (asked v) -> incl (failed v) (asked v) -> settled c v (p_id p).
Proof.
  intros H Hn Hw A F. unfold entry_ok, is_waiting, settled in *. destruct (p_state p); try congruence.
  - destruct H as ((now & H1 & H2) & _). exists now. auto.
  - destruct H as [H _]. pose proof (F _ H) as Ha. apply in_asked in Ha. destruct Ha as (now & Ha). exists now. auto.
  - destruct H as [H _]. pose proof (A _ H) as Ha. apply in_asked in Ha. destruct Ha as (now & Ha). exists now. auto.
Qed.

Lemma succeeded_sub m x : In x (succeeded_ids m) -> In x (ids m).
Proof.
  unfold succeeded_ids, ids. rewrite in_flat_map, in_map_iff. intros (e & He & H). exists e.
  destruct (p_state (snd e)); cbn in H; try destruct H as [<-|[]]; try destruct H. auto.
Qed.
Lemma succeeded_app a b : succeeded_ids (a ++ b) = succeeded_ids a ++ succeeded_ids b.
Proof. apply flat_map_app. Qed.

(** What is known when a lookup ends by running through its peers. *)
Definition ends_well (c : config) (target : N) (q : query) (v : view) : Prop :=
  forall id, In id (known v) ->
    (blen (into_result q) < num_results c \/ exists r, In r (into_result q) /\ distance_to target id <= distance_to target r) ->
    settled c v id.

Definition contact_ok (c : config) (target : N) (v : view) (id : N) : Prop :=
  In id (known v) /\ ~ In id (asked v) /\
  forall k, In k (known v) -> distance_to target k < distance_to target id -> In k (asked v).

Lemma scan_rel c target q v now count :
  rel c target q v -> is_finished q = false -> count = Some 0 \/ count = None ->
  exists q' st, scan_query q now count = Ok (q', st) /\
    rel c target q' (observe c target v (EPoll now st)) /\
    (forall id, st = QWaiting (Some id) -> at_capacity q = false /\ q_waiting q' <= q_waiting q + 1 /\ contact_ok c target v id) /\
    (st = QFinished -> ends_well c target q' (observe c target v (EPoll now st)) /\
       (count = None -> forall id, In id (known v) -> settled c (observe c target v (EPoll now st)) id)) /\
    (q_waiting q = 0 -> at_capacity q = false -> st = QFinished \/ exists id, st = QWaiting (Some id)) /\
    (forall id, st <> QValidating id).
Proof.
  intros R Hf Hcount. unfold scan_query. rewrite (r_config _ _ _ _ R).
  assert (Hw : waiting_in (q_peers q) <= q_waiting q) by (rewrite (r_waiting _ _ _ _ R); lia).
  destruct (scan_spec c now (at_capacity q) (q_peers q) (q_waiting q) count Hw)
    as (m' & w' & e & pre & rest & Hs & Hm & Hb & Hn & He).
  rewrite Hs. cbn [omap obind].
  assert (Hww : w' = waiting_in m') by (rewrite <- (r_waiting _ _ _ _ R) in Hb; lia).
  pose proof (r_keys _ _ _ _ R) as K. fold (keys_ok target (q_peers q)) in K.
  pose proof (r_sorted _ _ _ _ R) as S.
  pose proof (r_entries _ _ _ _ R) as E. rewrite Hm in E. apply Forall_app in E. destruct E as [Epre Erest].
  (* everything but a contact: pre expired, rest unchanged *)
  assert (Plain : forall pr st o, m' = map (expire now) pre ++ rest ->
    (pr = q_progress q \/ pr = Finished) -> o = match pr with Finished => true | _ => false end ->
    observe c target v (EPoll now st) = {| known := known v; contacted := contacted v; answered := answered v; failed := failed v;
      streak := streak v; over := o; clock := N.max (clock v) now |} ->
    w' <= q_waiting q ->
    rel c target (with_progress (with_peers q m' w') pr) (observe c target v (EPoll now st)) /\
    Forall (fun e => entry_ok c (observe c target v (EPoll now st)) (snd e)) (map (expire now) pre)).
  { intros pr st o Hm' Hpr Ho Hv Hle.
    assert (Ep' : Forall (fun e => entry_ok c (observe c target v (EPoll now st)) (snd e)) (map (expire now) pre)).
    { rewrite Forall_map. eapply Forall_impl; [|exact Epre]. intros e0 H0. rewrite Hv.
      apply (entry_later c v); try reflexivity; [cbn; lia|cbn; lia|exact H0]. }
    split; [|exact Ep'].
    assert (Hids : ids m' = ids (q_peers q)) by (rewrite Hm', Hm, !ids_app, expire_ids; reflexivity).
    constructor; rewrite ?Hv; cbn [with_progress with_peers q_config q_target q_peers q_waiting q_progress known contacted answered failed streak over clock asked].
    - exact (r_config _ _ _ _ R).
    - exact (r_target _ _ _ _ R).
    - rewrite Hm', map_app, expire_fst, <- map_app, <- Hm. exact S.
    - rewrite Hm'. unfold keys_ok in K. rewrite Hm in K. apply Forall_app in K. apply Forall_app.
      split; [apply expire_keys; apply K|apply K].
    - rewrite Hids. exact (r_known _ _ _ _ R).
    - exact (r_known_nodup _ _ _ _ R).
    - rewrite <- Hv, Hm'. apply Forall_app. split; [exact Ep'|].
      eapply Forall_impl; [|exact Erest]. intros e0 H0. rewrite Hv. apply (entry_later c v _ e0 now); try reflexivity; [cbn; lia|cbn; lia|exact H0].
    - exact Hww.
    - exact (r_asked_known _ _ _ _ R).
    - exact (r_asked_nodup _ _ _ _ R).
    - exact (r_answered _ _ _ _ R).
    - exact (r_answered_nodup _ _ _ _ R).
    - exact (r_failed _ _ _ _ R).
    - exact (r_failed_nodup _ _ _ _ R).
    - exact Ho.
    - intros Hp. pose proof (r_streak _ _ _ _ R Hp) as H. destruct Hpr as [-> | ->]; [exact H|exact Logic.I].
    - pose proof (r_cap _ _ _ _ R). lia. }
  assert (Hov : over v = match q_progress q with Finished => true | _ => false end) by (exact (r_over _ _ _ _ R)).
  assert (Same : forall w, with_peers q m' w = with_progress (with_peers q m' w) (q_progress q)) by reflexivity.
  assert (Expire_le : waiting_in (map (expire now) pre) <= waiting_in pre).
  { clear. induction pre as [|e pre IH]; [reflexivity|]. cbn [map]. rewrite !waiting_cons.
    unfold expire at 1. cbn [snd]. unfold is_waiting. destruct (p_state (snd e)) eqn:H; rewrite ?H; try lia.
    destruct (_ <=? _); cbn [set_state p_state]; rewrite ?H; lia. }
  assert (Le : m' = map (expire now) pre ++ rest -> w' <= q_waiting q).
  { intros ->. rewrite Hww, (r_waiting _ _ _ _ R), Hm, !waiting_app. lia. }
  destruct e as [id| | |].
  - destruct He as (Hcap & d & p & r & Hrest & Hst & Hid & Hm').
    exists (with_peers q m' w'), (QWaiting (Some id)). split; [reflexivity|].
    assert (Hd : d = N.lxor target id).
    { unfold keys_ok in K. rewrite Hm, Hrest in K. apply Forall_app in K. destruct K as [_ K]. inversion K as [|x y Hx Hy]; subst x y.
      cbn in Hx. now rewrite <- Hid. }
    pose proof (ids_nodup target _ S K) as ND. rewrite Hm, Hrest, ids_app in ND. cbn [ids map snd] in ND. fold (ids r) in ND. rewrite Hid in ND.
    pose proof (NoDup_remove_2 _ _ _ ND) as Hnot. rewrite in_app_iff in Hnot.
    rewrite Hrest in Erest. assert (Ep : entry_ok c v p) by (inversion Erest; assumption).
    assert (Er : Forall (fun e => entry_ok c v (snd e)) r) by (inversion Erest; assumption).
    unfold entry_ok in Ep. rewrite Hst, Hid in Ep.
    assert (Hin : In id (known v)).
    { apply (r_known _ _ _ _ R). rewrite Hm, Hrest, ids_app, in_app_iff. right. left. exact Hid. }
    assert (Wle : q_waiting (with_peers q m' w') <= q_waiting q + 1).
    { cbn. rewrite Hww, (r_waiting _ _ _ _ R), Hm', Hm, Hrest, !waiting_app, !waiting_cons. cbn [snd]. unfold is_waiting. cbn [set_state p_state].
      rewrite Hst. lia. }
    split; [|split; [|split; [discriminate|split; [intros _ _; right; now exists id|intros id0 [=]]]]].
    + set (v1 := {| known := known v; contacted := contacted v; answered := answered v; failed := failed v;
        streak := streak v; over := over v; clock := N.max (clock v) now |}).
      assert (Hids : ids m' = ids (q_peers q)).
      { rewrite Hm', Hm, Hrest, !ids_app, expire_ids. reflexivity. }
      constructor; cbn [observe with_peers q_config q_target q_peers q_waiting q_progress known contacted answered failed streak over clock asked].
      * exact (r_config _ _ _ _ R).
      * exact (r_target _ _ _ _ R).
      * rewrite Hm', map_app, expire_fst. cbn [map fst]. rewrite Hm, Hrest, map_app in S. exact S.
      * rewrite Hm'. unfold keys_ok in K. rewrite Hm, Hrest in K. apply Forall_app in K. destruct K as [K1 K2]. apply Forall_app.
        split; [now apply expire_keys|]. inversion K2; subst. constructor; assumption.
      * rewrite Hids. exact (r_known _ _ _ _ R).
      * exact (r_known_nodup _ _ _ _ R).
      * rewrite Hm'. apply Forall_app. split; [|constructor].
        -- rewrite Forall_map. apply Forall_forall. intros e0 He0. rewrite Forall_forall in Epre. specialize (Epre e0 He0).
           apply (entry_other c v1 _ _ id now); try reflexivity.
           ++ rewrite expire_id. intros Hx. apply Hnot. left. unfold ids. apply in_map_iff. now exists e0.
           ++ apply (entry_later c v); try reflexivity; [cbn; lia|cbn; lia|exact Epre].
        -- cbn [snd]. unfold entry_ok. cbn [set_state p_state p_id contacted answered failed]. rewrite Hid. split; [|split].
           ++ exists now. split; [apply in_app_iff; right; now left|reflexivity].
           ++ intros Hx. apply Ep. now apply (r_answered _ _ _ _ R).
           ++ intros Hx. apply Ep. now apply (r_failed _ _ _ _ R).
        -- apply Forall_forall. intros e0 He0. rewrite Forall_forall in Er. specialize (Er e0 He0).
           apply (entry_other c v1 _ _ id now); try reflexivity.
           ++ intros Hx. apply Hnot. right. unfold ids. apply in_map_iff. now exists e0.
           ++ apply (entry_later c v _ e0 now); try reflexivity; [cbn; lia|cbn; lia|exact Er].
      * exact Hww.
      * unfold asked. cbn [contacted]. rewrite map_app. intros x Hx. apply in_app_iff in Hx.
        destruct Hx as [Hx|[<-|[]]]; [now apply (r_asked_known _ _ _ _ R)|exact Hin].
      * unfold asked. cbn [contacted]. rewrite map_app. apply nodup_app_end; [exact (r_asked_nodup _ _ _ _ R)|exact Ep].
      * unfold asked. cbn [contacted]. rewrite map_app. intros x Hx. apply in_app_iff. left. now apply (r_answered _ _ _ _ R).
      * exact (r_answered_nodup _ _ _ _ R).
      * unfold asked. cbn [contacted]. rewrite map_app. intros x Hx. apply in_app_iff. left. now apply (r_failed _ _ _ _ R).
      * exact (r_failed_nodup _ _ _ _ R).
      * exact (r_over _ _ _ _ R).
      * exact (r_streak _ _ _ _ R).
      * unfold at_capacity in Hcap. rewrite (r_config _ _ _ _ R) in Hcap. cbn in Wle.
        destruct (q_progress q); try discriminate; apply N.leb_gt in Hcap; lia.
    + intros id0 [= <-]. split; [exact Hcap|]. split; [exact Wle|]. split; [exact Hin|]. split; [exact Ep|].
      intros k Hk Hlt. unfold distance_to in Hlt. apply (r_known _ _ _ _ R) in Hk. rewrite Hm, Hrest in Hk, K, S.
      destruct (sorted_app_le target pre d p r K S k Hk) as [Hp'|Hp']; [lia| |].
      * unfold ids in Hp'. apply in_map_iff in Hp'. destruct Hp' as (e0 & <- & He0).
        rewrite Forall_forall in Epre, Hn. specialize (Epre e0 He0). specialize (Hn e0 He0). unfold entry_ok in Epre.
        destruct (p_state (snd e0)); [now destruct Hn| | | |].
        -- destruct Epre as ((n0 & Hx & _) & _). apply in_asked. now exists n0.
        -- destruct Epre as ((n0 & Hx & _) & _). apply in_asked. now exists n0.
        -- apply (r_failed _ _ _ _ R). apply Epre.
        -- apply (r_answered _ _ _ _ R). apply Epre.
      * exfalso. subst k. rewrite Hid in Hlt. lia.
  - destruct He as (Hcap & Hm').
    exists (with_peers q m' w'), QAtCapacity. split; [reflexivity|].
    split; [|split; [discriminate|split; [discriminate|split; [congruence|discriminate]]]].
    rewrite Same. apply (Plain _ _ (over v)); [exact Hm'|now left|exact Hov|reflexivity|now apply Le].
  - destruct He as (n & d & p & r & Hn0 & Hrest & Hst & Hm' & Hq & Hnum).
    assert (n = 0) by (destruct Hcount; congruence). subst n.
    exists (with_progress (with_peers q m' w') Finished), QFinished. split; [reflexivity|].
    destruct (Plain Finished QFinished true) as [R' Ep']; [exact Hm'|now right|reflexivity|reflexivity|now apply Le|].
    split; [exact R'|]. split; [discriminate|].
    split; [|split; [intros _ _; now left|discriminate]]. intros _. split; [|congruence].
    intros id Hk Hor. cbn [observe known] in Hk. apply (r_known _ _ _ _ R) in Hk. rewrite Hm, Hrest in Hk, K, S.
    assert (Hres : forall x, In x (into_result (with_progress (with_peers q m' w') Finished)) -> N.lxor target x <= d).
    { intros x Hx. unfold into_result in Hx. cbn [with_progress with_peers q_config q_peers] in Hx.
      rewrite (r_config _ _ _ _ R), Hm', Hrest in Hx.
      replace (succeeded_ids (map (expire now) pre ++ (d, p) :: r)) with ((succeeded_ids pre ++ [p_id p]) ++ succeeded_ids r) in Hx.
      2:{ rewrite succeeded_app, expire_succeeded, <- app_assoc. f_equal. unfold succeeded_ids at 2. cbn [flat_map snd]. rewrite Hst. reflexivity. }
      rewrite firstn_app in Hx. apply in_app_iff in Hx. destruct Hx as [Hx|Hx].
      - assert (Hx' : In x (succeeded_ids pre ++ [p_id p])).
        { rewrite <- (firstn_skipn (N.to_nat (num_results c))). apply in_app_iff. now left. }
        apply in_app_iff in Hx'. unfold keys_ok in K. apply Forall_app in K. destruct K as [Kpre Kp].
        assert (Hd : d = N.lxor target (p_id p)) by (inversion Kp; assumption).
        destruct Hx' as [Hx'|[<-|[]]]; [|lia].
        apply succeeded_sub in Hx'. rewrite map_app in S. cbn [map fst] in S. rewrite (keys_map _ _ Kpre) in S.
        apply (in_map (N.lxor target)) in Hx'.
        clear -S Hx'. induction (map (N.lxor target) (ids pre)) as [|a l IH]; [destruct Hx'|].
        cbn in S. assert (S' : StronglySorted N.lt (l ++ d :: map fst r)) by (inversion S; assumption).
        assert (F : Forall (N.lt a) (l ++ d :: map fst r)) by (inversion S; assumption).
        destruct Hx' as [<-|Hx']; [|now apply IH]. rewrite Forall_forall in F.
        assert (a < d) by (apply F; apply in_app_iff; right; now left). lia.
      - rewrite app_length in Hx. cbn [length] in Hx. unfold blen in Hnum.
        replace (N.to_nat (num_results c) - (length (succeeded_ids pre) + 1))%nat with 0%nat in Hx by lia. destruct Hx. }
    assert (Hd : N.lxor target id <= d).
    { destruct Hor as [Hlt|(x & Hx & Hle)]; [|unfold distance_to in Hle; specialize (Hres x Hx); lia].
      exfalso. unfold into_result in Hlt. cbn [with_progress with_peers q_config q_peers] in Hlt. rewrite (r_config _ _ _ _ R) in Hlt.
      unfold blen in Hlt. rewrite firstn_length in Hlt. rewrite Hm', Hrest, succeeded_app, expire_succeeded, app_length in Hlt.
      unfold succeeded_ids in Hlt at 2. cbn [flat_map snd] in Hlt. rewrite Hst in Hlt. cbn [app length] in Hlt. unfold blen in Hnum. lia. }
    destruct (sorted_app_le target pre d p r K S id Hk Hd) as [Hp'|Hp'].
    + rewrite <- (expire_ids now) in Hp'. unfold ids in Hp'. apply in_map_iff in Hp'. destruct Hp' as (e0 & <- & He0).
      rewrite Forall_forall in Ep', Hq. apply settled_entry; [exact (Ep' e0 He0)| |exact (Hq e0 He0)|exact (r_answered _ _ _ _ R)|exact (r_failed _ _ _ _ R)].
      apply in_map_iff in He0. destruct He0 as (e1 & <- & He1). rewrite Forall_forall in Hn. specialize (Hn e1 He1).
      unfold expire. cbn [snd]. destruct (p_state (snd e1)) eqn:Hx; rewrite ?Hx; try congruence.
      destruct (_ <=? _); cbn [set_state p_state]; rewrite ?Hx; congruence.
    + subst id. rewrite Hrest in Erest. assert (Ep : entry_ok c v p) by (inversion Erest; assumption).
      apply (settled_entry c _ p).
      * apply (entry_later c v _ (d, p) now); try reflexivity; [cbn; lia|cbn; lia|exact Ep].
      * congruence.
      * unfold is_waiting. now rewrite Hst.
      * exact (r_answered _ _ _ _ R).
      * exact (r_failed _ _ _ _ R).
  - destruct He as (Hrest & Hm'). rewrite Hrest, app_nil_r in *.
    destruct (0 <? w') eqn:Hz.
    + exists (with_peers q m' w'), (QWaiting None). split; [reflexivity|].
      split; [|split; [discriminate|split; [discriminate|split; [|discriminate]]]].
      * rewrite Same. apply (Plain _ _ (over v)); [exact Hm'|now left|exact Hov|reflexivity|now apply Le].
      * intros H0 _. apply N.ltb_lt in Hz. specialize (Le Hm'). lia.
    + apply N.ltb_ge in Hz. exists (with_progress (with_peers q m' w') Finished), QFinished. split; [reflexivity|].
      destruct (Plain Finished QFinished true) as [R' Ep']; [exact Hm'|now right|reflexivity|reflexivity|now apply Le|].
      split; [exact R'|]. split; [discriminate|].
      split; [|split; [intros _ _; now left|discriminate]]. intros _.
      assert (All : forall id, In id (known v) -> settled c (observe c target v (EPoll now QFinished)) id).
      { intros id Hk. apply (r_known _ _ _ _ R) in Hk. rewrite Hm, <- (expire_ids now) in Hk. unfold ids in Hk. apply in_map_iff in Hk.
        destruct Hk as (e0 & <- & He0). rewrite Forall_forall in Ep'.
        apply settled_entry; [exact (Ep' e0 He0)| | |exact (r_answered _ _ _ _ R)|exact (r_failed _ _ _ _ R)].
        - apply in_map_iff in He0. destruct He0 as (e1 & <- & He1). rewrite Forall_forall in Hn. specialize (Hn e1 He1).
          unfold expire. cbn [snd]. destruct (p_state (snd e1)) eqn:Hx; rewrite ?Hx; try congruence.
          destruct (_ <=? _); cbn [set_state p_state]; rewrite ?Hx; congruence.
        - rewrite Hm' in Hww. destruct (is_waiting (snd e0)) eqn:Hx; [|reflexivity]. exfalso.
          assert (Hz2 : waiting_in (map (expire now) pre) = 0) by lia. unfold waiting_in, blen in Hz2.
          assert (Hin : In e0 (filter (fun e => is_waiting (snd e)) (map (expire now) pre))) by (apply filter_In; now split).
          destruct (filter (fun e => is_waiting (snd e)) (map (expire now) pre)); [destruct Hin|cbn in Hz2; lia]. }
      split; [|intros _; exact All]. intros id Hk _. now apply All.
Qed.

(** ** What is out *)
Lemma in_flight_le c target q v : rel c target q v -> in_flight c v <= q_waiting q.
Proof.
  intros R. unfold in_flight. rewrite (r_waiting _ _ _ _ R). unfold waiting_in, blen.
  assert (H : (length (map fst (filter (out_at c v) (contacted v))) <=
    length (map (fun e : N * peer => p_id (snd e)) (filter (fun e => is_waiting (snd e)) (q_peers q))))%nat).
  { apply NoDup_incl_length.
    - pose proof (r_asked_nodup _ _ _ _ R) as ND. unfold asked in ND. clear -ND.
      induction (contacted v) as [|x l IH]; cbn [filter map]; [constructor|].
      cbn in ND. inversion ND as [|y z Hy Hz]; subst. destruct (out_at c v x); [|now apply IH].
      cbn [map]. constructor; [|now apply IH]. intros Hi. apply Hy. apply in_map_iff in Hi. destruct Hi as (e & <- & He).
      apply filter_In in He. now apply in_map.
    - intros id Hi. apply in_map_iff in Hi. destruct Hi as ([id' now] & <- & Hi). cbn [fst]. apply filter_In in Hi. destruct Hi as [Hi Ho].
      unfold out_at in Ho. cbn [fst snd] in Ho. rewrite !andb_true_iff, !negb_true_iff in Ho. destruct Ho as [[Ha Hb] Hc].
      apply mem_false in Ha, Hb. apply N.ltb_lt in Hc.
      assert (Hasked : In id' (asked v)) by (apply in_asked; now exists now).
      pose proof (r_asked_known _ _ _ _ R _ Hasked) as Hk. apply (r_known _ _ _ _ R) in Hk. unfold ids in Hk. apply in_map_iff in Hk.
      destruct Hk as (e & He & Hin). pose proof (r_entries _ _ _ _ R) as E. rewrite Forall_forall in E. specialize (E e Hin).
      apply in_map_iff. exists e. split; [exact He|]. apply filter_In. split; [exact Hin|].
      unfold entry_ok in E. unfold is_waiting. rewrite He in E. destruct (p_state (snd e)); try tauto.
      exfalso. destruct E as ((n2 & Hn2 & Hle) & _). assert (n2 = now); [|subst; lia].
      pose proof (r_asked_nodup _ _ _ _ R) as ND. unfold asked in ND. revert ND Hi Hn2. clear.
      induction (contacted v) as [|[a b] l IH]; [intros _ []|]. cbn [map fst]. intros ND H1 H2. inversion ND as [|y z Hy Hz]; subst.
      destruct H1 as [H1|H1], H2 as [H2|H2].
      + congruence.
      + exfalso. apply Hy. injection H1 as -> ->. apply in_map_iff. now exists (id', n2).
      + exfalso. apply Hy. injection H2 as -> ->. apply in_map_iff. now exists (id', now).
      + now apply IH. }
  rewrite !map_length in H. lia.
Qed.

Lemma none_waiting c target q v : rel c target q v ->
  (forall id, In id (asked v) -> In id (answered v) \/ In id (failed v)) -> q_waiting q = 0.
Proof.
  intros R H. rewrite (r_waiting _ _ _ _ R). unfold waiting_in.
  destruct (filter (fun e => is_waiting (snd e)) (q_peers q)) as [|e l] eqn:Hf; [reflexivity|]. exfalso.
  assert (He : In e (filter (fun e => is_waiting (snd e)) (q_peers q))) by (rewrite Hf; now left).
  apply filter_In in He. destruct He as [He Hw]. pose proof (r_entries _ _ _ _ R) as E. rewrite Forall_forall in E. specialize (E e He).
  unfold entry_ok in E. unfold is_waiting in Hw. destruct (p_state (snd e)); try discriminate.
  destruct E as ((now & Hc & _) & Ha & Hb). destruct (H (p_id (snd e))); [apply in_asked; now exists now|tauto|tauto].
Qed.

(** ** Results *)
Lemma result_sorted c target q v : rel c target q v ->
  closest_first target (succeeded_ids (q_peers q)) (answered v).
Proof.
  intros R. pose proof (r_keys _ _ _ _ R) as K. fold (keys_ok target (q_peers q)) in K. pose proof (r_sorted _ _ _ _ R) as S.
  pose proof (ids_nodup target _ S K) as ND. split.
  - apply NoDup_Permutation.
    + clear -ND. unfold succeeded_ids, ids in *. induction (q_peers q) as [|e m IH]; cbn [flat_map map] in *; [constructor|].
      inversion ND as [|x y Hx Hy]; subst. destruct (p_state (snd e)); cbn [app]; try now apply IH.
      constructor; [|now apply IH]. intros Hi. apply Hx. exact (succeeded_sub m _ Hi).
    + exact (r_answered_nodup _ _ _ _ R).
    + intros id. pose proof (r_entries _ _ _ _ R) as E. rewrite Forall_forall in E. split.
      * unfold succeeded_ids. rewrite in_flat_map. intros (e & He & H). specialize (E e He). unfold entry_ok in E.
        destruct (p_state (snd e)); cbn in H; try tauto. destruct H as [<-|[]]. apply E.
      * intros Ha. pose proof (r_answered _ _ _ _ R _ Ha) as Hk. apply (r_asked_known _ _ _ _ R) in Hk. pose proof (proj1 (r_known _ _ _ _ R _) Hk) as Hi.
        unfold ids in Hi. apply in_map_iff in Hi. destruct Hi as (e & <- & He). specialize (E e He). unfold entry_ok in E.
        unfold succeeded_ids. apply in_flat_map. exists e. split; [exact He|].
        pose proof (r_answered _ _ _ _ R _ Ha) as Hasked. destruct (p_state (snd e)); try tauto. now left.
  - revert K S. clear. unfold succeeded_ids. induction (q_peers q) as [|[d p] m IH]; intros K S; cbn [flat_map]; [constructor|].
    assert (K' : keys_ok target m) by (inversion K; assumption).
    assert (Hd : d = N.lxor target (p_id p)) by (inversion K; assumption).
    assert (S' : StronglySorted N.lt (map fst m)) by (inversion S; assumption).
    assert (F : Forall (N.lt d) (map fst m)) by (inversion S; assumption).
    cbn [snd]. destruct (p_state p); cbn [app]; try now apply IH. constructor; [now apply IH|].
    apply Forall_forall. intros x Hx. apply succeeded_sub in Hx. rewrite (keys_map _ _ K'), Forall_forall in F.
    specialize (F _ (in_map _ _ _ Hx)). unfold distance_to. lia.
Qed.

(** ** Node lookups: the invariant over histories *)
Lemma observe_all_snoc c target initial t e :
  observe_all c target initial (t ++ [e]) = observe c target (observe_all c target initial t) e.
Proof. unfold observe_all. now rewrite fold_left_app. Qed.

Lemma finished_poll q now : is_finished q = true -> poll q now = Ok (q, QFinished).
Proof. intros H. unfold poll. now rewrite H. Qed.

Lemma view_over_poll c target v now : over v = true ->
  observe c target v (EPoll now QFinished) =
  {| known := known v; contacted := contacted v; answered := answered v; failed := failed v; streak := streak v;
     over := true; clock := N.max (clock v) now |}.
Proof. reflexivity. Qed.
Lemma rel_clock c target q v now : rel c target q v -> over v = true -> rel c target q (observe c target v (EPoll now QFinished)).
Proof.
  intros R Ho. pose proof (r_entries _ _ _ _ R) as RE. pose proof (r_over _ _ _ _ R) as RO. destruct R. constructor; try assumption.
  - cbn [observe]. apply Forall_forall. intros e He. rewrite Forall_forall in RE.
    apply (entry_later c v _ e now); try reflexivity; [cbn; lia|cbn; lia|now apply RE].
  - cbn. now rewrite <- RO.
Qed.
Lemma settled_clock c target v id now s : settled c v id -> (forall id, s <> QWaiting (Some id)) -> settled c (observe c target v (EPoll now s)) id.
Proof.
  intros (n & H1 & H2) Hs. exists n. cbn [observe contacted answered failed clock].
  split.
  - destruct s as [[x|]| | |]; try exact H1. now destruct (Hs x).
  - destruct H2 as [H2|[H2|H2]]; [auto|auto|right; right; lia].
Qed.

Definition node_inv c target q v : Prop := rel c target q v /\ (over v = true -> ends_well c target q v).

Lemma poll_inv c target q v now : node_inv c target q v ->
  exists q' s, poll q now = Ok (q', s) /\ node_inv c target q' (observe c target v (EPoll now s)) /\
    (forall id, s = QWaiting (Some id) -> at_capacity q = false /\ q_waiting q' <= q_waiting q + 1 /\ contact_ok c target v id) /\
    (q_waiting q = 0 -> (is_finished q = false -> at_capacity q = false) -> s = QFinished \/ exists id, s = QWaiting (Some id)).
Proof.
  intros [R W]. destruct (is_finished q) eqn:Hf.
  - exists q, QFinished. rewrite (finished_poll _ _ Hf). split; [reflexivity|].
    assert (Ho : over v = true) by (rewrite (r_over _ _ _ _ R); exact Hf).
    split; [split|split; [discriminate|auto]].
    + now apply rel_clock.
    + intros _ id Hk Hor. apply settled_clock; [|discriminate]. exact (W Ho id Hk Hor).
  - unfold poll. rewrite Hf. destruct (scan_rel c target q v now (Some 0) R Hf (or_introl eq_refl)) as (q' & s & Hs & R' & H1 & H2 & H3 & H4).
    exists q', s. split; [exact Hs|]. split; [split; [exact R'|]|split; [exact H1|intros Hw Hc; exact (H3 Hw (Hc eq_refl))]].
    intros Ho. assert (s = QFinished).
    { cbn in Ho. destruct s; try reflexivity; rewrite (r_over _ _ _ _ R), Hf in Ho; discriminate. }
    subst s. exact (proj1 (H2 eq_refl)).
Qed.

Lemma counts_over v id : counts v id = true -> over v = false.
Proof. unfold counts. destruct (over v); [discriminate|reflexivity]. Qed.
Lemma finished_progress q q' : q_progress q' = q_progress q -> is_finished q' = is_finished q.
Proof. unfold is_finished. now intros ->. Qed.

Lemma failure_inv c target q v id : rel c target q v ->
  exists q', on_failure q id = Ok q' /\ rel c target q' (observe c target v (EFailure id)) /\
    (counts v id = false -> q' = q).
Proof.
  intros R. unfold on_failure. destruct (settle_rel c target q v id false R) as [[Hc Hs]|[Hc (q' & Hs & R' & Hp & _)]]; cbn in Hs; rewrite Hs; cbn [omap obind].
  - exists q. split; [reflexivity|]. cbn [observe]. rewrite Hc. now split.
  - exists q'. split; [reflexivity|]. cbn [observe]. rewrite Hc. split; [exact R'|discriminate].
Qed.
Lemma success_inv c target q v id nodes : rel c target q v ->
  exists q', on_success q id nodes = Ok q' /\ rel c target q' (observe c target v (ESuccess id (ClosestNodes nodes))) /\
    (counts v id = false -> q' = q).
Proof.
  intros R. unfold on_success. destruct (settle_rel c target q v id true R) as [[Hc Hs]|[Hc (q' & Hs & R' & Hp & _)]]; cbn in Hs; rewrite Hs; cbn [omap obind].
  - exists q. split; [reflexivity|]. cbn [observe]. rewrite Hc. now split.
  - exists (learn q' nodes). split; [reflexivity|]. cbn [observe]. rewrite Hc. split; [|discriminate].
    apply (learn_rel c target q' (mark v id true) nodes R').
    rewrite (finished_progress _ _ Hp). rewrite <- (r_over _ _ _ _ R). now apply counts_over in Hc.
Qed.
Lemma observe_not_counted c target v id r : counts v id = false ->
  observe c target v (ESuccess id r) = v /\ observe c target v (EFailure id) = v.
Proof. intros H. cbn [observe]. rewrite H. now split. Qed.

Lemma step_inv c target q v a : node_inv c target q v ->
  exists q' r e, step q a = Ok (q', r) /\ event_of a r = Some e /\ node_inv c target q' (observe c target v e).
Proof.
  intros [R W]. destruct a as [now|id nodes|id]; cbn [step].
  - destruct (poll_inv c target q v now (conj R W)) as (q' & s & Hp & H & _).
    exists q', (Some s), (EPoll now s). rewrite Hp. now split.
  - destruct (success_inv c target q v id nodes R) as (q' & Hs & R' & Hq).
    exists q', None, (ESuccess id (ClosestNodes nodes)). rewrite Hs. split; [reflexivity|]. split; [reflexivity|].
    split; [exact R'|]. intros Ho. destruct (counts v id) eqn:Hc.
    + cbn [observe] in Ho. rewrite Hc in Ho. cbn in Ho. apply counts_over in Hc. congruence.
    + destruct (observe_not_counted c target v id (ClosestNodes nodes) Hc) as [E _]. rewrite E in *. rewrite (Hq eq_refl). now apply W.
  - destruct (failure_inv c target q v id R) as (q' & Hs & R' & Hq).
    exists q', None, (EFailure id). rewrite Hs. split; [reflexivity|]. split; [reflexivity|].
    split; [exact R'|]. intros Ho. destruct (counts v id) eqn:Hc.
    + cbn [observe] in Ho. rewrite Hc in Ho. cbn in Ho. apply counts_over in Hc. congruence.
    + destruct (observe_not_counted c target v id (ClosestNodes []) Hc) as [_ E]. rewrite E in *. rewrite (Hq eq_refl). now apply W.
Qed.

Lemma history_inv c target initial q t : history c target initial q t -> node_inv c target q (observe_all c target initial t).
Proof.
  induction 1 as [|q t a q' r e H IH Hs He].
  - split; [apply rel_init|]. cbn. discriminate.
  - destruct (step_inv c target q _ a IH) as (q2 & r2 & e2 & Hs2 & He2 & Hi).
    rewrite Hs in Hs2. injection Hs2 as <- <-. rewrite He in He2. injection He2 as <-.
    rewrite observe_all_snoc. exact Hi.
Qed.

(** ** Content lookups: the invariant over histories *)
Record content_inv (c : config) (target : N) (initial : list N) (f : content_query) (t : list event) : Prop := {
  i_rel : rel c target (fc_query f) (observe_all c target initial t);
  i_unchecked : fc_unchecked f = rev (supplied c target initial t);
  i_suppliers : incl (map fst (supplied c target initial t)) (answered (observe_all c target initial t));
  i_nodup : NoDup (map fst (supplied c target initial t));
  i_queue : announced t ++ fc_pending f = map fst (supplied c target initial t);
  i_one : fc_validating f <= 1;
  i_verdicts : blen (verdicts t) <= blen (announced t);
  i_channel : exists past, verdicts t = past ++ fc_channel f /\
    match fc_validated f with
    | None => Forall (fun x => x = None) past /\ blen (announced t) = fc_validating f + blen past
    | Some v => over (observe_all c target initial t) = true /\
                exists past0, past = past0 ++ [Some v] /\ Forall (fun x => x = None) past0 /\
                  blen (announced t) = fc_validating f + blen past0
    end;
  i_over : over (observe_all c target initial t) = true -> fc_validated f = None ->
    fc_pending f = [] /\ fc_validating f = 0 /\
    forall id, In id (known (observe_all c target initial t)) -> settled c (observe_all c target initial t) id
}.

Lemma supplied_from_app c target : forall t1 v t2,
  supplied_from c target v (t1 ++ t2) = supplied_from c target v t1 ++ supplied_from c target (fold_left (observe c target) t1 v) t2.
Proof. induction t1 as [|e t1 IH]; intros v t2; cbn [supplied_from app fold_left]; [reflexivity|]. rewrite IH. now rewrite app_assoc. Qed.
Lemma supplied_snoc c target initial t e :
  supplied c target initial (t ++ [e]) =
  supplied c target initial t ++
    match e with ESuccess id (Found u) => if counts (observe_all c target initial t) id then [(id, u)] else [] | _ => [] end.
Proof. unfold supplied. rewrite supplied_from_app. cbn [supplied_from]. now rewrite app_nil_r. Qed.
Lemma announced_snoc t e : announced (t ++ [e]) = announced t ++ match e with EPoll _ (QValidating id) => [id] | _ => [] end.
Proof. unfold announced. rewrite flat_map_app. cbn [flat_map]. now rewrite app_nil_r. Qed.
Lemma verdicts_snoc t e : verdicts (t ++ [e]) = verdicts t ++ match e with EVerdict v => [v] | _ => [] end.
Proof. unfold verdicts. rewrite flat_map_app. cbn [flat_map]. now rewrite app_nil_r. Qed.

Ltac snoc := rewrite ?observe_all_snoc, ?supplied_snoc, ?announced_snoc, ?verdicts_snoc, ?app_nil_r.

Lemma content_inv_init c target initial : content_inv c target initial (new_content_query c target initial) [].
Proof.
  constructor; cbn [new_content_query fc_query fc_unchecked fc_pending fc_channel fc_validated fc_validating].
  - apply rel_init.
  - reflexivity.
  - intros x [].
  - constructor.
  - reflexivity.
  - lia.
  - reflexivity.
  - exists []. split; [reflexivity|]. split; [constructor|reflexivity].
  - cbn. discriminate.
Qed.

(** The part of [poll] after the channel. *)
Lemma advance_inv c target initial f t now past :
  rel c target (fc_query f) (observe_all c target initial t) ->
  is_finished (fc_query f) = false ->
  fc_unchecked f = rev (supplied c target initial t) ->
  incl (map fst (supplied c target initial t)) (answered (observe_all c target initial t)) ->
  NoDup (map fst (supplied c target initial t)) ->
  announced t ++ fc_pending f = map fst (supplied c target initial t) ->
  fc_validating f <= 1 -> blen (verdicts t) <= blen (announced t) ->
  verdicts t = past ++ fc_channel f -> Forall (fun x => x = None) past -> fc_validated f = None ->
  blen (announced t) = fc_validating f + blen past ->
  exists f' s, fc_advance f now = Ok (f', s) /\ content_inv c target initial f' (t ++ [EPoll now s]) /\
    (forall id, s = QValidating id -> exists u, In (id, u) (supplied c target initial t)) /\
    (forall id, s = QWaiting (Some id) -> at_capacity (fc_query f) = false /\
        q_waiting (fc_query f') <= q_waiting (fc_query f) + 1 /\ contact_ok c target (observe_all c target initial t) id) /\
    (q_waiting (fc_query f) = 0 -> at_capacity (fc_query f) = false -> fc_validating f = 0 ->
       s = QFinished \/ (exists id, s = QValidating id) \/ exists id, s = QWaiting (Some id)).
Proof.
  intros R Hf Hu Hs Hn Hq H1 Hv Hp Hpast Hval Hcount. unfold fc_advance.
  assert (Ho : over (observe_all c target initial t) = false) by (rewrite (r_over _ _ _ _ R); exact Hf).
  assert (Plain : forall s, s <> QFinished -> (forall id, s <> QWaiting (Some id)) ->
    rel c target (fc_query f) (observe c target (observe_all c target initial t) (EPoll now s))).
  { intros s Hsf Hsw. pose proof (r_entries _ _ _ _ R) as RE. pose proof R as R0. destruct R0.
    assert (E : contacted (observe c target (observe_all c target initial t) (EPoll now s)) = contacted (observe_all c target initial t)).
    { cbn. destruct s as [[x|]| | |]; try reflexivity. now destruct (Hsw x). }
    assert (Ea : asked (observe c target (observe_all c target initial t) (EPoll now s)) = asked (observe_all c target initial t)).
    { unfold asked. now rewrite E. }
    constructor; rewrite ?Ea; try assumption.
    - apply Forall_forall. intros e He. rewrite Forall_forall in RE.
      apply (entry_later c (observe_all c target initial t) _ e now); try reflexivity; [exact E|cbn; lia|cbn; lia|now apply RE].
    - cbn. destruct s; try assumption. now destruct Hsf. }
  destruct (0 <? fc_validating f) eqn:Hz.
  { apply N.ltb_lt in Hz. exists f, QAtCapacity. split; [reflexivity|].
    split; [|split; [discriminate|split; [discriminate|lia]]].
    constructor; snoc; try assumption.
    - apply Plain; discriminate.
    - exists past. rewrite Hval. snoc. auto.
    - cbn [observe over]. congruence. }
  apply N.ltb_ge in Hz. destruct (fc_pending f) as [|id rest] eqn:Hpend.
  - destruct (scan_rel c target (fc_query f) _ now None R Hf (or_intror eq_refl)) as (q' & s & Hsc & R' & A1 & A2 & A3 & A4).
    rewrite Hsc. cbn [omap obind fst snd]. exists (with_query f q'), s. split; [reflexivity|].
    assert (Ea : announced (t ++ [EPoll now s]) = announced t) by (snoc; destruct s; rewrite ?app_nil_r; try reflexivity; now destruct (A4 peer)).
    split; [|split; [intros id E; now destruct (A4 id)|split; [exact A1|]]].
    2:{ intros B1 B2 _. destruct (A3 B1 B2) as [B|B]; auto. }
    constructor; rewrite ?Ea; snoc; cbn [with_query fc_query fc_unchecked fc_pending fc_channel fc_validated fc_validating]; try assumption.
    + now rewrite Hpend.
    + exists past. rewrite Hval. auto.
    + intros Ho' _. assert (s = QFinished). { cbn in Ho'. destruct s; try reflexivity; congruence. }
      subst s. split; [exact Hpend|]. split; [lia|]. intros id Hk. now apply (proj2 (A2 eq_refl) eq_refl).
  - eexists _, (QValidating id). split; [reflexivity|].
    split; [|split; [|split; [discriminate|intros _ _ _; right; left; now exists id]]].
    + constructor; snoc; cbn [fc_query fc_unchecked fc_pending fc_channel fc_validated fc_validating]; try assumption.
      * apply Plain; discriminate.
      * rewrite <- Hq, <- app_assoc. reflexivity.
      * lia.
      * rewrite blen_app. lia.
      * exists past. rewrite Hval. snoc. rewrite blen_app, blen_cons. unfold blen at 2. cbn [length]. split; [exact Hp|]. split; [exact Hpast|]. lia.
      * cbn [observe over]. congruence.
    + intros id0 [= <-]. assert (Hi : In id (map fst (supplied c target initial t))) by (rewrite <- Hq; apply in_app_iff; right; now left).
      apply in_map_iff in Hi. destruct Hi as ([a u] & E & Hi). cbn in E. subst a. now exists u.
Qed.

Lemma content_poll_inv c target initial f t now : content_inv c target initial f t ->
  exists f' s, fc_poll f now = Ok (f', s) /\ content_inv c target initial f' (t ++ [EPoll now s]) /\
    (forall id, s = QValidating id -> exists u, In (id, u) (supplied c target initial t)) /\
    (forall id, s = QWaiting (Some id) -> at_capacity (fc_query f) = false /\
        q_waiting (fc_query f') <= q_waiting (fc_query f) + 1 /\ contact_ok c target (observe_all c target initial t) id) /\
    (q_waiting (fc_query f) = 0 -> (is_finished (fc_query f) = false -> at_capacity (fc_query f) = false) -> blen (verdicts t) = blen (announced t) ->
       s = QFinished \/ (exists id, s = QValidating id) \/ exists id, s = QWaiting (Some id)) /\
    (forall v, is_finished (fc_query f) = false -> fc_channel f = [Some v] -> s = QFinished /\ fc_validated f' = Some v).
Proof.
  intros I. destruct I as [R Hu Hs Hn Hq H1 Hv (past & Hp & Hm) Hov]. unfold fc_poll.
  destruct (is_finished (fc_query f)) eqn:Hf.
  { assert (Ho : over (observe_all c target initial t) = true) by (rewrite (r_over _ _ _ _ R); exact Hf).
    exists f, QFinished. split; [reflexivity|].
    split; [|split; [discriminate|split; [discriminate|split; [auto|congruence]]]].
    constructor; snoc; try assumption.
    - now apply rel_clock.
    - exists past. snoc. split; [exact Hp|]. destruct (fc_validated f); [|exact Hm]. split; [reflexivity|apply Hm].
    - intros _ Hval. destruct (Hov Ho Hval) as (A & B & C). split; [exact A|]. split; [exact B|]. intros id Hk. apply settled_clock; [|discriminate]. now apply C. }
  assert (Ho : over (observe_all c target initial t) = false) by (rewrite (r_over _ _ _ _ R); exact Hf).
  assert (Hval : fc_validated f = None) by (destruct (fc_validated f); [destruct Hm; congruence|reflexivity]).
  rewrite Hval in Hm. destruct Hm as [Hpast Hcount].
  destruct (fc_channel f) as [|[v|] rest] eqn:Hch.
  - destruct (advance_inv c target initial f t now past) as (f' & s & E & I' & A1 & A2 & A3); try assumption; [now rewrite Hch|].
    exists f', s. split; [exact E|]. split; [exact I'|]. split; [exact A1|]. split; [exact A2|]. split; [|discriminate].
    intros B1 B2 B3. apply A3; [exact B1|now apply B2|]. rewrite Hp, app_nil_r in B3. lia.
  - eexists _, QFinished. split; [reflexivity|].
    split; [|split; [discriminate|split; [discriminate|split; [auto|intros v0 _ [= -> ->]; now split]]]].
    constructor; snoc; cbn [fc_query fc_unchecked fc_pending fc_channel fc_validated fc_validating]; try assumption.
    + pose proof (r_entries _ _ _ _ R) as RE. pose proof R as R0. destruct R0. constructor; cbn [observe]; try assumption.
      * apply Forall_forall. intros e He. rewrite Forall_forall in RE.
        apply (entry_later c (observe_all c target initial t) _ e now); try reflexivity; [cbn; lia|cbn; lia|now apply RE].
      * reflexivity.
      * intros _. exact Logic.I.
    + exists (past ++ [Some v]). snoc. split; [rewrite <- app_assoc; exact Hp|]. split; [reflexivity|]. exists past. auto.
    + discriminate.
  - assert (Hlen : blen past + blen (None :: rest) <= blen (announced t)) by (rewrite <- blen_app, <- Hp; exact Hv).
    rewrite blen_cons in Hlen.
    assert (fc_validating f =? 0 = false) as -> by (apply N.eqb_neq; lia).
    set (f1 := {| fc_query := fc_query f; fc_unchecked := fc_unchecked f; fc_pending := fc_pending f;
                  fc_channel := rest; fc_validated := fc_validated f; fc_validating := fc_validating f - 1 |}).
    destruct (advance_inv c target initial f1 t now (past ++ [None])) as (f' & s & E & I' & A1 & A2 & A3); try assumption; cbn [f1 fc_query fc_unchecked fc_pending fc_channel fc_validated fc_validating].
    + lia.
    + rewrite <- app_assoc. exact Hp.
    + apply Forall_app. split; [exact Hpast|]. constructor; [reflexivity|constructor].
    + rewrite blen_app, blen_cons. unfold blen at 3. cbn [length]. lia.
    + exists f', s. split; [exact E|]. split; [exact I'|]. split; [exact A1|]. split; [exact A2|]. split; [|discriminate].
      intros B1 B2 B3. apply A3; [exact B1|now apply B2|]. cbn [f1 fc_validating]. rewrite Hp, blen_app, blen_cons in B3. lia.
Qed.

Lemma content_step_inv c target initial f t a : content_inv c target initial f t -> verdict_allowed t a ->
  exists f' r e, content_step f a = Ok (f', r) /\ content_event_of a r = Some e /\ content_inv c target initial f' (t ++ [e]).
Proof.
  intros I Ha. destruct a as [now|id r|id|v]; cbn [content_step].
  - destruct (content_poll_inv c target initial f t now I) as (f' & s & E & I' & _).
    exists f', (Some s), (EPoll now s). rewrite E. now split.
  - destruct I as [R Hu Hs Hn Hq H1 Hv Hch Hov]. unfold fc_on_success.
    destruct (settle_rel c target _ _ id true R) as [[Hc Hset]|[Hc (q' & Hset & R' & Hpr & _)]]; cbn in Hset; rewrite Hset; cbn [omap obind].
    + exists f, None, (ESuccess id r). split; [reflexivity|]. split; [reflexivity|].
      destruct (observe_not_counted c target _ id r Hc) as [E _].
      constructor; snoc; rewrite ?E; try (destruct r; rewrite ?Hc, ?app_nil_r; assumption).
    + assert (Ho : over (observe_all c target initial t) = false) by (now apply counts_over in Hc).
      assert (Hval : fc_validated f = None).
      { destruct Hch as (past & _ & Hm). destruct (fc_validated f); [destruct Hm; congruence|reflexivity]. }
      assert (Hf' : is_finished q' = false).
      { rewrite (finished_progress _ _ Hpr), <- (r_over _ _ _ _ R). exact Ho. }
      destruct r as [nodes|u].
      * eexists _, None, (ESuccess id (ClosestNodes nodes)). split; [reflexivity|]. split; [reflexivity|].
        constructor; snoc; cbn [with_query fc_query fc_unchecked fc_pending fc_channel fc_validated fc_validating]; try assumption.
        -- cbn [observe]. rewrite Hc. exact (learn_rel c target q' _ nodes R' Hf').
        -- cbn [observe]. rewrite Hc. cbn [answered]. intros x Hx. apply in_app_iff. left. now apply Hs.
        -- destruct Hch as (past & Hp & Hm). exists past. snoc. split; [exact Hp|]. rewrite Hval in *. exact Hm.
        -- cbn [observe]. rewrite Hc. cbn [over]. congruence.
      * eexists _, None, (ESuccess id (Found u)). split; [reflexivity|]. split; [reflexivity|].
        assert (Hnew : ~ In id (answered (observe_all c target initial t))).
        { unfold counts in Hc. rewrite !andb_true_iff, !negb_true_iff in Hc. apply mem_false. apply Hc. }
        constructor; snoc; rewrite ?Hc; cbn [with_query fc_query fc_unchecked fc_pending fc_channel fc_validated fc_validating]; try assumption.
        -- cbn [observe]. rewrite Hc. exact R'.
        -- rewrite rev_app_distr, Hu. reflexivity.
        -- cbn [observe]. rewrite Hc. cbn [answered]. rewrite map_app. intros x Hx. apply in_app_iff in Hx. apply in_app_iff.
           destruct Hx as [Hx|Hx]; [left; now apply Hs|right; exact Hx].
        -- rewrite map_app. apply nodup_app_end; [exact Hn|]. intros Hx. apply Hnew. now apply Hs.
        -- rewrite map_app, app_assoc, Hq. reflexivity.
        -- destruct Hch as (past & Hp & Hm). exists past. snoc. split; [exact Hp|]. rewrite Hval in *. exact Hm.
        -- cbn [observe]. rewrite Hc. cbn [over]. congruence.
  - destruct I as [R Hu Hs Hn Hq H1 Hv Hch Hov]. unfold fc_on_failure.
    destruct (failure_inv c target _ _ id R) as (q' & E & R' & Hsame). rewrite E. cbn [omap obind].
    exists (with_query f q'), None, (EFailure id). split; [reflexivity|]. split; [reflexivity|].
    assert (Ea : answered (observe c target (observe_all c target initial t) (EFailure id)) = answered (observe_all c target initial t)).
    { cbn [observe]. now destruct (counts _ id). }
    assert (Eo : over (observe c target (observe_all c target initial t) (EFailure id)) = over (observe_all c target initial t)).
    { cbn [observe]. now destruct (counts _ id). }
    constructor; snoc; cbn [with_query fc_query fc_unchecked fc_pending fc_channel fc_validated fc_validating]; rewrite ?Ea; try assumption.
    + destruct Hch as (past & Hp & Hm). exists past. snoc. split; [exact Hp|]. rewrite Eo. exact Hm.
    + rewrite Eo. intros Ho Hval. destruct (counts (observe_all c target initial t) id) eqn:Hc; [apply counts_over in Hc; congruence|].
      cbn [observe]. rewrite Hc. now apply Hov.
  - destruct I as [R Hu Hs Hn Hq H1 Hv Hch Hov]. exists (fc_send f v), None, (EVerdict v). split; [reflexivity|]. split; [reflexivity|].
    constructor; snoc; cbn [fc_send fc_query fc_unchecked fc_pending fc_channel fc_validated fc_validating]; try assumption.
    + rewrite blen_app, blen_cons. unfold blen at 2. cbn [length]. cbn in Ha. lia.
    + destruct Hch as (past & Hp & Hm). exists past. snoc. split; [rewrite Hp, app_assoc; reflexivity|exact Hm].
Qed.

Lemma content_history_inv c target initial f t : content_history c target initial f t -> content_inv c target initial f t.
Proof.
  induction 1 as [|f t a f' r e H IH Ha Hs He]; [apply content_inv_init|].
  destruct (content_step_inv c target initial f t a IH Ha) as (f2 & r2 & e2 & Hs2 & He2 & Hi).
  rewrite Hs in Hs2. injection Hs2 as <- <-. rewrite He in He2. injection He2 as <-. exact Hi.
Qed.

(** ** Counting *)
Lemma firstn_incl {A} n (l : list A) : incl (firstn n l) l.
Proof. intros x H. rewrite <- (firstn_skipn n l). apply in_app_iff. now left. Qed.
Lemma named_snoc initial t e : named initial (t ++ [e]) = named initial t ++ match e with ESuccess _ (ClosestNodes l) => l | _ => [] end.
Proof. unfold named. rewrite flat_map_app. cbn [flat_map]. rewrite app_nil_r, app_assoc. reflexivity. Qed.
Lemma known_named c target initial t : incl (known (observe_all c target initial t)) (named initial t).
Proof.
  induction t as [|e t IH] using rev_ind.
  - intros x H. unfold named. rewrite app_nil_r. cbn in H. apply learn_all_in in H. destruct H as [[]|H]. now apply firstn_incl in H.
  - rewrite observe_all_snoc, named_snoc. intros x H. apply in_app_iff.
    assert (D : In x (known (observe_all c target initial t)) \/ exists id l, e = ESuccess id (ClosestNodes l) /\ In x l).
    { destruct e as [now s|id [l|u]|id|v]; cbn [observe] in H; try destruct (counts _ id); cbn [known] in H; auto.
      apply learn_all_in in H. destruct H as [H|H]; [now left|right; eauto]. }
    destruct D as [D|(id & l & -> & D)]; [left; now apply IH|now right].
Qed.
Lemma rel_counts c target q v : rel c target q v ->
  blen (contacted v) <= blen (known v) /\ blen (answered v) + blen (failed v) <= blen (contacted v).
Proof.
  intros R. split.
  - assert (H : (length (asked v) <= length (known v))%nat)
      by (apply NoDup_incl_length; [exact (r_asked_nodup _ _ _ _ R)|exact (r_asked_known _ _ _ _ R)]).
    unfold asked in H. rewrite map_length in H. unfold blen. lia.
  - assert (H : (length (answered v ++ failed v) <= length (asked v))%nat).
    { apply NoDup_incl_length.
      - assert (Disj : forall x, In x (answered v) -> ~ In x (failed v)).
        { intros x Hx Hf. pose proof (r_answered _ _ _ _ R _ Hx) as Hk. apply (r_asked_known _ _ _ _ R) in Hk.
          apply (r_known _ _ _ _ R) in Hk. unfold ids in Hk. apply in_map_iff in Hk. destruct Hk as (e & <- & He).
          pose proof (r_entries _ _ _ _ R) as E. rewrite Forall_forall in E. specialize (E e He).
          unfold entry_ok in E. pose proof (r_answered _ _ _ _ R _ Hx). destruct (p_state (snd e)); tauto. }
        pose proof (r_answered_nodup _ _ _ _ R) as N1. pose proof (r_failed_nodup _ _ _ _ R) as N2.
        clear R. induction (answered v) as [|a l IH]; [exact N2|]. cbn [app]. inversion N1; subst. constructor.
        + intros Hi. apply in_app_iff in Hi. destruct Hi as [Hi|Hi]; [tauto|]. exact (Disj a (or_introl eq_refl) Hi).
        + apply IH; [|assumption]. intros x Hx. apply Disj. now right.
      - intros x Hx. apply in_app_iff in Hx. destruct Hx as [Hx|Hx]; [now apply (r_answered _ _ _ _ R)|now apply (r_failed _ _ _ _ R)]. }
    rewrite app_length in H. unfold asked in H. rewrite map_length in H. unfold blen. lia.
Qed.
Lemma nodup_incl_blen {A} (a b : list A) : NoDup a -> incl a b -> blen a <= blen b.
Proof. intros N I. pose proof (NoDup_incl_length N I). unfold blen. lia. Qed.

Lemma idle_spec v : idle v = true <-> forall id, In id (asked v) -> In id (answered v) \/ In id (failed v).
Proof.
  unfold idle. rewrite forallb_forall. split; intros H id Hi; specialize (H id Hi).
  - rewrite orb_true_iff, !mem_spec in H. exact H.
  - now rewrite orb_true_iff, !mem_spec.
Qed.
Lemma idle_app c target : forall t1 v t2,
  idle_polls_from c target v (t1 ++ t2) = idle_polls_from c target v t1 + idle_polls_from c target (fold_left (observe c target) t1 v) t2.
Proof. induction t1 as [|e t1 IH]; intros v t2; cbn [idle_polls_from app fold_left]; [lia|]. rewrite IH. lia. Qed.
Lemma idle_snoc c target initial t e :
  idle_polls c target initial (t ++ [e]) = idle_polls c target initial t +
    match e with EPoll _ QFinished => 0 | EPoll _ _ => if idle (observe_all c target initial t) then 1 else 0 | _ => 0 end.
Proof.
  unfold idle_polls. rewrite idle_app. cbn [idle_polls_from]. fold (observe_all c target initial t). lia.
Qed.
Lemma at_capacity_zero q : q_waiting q = 0 -> 0 < parallelism (q_config q) -> 0 < num_results (q_config q) ->
  is_finished q = false -> at_capacity q = false.
Proof.
  intros H1 H2 H3 Hf. unfold at_capacity, is_finished in *. rewrite H1. destruct (q_progress q); [| |discriminate]; apply N.leb_gt; lia.
Qed.
Lemma allowance_waiting c target q v : rel c target q v -> 0 < parallelism c -> at_capacity q = false -> q_waiting q + 1 <= allowance c v.
Proof.
  intros R Hp Hc. unfold at_capacity, allowance in *. pose proof (r_streak _ _ _ _ R Hp) as H. rewrite (r_config _ _ _ _ R) in Hc.
  destruct (q_progress q) as [n| |]; [| |discriminate]; apply N.leb_gt in Hc.
  - destruct H as [-> H]. assert (n <? parallelism c = true) as -> by (apply N.ltb_lt; exact H). lia.
  - assert (streak v <? parallelism c = false) as -> by (apply N.ltb_ge; exact H). lia.
Qed.
