From Verif Require Import Base.
From Verif Require Import Distance_Model Sort_Model Query_Proofs KBucket_Model KBucket_Spec KBucket_Proofs Gossip_Model Gossip_Spec.

Lemma enr_eqb_spec a b : enr_eqb a b = true <-> a = b.
Proof.
  unfold enr_eqb. rewrite !Bool.andb_true_iff, !N.eqb_eq, beqb_spec. destruct a, b. cbn. split; [intros [[-> ->] ->]; reflexivity|]. intros H. injection H as -> -> ->. auto.
Qed.
Lemma enr_eqb_refl a : enr_eqb a a = true. Proof. now apply enr_eqb_spec. Qed.
Definition mem_enr (e : enr) (l : list enr) : bool := existsb (enr_eqb e) l.
Lemma mem_enr_spec e l : mem_enr e l = true <-> In e l.
Proof.
  unfold mem_enr. rewrite existsb_exists. split; [intros (x & Hx & E); apply enr_eqb_spec in E; now subst|]. intros H. exists e. split; [exact H|apply enr_eqb_refl].
Qed.

(** ** Maps *)
Fixpoint get (e : enr) (m : list (enr * list N)) : list N :=
  match m with [] => [] | (e', l) :: r => if enr_eqb e e' then l else get e r end.
Definition sane (m : list (enr * list N)) : Prop := NoDup (map fst m) /\ Forall (fun p => snd p <> []) m.

Lemma extend_keys e ids m k : In k (map fst (extend e ids m)) <-> k = e \/ In k (map fst m).
Proof.
  induction m as [|[e' l] m IH]; cbn [extend map fst In]; [intuition|]. destruct (enr_eqb e e') eqn:E; cbn [map fst In].
  - apply enr_eqb_spec in E. subst. intuition.
  - rewrite IH. intuition.
Qed.
Lemma get_extend e e' ids m : get e (extend e' ids m) = get e m ++ if enr_eqb e e' then ids else [].
Proof.
  induction m as [|[k l] m IH]; cbn [extend get].
  - destruct (enr_eqb e e'); reflexivity.
  - destruct (enr_eqb e' k) eqn:E; cbn [get].
    + apply enr_eqb_spec in E. subst k. destruct (enr_eqb e e'); [reflexivity|now rewrite app_nil_r].
    + destruct (enr_eqb e k) eqn:E2; [|exact IH]. apply enr_eqb_spec in E2. subst k.
      destruct (enr_eqb e e') eqn:E3; [|now rewrite app_nil_r]. apply enr_eqb_spec in E3. subst. rewrite enr_eqb_refl in E. discriminate.
Qed.
Lemma sane_extend e ids m : ids <> [] -> sane m -> sane (extend e ids m).
Proof.
  intros Hi [H1 H2]. split.
  - revert H1. clear. induction m as [|[k l] m IH]; cbn [extend map fst]; intros H; [constructor; [intros []|constructor]|].
    inversion H as [|x y Hx Hy]; subst. destruct (enr_eqb e k) eqn:E; cbn [map fst]; [exact H|]. constructor; [|now apply IH].
    rewrite extend_keys. intros [->|X]; [rewrite enr_eqb_refl in E; discriminate|contradiction].
  - revert H2. clear -Hi. induction m as [|[k l] m IH]; cbn [extend]; intros H; [constructor; [exact Hi|constructor]|].
    inversion H; subst. destruct (enr_eqb e k); constructor; [|assumption|assumption|now apply IH]. cbn [snd] in *. destruct l; [contradiction|discriminate].
Qed.
Lemma sane_get m e l : sane m -> In (e, l) m -> get e m = l.
Proof.
  intros [H _]. induction m as [|[k r] m IH]; intros Hi; [destruct Hi|]. cbn [map fst] in H. inversion H as [|x y Hx Hy]; subst. cbn [get].
  destruct Hi as [E|Hi]; [injection E as -> ->; now rewrite enr_eqb_refl|]. destruct (enr_eqb e k) eqn:X; [|now apply IH].
  apply enr_eqb_spec in X. subst. destruct Hx. now apply (in_map fst) in Hi.
Qed.
Lemma sane_key m e : sane m -> In e (map fst m) <-> get e m <> [].
Proof.
  intros S. split.
  - intros H. apply in_map_iff in H. destruct H as ([k l] & <- & Hi). cbn. rewrite (sane_get m k l S Hi). destruct S as [_ S]. rewrite Forall_forall in S. exact (S _ Hi).
  - intros H. clear S. induction m as [|[k l] m IH]; [now destruct H|]. cbn [get map fst] in *. destruct (enr_eqb e k) eqn:E; [apply enr_eqb_spec in E; subst; now left|]. right. now apply IH.
Qed.

Lemma push_all id l m e : NoDup l -> sane m ->
  sane (fold_left (fun m e => extend e [id] m) l m) /\
  get e (fold_left (fun m e => extend e [id] m) l m) = get e m ++ if mem_enr e l then [id] else [].
Proof.
  intros N. revert m. induction N as [|a l Ha N IH]; intros m S; cbn [fold_left]; [split; [exact S|now rewrite app_nil_r]|].
  destruct (IH (extend a [id] m)) as [I1 I2]; [apply sane_extend; [discriminate|exact S]|]. split; [exact I1|]. rewrite I2, get_extend.
  cbn [mem_enr existsb]. fold (mem_enr e l). destruct (enr_eqb e a) eqn:E; [|now rewrite app_nil_r].
  apply enr_eqb_spec in E. subst. cbn [orb]. destruct (mem_enr a l) eqn:M; [apply mem_enr_spec in M; contradiction|now rewrite app_nil_r].
Qed.

Lemma merge_all l m e : Forall (fun p : enr * list N => snd p <> []) l -> sane m ->
  sane (fold_left (fun m p => extend (fst p) (snd p) m) l m) /\
  get e (fold_left (fun m p => extend (fst p) (snd p) m) l m) = get e m ++ flat_map (fun p => if enr_eqb e (fst p) then snd p else []) l.
Proof.
  intros F. revert m. induction F as [|[k v] l Hv F IH]; intros m S; cbn [fold_left flat_map fst snd]; [split; [exact S|now rewrite app_nil_r]|].
  destruct (IH (extend k v m)) as [I1 I2]; [now apply sane_extend|]. split; [exact I1|]. rewrite I2, get_extend, app_assoc. reflexivity.
Qed.
Lemma flat_map_sane m e : NoDup (map fst m) -> flat_map (fun p : enr * list N => if enr_eqb e (fst p) then snd p else []) m = get e m.
Proof.
  induction m as [|[k v] m IH]; intros N; [reflexivity|]. cbn [map fst] in N. inversion N as [|x y Hx Hy]; subst. cbn [flat_map get fst snd]. rewrite (IH Hy).
  destruct (enr_eqb e k) eqn:E; [|reflexivity]. apply enr_eqb_spec in E. subst. assert (X : get k m = []); [|now rewrite X, app_nil_r].
  clear -Hx. induction m as [|[a v] m IH]; [reflexivity|]. cbn [get]. destruct (enr_eqb k a) eqn:E; [apply enr_eqb_spec in E; subst; destruct Hx; now left|].
  apply IH. intros H. apply Hx. now right.
Qed.

(** ** Choosing peers for one piece of content *)
Lemma sample_in {A} k (l s : list A) x : sample_of k l s -> In x s -> In x l.
Proof. intros [_ [r P]] H. eapply Permutation_in; [exact P|]. apply in_app_iff. now left. Qed.
Lemma nodup_app_l {A} (l r : list A) : NoDup (l ++ r) -> NoDup l.
Proof. induction l as [|a l IH]; intros H; [constructor|]. cbn in H. inversion H; subst. constructor; [intros X; apply H2, in_app_iff; now left|now apply IH]. Qed.
Lemma sample_nodup {A} k (l s : list A) : sample_of k l s -> NoDup l -> NoDup s.
Proof. intros [_ [r P]] N. apply (nodup_app_l s r). eapply Permutation_NoDup; [apply Permutation_sym, P|exact N]. Qed.
Lemma sample_firstn {A} (l : list A) k s : sample_of k (skipn 4 l) s -> NoDup l -> NoDup (firstn 4 l ++ s).
Proof.
  intros [_ [r P]] N. apply (nodup_app_l _ r). rewrite <- app_assoc. eapply Permutation_NoDup; [|exact N]. rewrite <- (firstn_skipn 4 l) at 1.
  apply Permutation_app_head, Permutation_sym, P.
Qed.

Section Choice.
Variable farther : N -> nat -> list enr -> list enr.
Variable random : nat -> list slot -> list slot.
Hypothesis Farther : forall id k l, sample_of k l (farther id k l).
Hypothesis Random : forall k l, sample_of k l (random k l).
Variables (local : N) (t : table).
Hypothesis W : wf local t.

Definition fans (id : N) : list enr := map (fun s => n_enr (s_node s)) (interested id t).
Lemma connected_nodup : NoDup (map s_id (connected t)).
Proof. apply nodup_map_filter, W. Qed.
Lemma fans_nodup id : NoDup (map enr_id (fans id)).
Proof.
  unfold fans. rewrite map_map. change (fun x => enr_id (n_enr (s_node x))) with s_id. unfold interested. apply nodup_map_filter, connected_nodup.
Qed.
Lemma fans_in x e : i_by_radius x = true -> In e (fans (i_id x)) <-> wants t x e.
Proof.
  intros Hr. unfold fans, wants. rewrite in_map_iff. split.
  - intros (s & <- & Hs). unfold interested in Hs. apply filter_In in Hs. destruct Hs as [Hs Hd]. unfold connected in Hs. apply filter_In in Hs. destruct Hs as [Hs Hc].
    apply Bool.andb_true_iff in Hc. destruct Hc as [Hc Hp]. apply Bool.negb_true_iff in Hp. exists s. split; [exact Hs|]. split; [exact Hc|]. split; [exact Hp|]. split; [reflexivity|].
    intros _. now apply N.leb_le.
  - intros (s & Hs & Hc & Hp & <- & Hd). exists s. split; [reflexivity|]. unfold interested, connected. rewrite !filter_In, Hc, Hp. split; [now split|]. apply N.leb_le. now apply Hd.
Qed.
Definition chosen (id : N) : list enr := select_recipients farther id (fans id).

Lemma chosen_in id e : In e (chosen id) -> In e (fans id).
Proof.
  unfold chosen, select_recipients. destruct (_ <=? _)%nat; [auto|]. rewrite in_app_iff. set (s := sort_by _ _). intros [H|H].
  - apply firstn_incl in H. unfold s in H. now rewrite sort_by_In in H.
  - eapply sample_in in H; [|apply Farther]. assert (X : In e s) by (rewrite <- (firstn_skipn num_closest_peers s); apply in_app_iff; now right). unfold s in X. now rewrite sort_by_In in X.
Qed.
Lemma sorted_nodup id le : NoDup (sort_by le (fans id)).
Proof. eapply Permutation_NoDup; [apply sort_by_perm|]. eapply NoDup_map_inv, fans_nodup. Qed.
Lemma chosen_nodup id : NoDup (chosen id).
Proof.
  unfold chosen, select_recipients. destruct (_ <=? _)%nat; [eapply NoDup_map_inv, fans_nodup|].
  apply sample_firstn with (k := num_farther_peers); [apply Farther|apply sorted_nodup].
Qed.
Lemma chosen_length id : length (chosen id) = Nat.min 8 (length (fans id)).
Proof.
  clear W Random random local.
  unfold chosen, select_recipients. destruct (_ <=? _)%nat eqn:E.
  - apply Nat.leb_le in E. unfold num_closest_peers, num_farther_peers in E. lia.
  - apply Nat.leb_gt in E. unfold num_closest_peers, num_farther_peers in *. rewrite app_length, firstn_length. destruct (Farther id 4 (skipn 4 (sort_by (fun a b => N.lxor id (enr_id a) <=? N.lxor id (enr_id b)) (fans id)))) as [F _].
    rewrite F, skipn_length, sort_by_length. lia.
Qed.
Lemma chosen_near id e : In e (fans id) -> ~ In e (chosen id) ->
  exists near, NoDup near /\ length near = 4%nat /\ forall e', In e' near -> In e' (chosen id) /\ N.lxor id (enr_id e') < N.lxor id (enr_id e).
Proof.
  clear Random random.
  intros He Hn. unfold chosen, select_recipients in *. destruct (_ <=? _)%nat eqn:E; [contradiction|]. apply Nat.leb_gt in E. unfold num_closest_peers, num_farther_peers in *.
  set (le := fun a b => N.lxor id (enr_id a) <=? N.lxor id (enr_id b)) in *. set (s := sort_by le (fans id)) in *. exists (firstn 4 s).
  assert (N1 : NoDup s) by apply sorted_nodup.
  split; [rewrite <- (firstn_skipn 4 s) in N1; now apply nodup_app_l in N1|]. split; [rewrite firstn_length; unfold s; rewrite sort_by_length; lia|].
  intros e' He'. split; [apply in_app_iff; now left|].
  assert (Hs : In e s) by (unfold s; now rewrite sort_by_In). rewrite <- (firstn_skipn 4 s) in Hs. apply in_app_iff in Hs. destruct Hs as [Hs|Hs]; [destruct Hn; apply in_app_iff; now left|].
  assert (S : StronglySorted (le_rel le) s).
  { apply sort_by_sorted; unfold le; intros; rewrite ?N.leb_le in *; lia. }
  rewrite <- (firstn_skipn 4 s) in S. apply strongly_sorted_app in S. destruct S as (_ & _ & S). specialize (S e' e He' Hs). unfold le_rel, le in S. apply N.leb_le in S.
  destruct (N.eq_dec (N.lxor id (enr_id e')) (N.lxor id (enr_id e))) as [X|X]; [|lia]. exfalso. apply lxor_inj in X.
  assert (Ef : e' = e).
  { apply firstn_incl in He'. unfold s in He'. rewrite sort_by_In in He'. pose proof (fans_nodup id) as N2. revert He' He X N2. clear. generalize (fans id). induction l as [|a l IH]; [intros []|].
    cbn [map]. intros H1 H2 X N. inversion N as [|x y Hx Hy]; subst. destruct H1 as [->|H1], H2 as [->|H2]; [reflexivity| | |now apply IH].
    - destruct Hx. rewrite X. now apply in_map.
    - destruct Hx. rewrite <- X. now apply in_map. }
  subst e'. rewrite <- (firstn_skipn 4 s) in N1. revert He' Hs N1. generalize (firstn 4 s), (skipn 4 s). clear. intros l r H1 H2 N. induction l as [|a l IH]; [destruct H1|].
  cbn in N. inversion N; subst. destruct H1 as [->|H1]; [apply H3, in_app_iff; now right|now apply IH].
Qed.

(** ** Neighbourhood gossip *)
Lemma count_one id (ids : list N) : NoDup ids -> In id ids -> length (filter (N.eqb id) ids) = 1%nat.
Proof.
  intros Nd. induction Nd as [|a l Ha Nd IH]; intros H; [destruct H|]. cbn [filter]. destruct (id =? a) eqn:E.
  - apply N.eqb_eq in E. subst. cbn [length]. f_equal. replace (filter (N.eqb a) l) with (@nil N); [reflexivity|]. symmetry.
    clear -Ha. induction l as [|b l IH]; [reflexivity|]. cbn [filter]. destruct (a =? b) eqn:E; [apply N.eqb_eq in E; subst; destruct Ha; now left|]. apply IH. intros X. apply Ha. now right.
  - destruct H as [->|H]; [rewrite N.eqb_refl in E; discriminate|]. now apply IH.
Qed.
Lemma batch_one ids id : NoDup ids -> In id ids -> batch_interested ids id t = fans id.
Proof.
  intros N H. unfold batch_interested, fans. rewrite (count_one id ids N H). induction (interested id t) as [|s l IH]; [reflexivity|]. cbn. now f_equal.
Qed.

Lemma loop_get all : forall content seen m e, NoDup (map i_id all) -> (forall x, In x content -> In x all) ->
  NoDup (map i_id content) -> (forall x, In x content -> ~ In (i_id x) seen) -> sane m ->
  sane (neighborhood_loop farther t (map i_id all) seen content m) /\
  get e (neighborhood_loop farther t (map i_id all) seen content m) = get e m ++ map i_id (filter (fun x => mem_enr e (chosen (i_id x))) content).
Proof.
  induction content as [|x r IH]; intros seen m e Na Sub Nc Hs S; cbn [neighborhood_loop filter map]; [split; [exact S|now rewrite app_nil_r]|].
  cbn [map] in Nc. inversion Nc as [|a b Hx Hr]; subst.
  assert (X : existsb (N.eqb (i_id x)) seen = false).
  { destruct (existsb (N.eqb (i_id x)) seen) eqn:E; [|reflexivity]. apply existsb_exists in E. destruct E as (y & Hy & Ey). apply N.eqb_eq in Ey. subst. destruct (Hs x (or_introl eq_refl)). exact Hy. }
  rewrite X. rewrite batch_one by (try exact Na; apply in_map, Sub; now left).
  set (m' := match fans (i_id x) with [] => m | _ => fold_left (fun m e => extend e [i_id x] m) (select_recipients farther (i_id x) (fans (i_id x))) m end).
  assert (M : sane m' /\ get e m' = get e m ++ if mem_enr e (chosen (i_id x)) then [i_id x] else []).
  { unfold m'. fold (chosen (i_id x)). destruct (fans (i_id x)) eqn:F.
    - unfold chosen. rewrite F. cbn. split; [exact S|now rewrite app_nil_r].
    - apply push_all; [apply chosen_nodup|exact S]. }
  destruct M as [M1 M2]. destruct (IH (i_id x :: seen) m' e Na (fun y Hy => Sub y (or_intror Hy)) Hr) as [I1 I2]; [|exact M1|].
  - intros y Hy [E|H]; [apply Hx; rewrite E; now apply in_map|]. exact (Hs y (or_intror Hy) H).
  - split; [exact I1|]. rewrite I2, M2, <- app_assoc. f_equal. destruct (mem_enr e (chosen (i_id x))); reflexivity.
Qed.

(** ** The whole *)
Definition lucky : list enr := random_peers random num_peers t.
Lemma lucky_nodup : NoDup (map enr_id lucky).
Proof.
  unfold lucky, random_peers. rewrite map_map. change (fun x => enr_id (n_enr (s_node x))) with s_id.
  destruct (Random (N.to_nat num_peers) (connected t)) as [_ [r P]]. apply (nodup_app_l _ (map s_id r)). rewrite <- map_app. eapply Permutation_NoDup; [apply Permutation_map, Permutation_sym, P|apply connected_nodup].
Qed.
Lemma lucky_in e : In e lucky -> connected_peer t e.
Proof.
  unfold lucky, random_peers. rewrite in_map_iff. intros (s & <- & Hs). eapply sample_in in Hs; [|apply Random]. unfold connected in Hs. apply filter_In in Hs. destruct Hs as [Hs Hc].
  apply Bool.andb_true_iff in Hc. destruct Hc as [Hc Hp]. apply Bool.negb_true_iff in Hp. exists s. auto.
Qed.
Lemma lucky_length : length lucky = Nat.min 8 (length (connected t)).
Proof. clear W local Farther farther. unfold lucky, random_peers. rewrite map_length. apply (proj1 (Random (N.to_nat num_peers) (connected t))). Qed.

Definition near_part (content : list item) (e : enr) : list item := filter (fun x => mem_enr e (chosen (i_id x))) (filter i_by_radius content).
Definition far_part (content : list item) (e : enr) : list item := if mem_enr e lucky then filter (fun x => negb (i_by_radius x)) content else [].
Definition share (content : list item) (e : enr) : list item := near_part content e ++ far_part content e.
Definition grouped (content : list item) : list (enr * list N) :=
  fold_left (fun m p => extend (fst p) (snd p) m)
    (neighborhood farther t (filter i_by_radius content) ++ random_recipients random t (filter (fun x => negb (i_by_radius x)) content)) [].

Lemma nodup_filter_ids (p : item -> bool) content : NoDup (map i_id content) -> NoDup (map i_id (filter p content)).
Proof. apply nodup_map_filter. Qed.

Lemma grouped_spec content e : NoDup (map i_id content) -> sane (grouped content) /\ get e (grouped content) = map i_id (share content e).
Proof.
  intros Nd. unfold grouped. set (cn := filter i_by_radius content). set (cr := filter (fun x => negb (i_by_radius x)) content).
  assert (Nn : NoDup (map i_id cn)) by now apply nodup_filter_ids.
  destruct (loop_get cn cn [] [] e Nn (fun x H => H) Nn (fun x _ H => H)) as [L1 L2]; [split; constructor|]. cbn [get app] in L2. fold (neighborhood farther t cn) in L1, L2.
  assert (Rn : Forall (fun p : enr * list N => snd p <> []) (random_recipients random t cr)).
  { unfold random_recipients. destruct cr as [|c cr']; [constructor|]. apply Forall_forall. intros p Hp. apply in_map_iff in Hp. destruct Hp as (k & <- & _). discriminate. }
  destruct (merge_all (neighborhood farther t cn ++ random_recipients random t cr) [] e) as [M1 M2]; [apply Forall_app; split; [apply L1|exact Rn]|split; constructor|].
  split; [exact M1|]. rewrite M2. cbn [get app]. rewrite flat_map_app, (flat_map_sane _ e (proj1 L1)), L2. unfold share. rewrite map_app. f_equal.
  unfold far_part. fold cr. unfold random_recipients. destruct cr as [|c cr']; [destruct (mem_enr e lucky); reflexivity|]. fold lucky. set (ids := map i_id (c :: cr')).
  pose proof lucky_nodup as Nl. apply NoDup_map_inv in Nl. induction Nl as [|a l Ha Nl IH]; [reflexivity|]. cbn [map flat_map fst snd mem_enr existsb]. rewrite IH. fold (mem_enr e l).
  destruct (enr_eqb e a) eqn:E; [|reflexivity]. apply enr_eqb_spec in E. subst. cbn [orb]. destruct (mem_enr a l) eqn:Q; [apply mem_enr_spec in Q; contradiction|now rewrite app_nil_r].
Qed.

Lemma raw_content_of content x : NoDup (map i_id content) -> In x content -> raw_content content (i_id x) = raw x.
Proof.
  intros Nd H. unfold raw_content. assert (N' : NoDup (map i_id (rev content))) by (rewrite map_rev; now apply NoDup_rev). apply in_rev in H. revert N' H. generalize (rev content). clear.
  induction l as [|a l IH]; intros Nd H; [destruct H|]. cbn [find]. cbn [map] in Nd. inversion Nd as [|p q Hx Hy]; subst. destruct (i_id a =? i_id x) eqn:E.
  - destruct H as [->|H]; [reflexivity|]. apply N.eqb_eq in E. destruct Hx. rewrite E. now apply in_map.
  - destruct H as [->|H]; [rewrite N.eqb_refl in E; discriminate|now apply IH].
Qed.

Lemma share_in content e x : In x (share content e) <->
  In x content /\ ((i_by_radius x = true /\ In e (chosen (i_id x))) \/ (i_by_radius x = false /\ In e lucky)).
Proof.
  unfold share, near_part, far_part. rewrite in_app_iff, !filter_In, mem_enr_spec. destruct (mem_enr e lucky) eqn:M.
  - apply mem_enr_spec in M. rewrite filter_In, Bool.negb_true_iff. tauto.
  - assert (~ In e lucky) by (intros H; apply mem_enr_spec in H; congruence). cbn [In]. tauto.
Qed.
Lemma share_nodup content e : NoDup (map i_id content) -> NoDup (share content e).
Proof.
  intros Nd. assert (Nc : NoDup content) by now apply NoDup_map_inv in Nd. unfold share, near_part, far_part.
  assert (A : forall l r : list item, NoDup l -> NoDup r -> (forall x, In x l -> ~ In x r) -> NoDup (l ++ r)).
  { clear. induction l as [|a l IH]; intros r H1 H2 D; [exact H2|]. cbn. inversion H1; subst. constructor; [rewrite in_app_iff; intros [X|X]; [contradiction|apply (D a); [now left|exact X]]|].
    apply IH; [assumption|exact H2|]. intros x Hx. apply D. now right. }
  apply A; [now apply NoDup_filter, NoDup_filter|destruct (mem_enr e lucky); [now apply NoDup_filter|constructor]|].
  intros x H1 H2. rewrite !filter_In in H1. destruct (mem_enr e lucky); [|destruct H2]. rewrite filter_In, Bool.negb_true_iff in H2. destruct H1 as [[_ H1] _], H2 as [_ H2]. congruence.
Qed.
Lemma share_length content e : (length (share content e) <= length content)%nat.
Proof.
  clear W Random Farther local.
  unfold share, near_part, far_part. rewrite app_length. set (cn := filter i_by_radius content). set (cr := filter (fun x => negb (i_by_radius x)) content).
  assert (X : (length cn + length cr = length content)%nat).
  { unfold cn, cr. clear. induction content as [|a l IH]; [reflexivity|]. cbn [filter]. destruct (i_by_radius a); cbn [negb length]; lia. }
  assert (F : (length (filter (fun x => mem_enr e (chosen (i_id x))) cn) <= length cn)%nat).
  { generalize cn. intros l. induction l as [|a l IH]; [reflexivity|]. cbn [filter length]. destruct (mem_enr e (chosen (i_id a))); cbn [length]; lia. }
  destruct (mem_enr e lucky); cbn [length]; lia.
Qed.
End Choice.
