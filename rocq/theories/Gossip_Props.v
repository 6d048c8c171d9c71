(** Gossip recipients. *)
From Verif Require Import Base.
From Verif Require Import Distance_Model Sort_Model Query_Proofs KBucket_Model KBucket_Spec KBucket_Proofs KBucket_Props Gossip_Model Gossip_Spec Gossip_Proofs.

(** C41.  For content with different ids there is a plan that says which peer is offered which
    pieces of content, such that: no peer occurs twice; each is offered at least one and at
    most 64 pieces of the given content, no piece twice, and only what it would take; in
    the given order, unless content of both kinds is given.  If at most 64 pieces are given,
    then each is offered to exactly eight of the peers who would take it, or to all if they are fewer; those
    left out are farther away from it than at least four that are chosen. *)
Theorem C41_recipients : forall farther random local st h content,
  (forall id k l, sample_of k l (farther id k l)) -> (forall k l, sample_of k l (random k l)) ->
  reach local st h -> NoDup (map i_id content) ->
  exists plan : list (enr * list item),
    recipients farther random content (tbl st) = map (fun p => (fst p, map raw (snd p))) plan /\
    NoDup (map (fun p => enr_id (fst p)) plan) /\
    (forall e l, In (e, l) plan ->
       l <> [] /\ (length l <= 64)%nat /\ NoDup l /\ (forall x, In x l -> In x content /\ wants (tbl st) x e) /\
       (forall k, (forall x, In x content -> i_by_radius x = k) -> exists p, l = firstn 64 (filter p content))) /\
    ((length content <= 64)%nat -> forall x, In x content ->
       exists peers, NoDup peers /\ (forall e, In e peers <-> exists l, In (e, l) plan /\ In x l) /\
         (forall all, NoDup all -> (forall e, In e all <-> wants (tbl st) x e) -> length peers = Nat.min 8 (length all)) /\
         (i_by_radius x = true -> forall e, wants (tbl st) x e -> ~ In e peers ->
            exists near, NoDup near /\ length near = 4%nat /\ forall e', In e' near -> In e' peers /\ distance_to x e' < distance_to x e)).
Proof.
  intros farther random local st h content Hf Hr R Nd. pose proof (reach_wf local st h R) as W. set (t := tbl st) in *.
  pose proof (fun e => grouped_spec farther random Hf Hr local t W content e Nd) as G.
  set (g := grouped farther random t content) in *. set (sh := share farther random t content) in *.
  assert (Sg : sane g) by apply (G {| enr_id := 0; enr_seq := 0; enr_rest := [] |}).
  assert (Gg : forall e, get e g = map i_id (sh e)) by (intros e; apply G). clear G.
  exists (map (fun p => (fst p, firstn 64 (sh (fst p)))) g).
  assert (Key : forall e l, In (e, l) (map (fun p => (fst p, firstn 64 (sh (fst p)))) g) <-> sh e <> [] /\ l = firstn 64 (sh e)).
  { intros e l. rewrite in_map_iff. split.
    - intros ([k v] & E & Hi). cbn [fst] in E. injection E as -> <-. split; [|reflexivity]. intros X. pose proof (sane_get g e v Sg Hi) as Y. rewrite Gg, X in Y. cbn in Y. subst v.
      destruct Sg as [_ F]. rewrite Forall_forall in F. now apply (F _ Hi).
    - intros [Hn ->]. assert (X : In e (map fst g)). { apply (sane_key g e Sg). rewrite Gg. destruct (sh e); [contradiction|discriminate]. }
      apply in_map_iff in X. destruct X as ([k v] & <- & Hi). exists (k, v). split; [reflexivity|exact Hi]. }
  assert (Wants : forall e x, In x (sh e) -> In x content /\ wants t x e).
  { intros e x Hx. apply (share_in farther random t content e x) in Hx. destruct Hx as [Hx [[Hb He]|[Hb He]]]; (split; [exact Hx|]).
    - apply fans_in; [exact Hb|]. eapply chosen_in; [|exact He]. exact Hf.
    - apply lucky_in in He; [|exact Hr]. destruct He as (s & Hs & Hc & Hp & E). exists s. repeat (split; [assumption|]). intros X. congruence. }
  split; [|split; [|split]].
  - unfold recipients. fold (grouped farther random t content). fold g. rewrite map_map. apply map_ext_in. intros [e v] Hi. cbn [fst snd]. f_equal.
    rewrite <- (sane_get g e v Sg Hi), Gg, firstn_map, map_map. change max_keys_per_offer with 64%nat. apply map_ext_in. intros x Hx. apply firstn_incl in Hx. apply raw_content_of; [exact Nd|]. now apply (Wants e).
  - rewrite map_map. cbn [fst]. pose proof (proj1 Sg) as Nk.
    assert (C : forall e, In e (map fst g) -> connected_peer t e).
    { intros e He. apply (sane_key g e Sg) in He. rewrite Gg in He. destruct (sh e) as [|x l] eqn:E; [now destruct He|]. destruct (Wants e x) as [_ (s & Hs & Hc & Hp & Ee & _)]; [rewrite E; now left|]. exists s. auto. }
    rewrite <- (map_map fst enr_id). revert Nk C. generalize (map fst g). intros l Nl C. induction Nl as [|a l Ha Nl IH]; [constructor|]. cbn [map]. constructor; [|apply IH; intros e He; apply C; now right].
    intros X. apply in_map_iff in X. destruct X as (b & Eb & Hb). apply Ha. destruct (C a (or_introl eq_refl)) as (s1 & Hs1 & _ & _ & E1), (C b (or_intror Hb)) as (s2 & Hs2 & _ & _ & E2).
    assert (s2 = s1) by (apply (wf_same local t); [exact W|exact Hs2|exact Hs1|unfold s_id; congruence]). subst s2. congruence.
  - intros e l Hl. apply Key in Hl. destruct Hl as [Hn ->]. split; [destruct (sh e); [contradiction|discriminate]|]. split; [rewrite firstn_length; lia|].
    split; [|split].
    + pose proof (share_nodup farther random t content e Nd) as N2. fold sh in N2. rewrite <- (firstn_skipn 64 (sh e)) in N2. now apply nodup_app_l in N2.
    + intros x Hx. apply firstn_incl in Hx. now apply Wants.
    + intros k Hk. unfold sh, share, near_part, far_part. destruct k.
      * exists (fun x => mem_enr e (chosen farther t (i_id x))).
        assert (X : filter i_by_radius content = content). { clear -Hk. induction content as [|a c IH]; [reflexivity|]. cbn [filter]. rewrite (Hk a (or_introl eq_refl)). f_equal. apply IH. intros x Hx. apply Hk. now right. }
        assert (Y : filter (fun x => negb (i_by_radius x)) content = []). { clear -Hk. induction content as [|a c IH]; [reflexivity|]. cbn [filter]. rewrite (Hk a (or_introl eq_refl)). cbn [negb]. apply IH. intros x Hx. apply Hk. now right. }
        rewrite X, Y. f_equal. destruct (mem_enr e (lucky random t)); now rewrite app_nil_r.
      * exists (fun x => mem_enr e (lucky random t)).
        assert (X : filter i_by_radius content = []). { clear -Hk. induction content as [|a c IH]; [reflexivity|]. cbn [filter]. rewrite (Hk a (or_introl eq_refl)). apply IH. intros x Hx. apply Hk. now right. }
        assert (Y : filter (fun x => negb (i_by_radius x)) content = content). { clear -Hk. induction content as [|a c IH]; [reflexivity|]. cbn [filter]. rewrite (Hk a (or_introl eq_refl)). cbn [negb]. f_equal. apply IH. intros x Hx. apply Hk. now right. }
        rewrite X, Y. cbn [filter app]. f_equal. destruct (mem_enr e (lucky random t)) eqn:M; clear -M.
        { induction content as [|a c IH]; [reflexivity|]. cbn [filter]. now f_equal. }
        { induction content as [|a c IH]; [reflexivity|]. cbn [filter]. exact IH. }
  - intros Hlen x Hx. exists (if i_by_radius x then chosen farther t (i_id x) else lucky random t).
    assert (All : forall e, firstn 64 (sh e) = sh e). { intros e. apply firstn_all2. pose proof (share_length farther random t content e). unfold sh. lia. }
    assert (Ends : forall (l r : list enr), NoDup l -> NoDup r -> (forall e, In e l <-> In e r) -> length l = length r).
    { intros l r N1 N2 E. apply Nat.le_antisymm; apply NoDup_incl_length; [exact N1|intros e; apply E|exact N2|intros e; apply E]. }
    split; [destruct (i_by_radius x); [apply (chosen_nodup farther Hf local t W)|eapply NoDup_map_inv, (lucky_nodup random Hr local t W)]|]. split; [|split].
    + intros e. split.
      * intros He. exists (sh e). assert (Hs : In x (sh e)). { apply share_in. split; [exact Hx|]. destruct (i_by_radius x); auto. } split; [|exact Hs].
        apply Key. rewrite All. split; [|reflexivity]. intros E. rewrite E in Hs. destruct Hs.
      * intros (l & Hl & Hxl). apply Key in Hl. destruct Hl as [_ ->]. rewrite All in Hxl. apply share_in in Hxl. destruct Hxl as [_ [[-> He]|[-> He]]]; exact He.
    + intros all Na Ha. destruct (i_by_radius x) eqn:B.
      * rewrite (chosen_length farther Hf t). f_equal. apply Ends; [eapply NoDup_map_inv, (fans_nodup local t W)|exact Na|]. intros e. rewrite (fans_in t x e B). symmetry. apply Ha.
      * rewrite (lucky_length random Hr t). f_equal. rewrite <- (map_length (fun s => n_enr (s_node s))). apply Ends; [|exact Na|].
        { apply (NoDup_map_inv enr_id). rewrite map_map. apply (connected_nodup local t W). }
        { intros e. rewrite Ha, in_map_iff. unfold wants. split.
          - intros (s & <- & Hs). apply connected_in in Hs. exists s. repeat (split; [tauto|]). intros X. congruence.
          - intros (s & Hs & Hc & Hp & E & _). exists s. split; [exact E|]. apply connected_in. auto. }
    + intros B e He Hn. rewrite B in Hn |- *. apply (fans_in t x e B) in He. destruct (chosen_near farther Hf local t W (i_id x) e He Hn) as (near & N1 & N2 & N3). exists near. auto.
Qed.

(** Offers are sent to these peers only, to each at most once, and as many as there are free transfer
    slots; slots that are not used stay free. *)
Theorem C41_offers_sent : forall farther random content t permits out n left,
  propagate farther random content t permits = (out, n, left) ->
  n = blen (recipients farther random content t) /\
  (permits = None -> out = recipients farther random content t /\ left = None) /\
  (forall k, permits = Some k -> out = firstn (N.to_nat k) (recipients farther random content t) /\ left = Some (k - blen out)).
Proof.
  intros farther random content t permits out n left H. unfold propagate in H. destruct (send_offers (recipients farther random content t) permits) as [o p] eqn:E. injection H as <- <- <-.
  split; [reflexivity|]. revert permits o p E. generalize (recipients farther random content t). induction l as [|a l IH]; intros permits o p E.
  - cbn in E. injection E as <- <-. split; [intros ->; auto|]. intros k ->. rewrite firstn_nil. split; [reflexivity|]. f_equal. unfold blen. cbn [length]. lia.
  - cbn [send_offers] in E. split.
    + intros ->. destruct (send_offers l None) as [o' p'] eqn:E'. injection E as <- <-. destruct (IH _ _ _ E') as [I _]. destruct (I eq_refl) as [-> ->]. auto.
    + intros k ->. destruct (k =? 0) eqn:Z.
      * apply N.eqb_eq in Z. subst k. destruct (IH _ _ _ E) as [_ I]. destruct (I 0 eq_refl) as [-> ->]. auto.
      * apply N.eqb_neq in Z. destruct (send_offers l (Some (k - 1))) as [o' p'] eqn:E'. injection E as <- <-. destruct (IH _ _ _ E') as [_ I]. destruct (I _ eq_refl) as [-> ->].
        replace (N.to_nat k) with (S (N.to_nat (k - 1))) by lia. cbn [firstn]. split; [reflexivity|]. rewrite blen_cons. f_equal. lia.
Qed.

(** Content found by a lookup is offered to the given nodes in the table that would take it, in
    their order, as far as transfer slots are free. *)
Theorem C41_poke : forall local st h x nodes permits out left, reach local st h -> poke (tbl st) x nodes permits = (out, left) ->
  out = firstn (N.to_nat permits) (flat_map (fun id =>
    match find (fun s => s_id s =? id) (tbl st) with
    | Some s => if negb (i_by_radius x) || (N.lxor (i_id x) (s_id s) <=? n_radius (s_node s)) then [n_enr (s_node s)] else []
    | None => [] end) nodes) /\ left = permits - blen out.
Proof.
  intros local st h x nodes permits out left R. revert permits out left. induction nodes as [|id r IH]; intros permits out left H; cbn [poke flat_map] in *.
  - injection H as <- <-. rewrite firstn_nil. split; [reflexivity|]. unfold blen. cbn [length]. lia.
  - unfold present_or_pending, lookup in H. destruct (find (fun s => s_id s =? id) (tbl st)) as [s|] eqn:F; [|now apply IH].
    apply find_some in F. destruct F as [_ F]. apply N.eqb_eq in F. rewrite <- F in H. rewrite (N.lxor_comm (s_id s)) in H.
    replace (if i_by_radius x then N.lxor (i_id x) (s_id s) <=? n_radius (s_node s) else true) with (negb (i_by_radius x) || (N.lxor (i_id x) (s_id s) <=? n_radius (s_node s))) in H
      by (destruct (i_by_radius x); reflexivity).
    destruct (negb (i_by_radius x) || _); [|now apply IH]. cbn [app]. destruct (permits =? 0) eqn:Z.
    + apply N.eqb_eq in Z. subst. destruct (IH _ _ _ H) as [-> ->]. auto.
    + apply N.eqb_neq in Z. destruct (poke (tbl st) x r (permits - 1)) as [o p] eqn:E. injection H as <- <-. destruct (IH _ _ _ E) as [-> ->].
      replace (N.to_nat permits) with (S (N.to_nat (permits - 1))) by lia. cbn [firstn]. split; [reflexivity|]. rewrite blen_cons. lia.
Qed.

(** ** Examples and counterexamples *)
Definition first_n {A} (k : nat) (l : list A) : list A := firstn k l.
Lemma first_n_sample {A} k (l : list A) : sample_of k l (first_n k l).
Proof. split; [apply firstn_length|]. exists (skipn k l). unfold first_n. now rewrite firstn_skipn. Qed.
Definition mk_enr (id : N) : enr := {| enr_id := id; enr_seq := 1; enr_rest := [] |}.
Definition crowd : list op := map (fun id => Response (mk_enr id) Accepted) [1; 2; 3; 4; 5; 6; 7; 8; 16; 17; 18].
Definition crowd_st : service := run_ops 100 crowd.
Lemma crowd_reach : reach 100 crowd_st crowd.
Proof. apply run_reach. intros o t' H. unfold crowd in H. apply in_map_iff in H. destruct H as (id & <- & _). discriminate. Qed.
Definition piece (id : N) (k : bool) : item := {| i_id := id; i_key := [id]; i_value := [id; id]; i_by_radius := k |}.
Example crowd_recipients :
  map (fun p => (enr_id (fst p), snd p)) (recipients (fun _ => first_n) first_n [piece 20 true; piece 1 true] (tbl crowd_st)) =
  [(16, [([20], [20; 20])]); (17, [([20], [20; 20])]); (18, [([20], [20; 20])]); (4, [([20], [20; 20]); ([1], [1; 1])]);
   (5, [([20], [20; 20]); ([1], [1; 1])]); (6, [([20], [20; 20]); ([1], [1; 1])]); (7, [([20], [20; 20]); ([1], [1; 1])]); (1, [([20], [20; 20]); ([1], [1; 1])]);
   (3, [([1], [1; 1])]); (2, [([1], [1; 1])]); (8, [([1], [1; 1])])].
Proof. vm_compute. reflexivity. Qed.
Example crowd_meets : exists plan : list (enr * list item), plan <> [] /\ recipients (fun _ => first_n) first_n [piece 20 true; piece 1 true] (tbl crowd_st) = map (fun p => (fst p, map raw (snd p))) plan.
Proof.
  destruct (C41_recipients (fun _ => first_n) first_n 100 crowd_st crowd [piece 20 true; piece 1 true] (fun _ => first_n_sample) first_n_sample crowd_reach) as (plan & E & _).
  - repeat constructor; cbn; intuition discriminate.
  - exists plan. split; [|exact E]. intros ->. vm_compute in E. discriminate.
Qed.

(** The same content given twice is offered twice to the same peer. *)
Theorem C41_repeated_refuted : exists farther random local st h content e l x,
  (forall id k l, sample_of k l (farther id k l)) /\ (forall k l, sample_of k l (random k l)) /\ reach local st h /\
  In (e, l) (recipients farther random content (tbl st)) /\ l = [raw x; raw x].
Proof.
  set (h := [Response (mk_enr 1) Accepted]). exists (fun _ => first_n), first_n, 100, (run_ops 100 h), h, [piece 7 true; piece 7 true], (mk_enr 1). eexists. exists (piece 7 true).
  split; [intros; apply first_n_sample|]. split; [intros; apply first_n_sample|]. split; [apply run_reach; intros o t' [<-|[]]; discriminate|]. split; [vm_compute; left; reflexivity|reflexivity].
Qed.
(** Content of both kinds does not keep its order. *)
Theorem C41_mixed_order_refuted : exists farther random local st h content e l p q,
  (forall id k l, sample_of k l (farther id k l)) /\ (forall k l, sample_of k l (random k l)) /\ reach local st h /\
  content = [p; q] /\ NoDup (map i_id content) /\ In (e, l) (recipients farther random content (tbl st)) /\ l = [raw q; raw p].
Proof.
  set (h := [Response (mk_enr 1) Accepted]). exists (fun _ => first_n), first_n, 100, (run_ops 100 h), h, [piece 7 false; piece 8 true], (mk_enr 1). eexists. exists (piece 7 false), (piece 8 true).
  split; [intros; apply first_n_sample|]. split; [intros; apply first_n_sample|]. split; [apply run_reach; intros o t' [<-|[]]; discriminate|]. split; [reflexivity|].
  split; [repeat constructor; cbn; intuition discriminate|]. split; [vm_compute; left; reflexivity|reflexivity].
Qed.
(** The number of peers that is reported can exceed the number of peers that are offered anything. *)
Theorem C41_peer_count_refuted : exists farther random local st h content out n left,
  (forall id k l, sample_of k l (farther id k l)) /\ (forall k l, sample_of k l (random k l)) /\ reach local st h /\
  propagate farther random content (tbl st) (Some 0) = (out, n, left) /\ out = [] /\ n = 8.
Proof.
  exists (fun _ => first_n), first_n, 100, crowd_st, crowd, [piece 7 true]. eexists. eexists. eexists. split; [intros; apply first_n_sample|]. split; [intros; apply first_n_sample|]. split; [apply crowd_reach|].
  split; [vm_compute; reflexivity|]. split; reflexivity.
Qed.
Example crowd_poke : poke (tbl crowd_st) (piece 20 true) [2; 99; 17; 8] 2 = ([mk_enr 2; mk_enr 17], 0).
Proof. vm_compute. reflexivity. Qed.

Print Assumptions C41_recipients.
Print Assumptions C41_offers_sent.
Print Assumptions C41_poke.
Print Assumptions C41_repeated_refuted.
Print Assumptions C41_mixed_order_refuted.
Print Assumptions C41_peer_count_refuted.
