From Verif Require Import Base.
From Verif Require Import Distance_Model Sort_Model Query_Proofs KBucket_Model KBucket_Spec.

Definition wf (local : N) (t : table) : Prop := NoDup (map s_id t) /\ ~ In local (map s_id t).

Lemma lookup_some id t s : lookup id t = Some s -> In s t /\ s_id s = id.
Proof. intros H. apply find_some in H. destruct H as [H1 H2]. split; [exact H1|now apply N.eqb_eq]. Qed.
Lemma lookup_none id t : lookup id t = None <-> ~ In id (map s_id t).
Proof.
  unfold lookup. split.
  - intros H Hi. apply in_map_iff in Hi. destruct Hi as (s & E & Hs).
    pose proof (List.find_none _ _ H s Hs) as F. cbn in F. rewrite E, N.eqb_refl in F. discriminate.
  - intros H. destruct (find _ t) eqn:E; [|reflexivity]. apply find_some in E. destruct E as [E1 E2].
    exfalso. apply H. apply in_map_iff. exists s. split; [now apply N.eqb_eq|exact E1].
Qed.
Lemma lookup_in t s : NoDup (map s_id t) -> In s t -> lookup (s_id s) t = Some s.
Proof.
  induction t as [|a t IH]; intros N Hs; [destruct Hs|]. cbn [map] in N. inversion N as [|x l Hx Hl]; subst.
  unfold lookup. cbn [find]. destruct Hs as [->|Hs]; [now rewrite N.eqb_refl|].
  destruct (s_id a =? s_id s) eqn:E; [|now apply IH]. apply N.eqb_eq in E. exfalso. apply Hx. rewrite E. now apply in_map.
Qed.

Lemma remove_in id t s : In s (remove id t) <-> In s t /\ s_id s <> id.
Proof. unfold remove. rewrite filter_In, Bool.negb_true_iff, N.eqb_neq. reflexivity. Qed.
Lemma nodup_map_filter {A B} (g : A -> B) f (l : list A) : NoDup (map g l) -> NoDup (map g (filter f l)).
Proof.
  induction l as [|a l IH]; intros N; cbn; [constructor|]. cbn in N. inversion N as [|x y Hx Hy]; subst.
  destruct (f a); cbn; [|now apply IH]. constructor; [|now apply IH].
  intros Hi. apply Hx. apply in_map_iff in Hi. destruct Hi as (b & E & Hb). apply filter_In in Hb. rewrite <- E. apply in_map, Hb.
Qed.
Lemma remove_ids id t x : In x (map s_id (remove id t)) <-> In x (map s_id t) /\ x <> id.
Proof.
  rewrite !in_map_iff. split.
  - intros (s & E & Hs). apply remove_in in Hs. destruct Hs as [H1 H2]. split; [now exists s|congruence].
  - intros [(s & E & Hs) Hn]. exists s. split; [exact E|]. apply remove_in. split; [exact Hs|congruence].
Qed.
Lemma remove_wf local id t : wf local t -> wf local (remove id t).
Proof.
  intros [H1 H2]. split; [now apply nodup_map_filter|]. intros Hi. apply remove_ids in Hi. tauto.
Qed.
Lemma replace_ids id s' t : s_id s' = id -> map s_id (replace id s' t) = map s_id t.
Proof.
  intros E. unfold replace. rewrite map_map. apply map_ext. intros s. destruct (s_id s =? id) eqn:X; [|reflexivity].
  apply N.eqb_eq in X. congruence.
Qed.
Lemma replace_wf local id s' t : s_id s' = id -> wf local t -> wf local (replace id s' t).
Proof. intros E [H1 H2]. unfold wf. rewrite (replace_ids _ _ _ E). now split. Qed.
(** The entries after replacing. *)
Lemma replace_in id s' t s : In id (map s_id t) -> In s (replace id s' t) <-> s = s' \/ (In s t /\ s_id s <> id).
Proof.
  intros Hid. unfold replace. rewrite in_map_iff. split.
  - intros (a & E & Ha). destruct (s_id a =? id) eqn:X; [left; congruence|]. apply N.eqb_neq in X. right. subst. now split.
  - intros [->|[H1 H2]].
    + apply in_map_iff in Hid. destruct Hid as (a & E & Ha). exists a. split; [|exact Ha]. apply N.eqb_eq in E. now rewrite E.
    + exists s. split; [|exact H1]. apply N.eqb_neq in H2. now rewrite H2.
Qed.
Lemma snoc_wf local t s : wf local t -> ~ In (s_id s) (map s_id t) -> s_id s <> local -> wf local (t ++ [s]).
Proof.
  intros [H1 H2] Hn Hl. unfold wf. rewrite map_app. cbn [map]. split; [now apply nodup_app_end|].
  rewrite in_app_iff. intros [Hi|[Hi|[]]]; [now apply H2|congruence].
Qed.

Section P.
Variable local : N.

(** What a call may do to an entry that was there before. *)
Lemma insert_or_update_wf t n c i f : wf local t -> wf local (fst (insert_or_update local t n c i f)).
Proof.
  intros W. unfold insert_or_update. destruct (enr_id (n_enr n) =? local) eqn:L; [exact W|]. apply N.eqb_neq in L.
  destruct (lookup _ t) as [s|] eqn:E.
  - destruct f; cbn [fst]; [apply replace_wf; [reflexivity|exact W]|apply replace_wf; [reflexivity|exact W]|now apply remove_wf].
  - apply lookup_none in E. destruct f; cbn [fst]; [| |exact W]; (apply snoc_wf; [exact W|exact E|exact L]).
Qed.
Lemma update_node_wf t n f : wf local t -> wf local (fst (update_node local t n f)).
Proof.
  intros W. unfold update_node. destruct (_ =? local); [exact W|]. destruct (lookup _ t) as [s|]; [|exact W].
  destruct f; cbn [fst]; [apply replace_wf; [reflexivity|exact W]|apply replace_wf; [reflexivity|exact W]|now apply remove_wf].
Qed.
Lemma update_status_wf t id c f : wf local t -> wf local (fst (update_status local t id c f)).
Proof.
  intros W. unfold update_status. destruct (_ =? local); [exact W|]. destruct (lookup _ t) as [s|] eqn:E; [|exact W].
  apply lookup_some in E. destruct E as [_ E].
  destruct f; cbn [fst]; [apply replace_wf; [exact E|exact W]|apply replace_wf; [exact E|exact W]|now apply remove_wf].
Qed.
Lemma discovered_wf : forall l t, wf local t -> wf local (fst (fst (discovered local t l))).
Proof.
  induction l as [|[e f] l IH]; intros t W; cbn [discovered]; [exact W|].
  destruct (present_or_pending (enr_id e) t) as [n|].
  - destruct (_ <? _); [|now apply IH]. pose proof (update_node_wf t (set_enr n e) f W) as W'.
    destruct (update_node local t (set_enr n e) f) as [t' ok]. specialize (IH t' W'). destruct (discovered local t' l) as [[t2 a] b]. exact IH.
  - pose proof (insert_or_update_wf t (new_node e) false false f W) as W'.
    destruct (insert_or_update local t (new_node e) false false f) as [t' r]. specialize (IH t' W').
    destruct (discovered local t' l) as [[t2 a] b]. exact IH.
Qed.
Lemma drift_wf t t' : wf local t -> drift t t' -> wf local t'.
Proof.
  intros [H1 H2] [D1 D2]. split; [exact D1|]. intros Hi. apply H2. apply in_map_iff in Hi. destruct Hi as (s' & E & Hs).
  apply in_map_iff. destruct (D2 s' Hs) as [H|(s & Hs' & _ & ->)]; [now exists s'|]. exists s. split; [exact E|exact Hs'].
Qed.
Lemma connect_tbl st n i f : tbl (fst (connect_node local st n i f)) = fst (insert_or_update local (tbl st) n true i f).
Proof. unfold connect_node. destruct (insert_or_update _ _ _ _ _ _) as [t [| | | |]]; reflexivity. Qed.
Lemma ping_due_tbl st id : tbl (fst (ping_due st id)) = tbl st.
Proof. unfold ping_due. destruct (existsb _ _); [|reflexivity]. now destruct (present id (tbl st)). Qed.

Lemma step_wf st o : wf local (tbl st) -> (forall t', o = Bucket t' -> drift (tbl st) t') -> wf local (tbl (fst (step local st o))).
Proof.
  intros W D. destruct o as [l|source seq x f|source cached f|source f|id f|e c f|id|e f|id|t]; cbn [step fst].
  - unfold process_discovered. pose proof (discovered_wf (filter (fun x => negb (enr_id (fst x) =? local)) l) (tbl st) W) as W'.
    destruct (discovered _ _ _) as [[t a] b]. exact W'.
  - unfold process_ping. destruct (present_or_pending _ _); [|exact W]. destruct x as [x|]; [|exact W].
    destruct (handle_extension x n); [|exact W]. apply update_node_wf, W.
  - unfold register_activity. destruct (present_or_pending _ _).
    + pose proof (update_status_wf (tbl st) source true f W) as W'. destruct (update_status _ _ _ _ _) as [t ok]. exact W'.
    + destruct cached as [e|]; [|exact W]. destruct (_ =? _); [|exact W]. rewrite connect_tbl. apply insert_or_update_wf, W.
  - unfold process_response. destruct (lookup (enr_id source) (tbl st)) as [s|] eqn:E.
    + destruct (s_connected s).
      * pose proof (update_status_wf (tbl st) (enr_id source) true f W) as W'. destruct (update_status _ _ _ _ _) as [t ok]. exact W'.
      * rewrite connect_tbl. apply insert_or_update_wf, W.
    + rewrite connect_tbl. apply insert_or_update_wf, W.
  - unfold request_failure. cbn [tbl]. apply update_status_wf, W.
  - unfold add_bootnode. pose proof (insert_or_update_wf (tbl st) (new_node e) c false f W) as W'. destruct (insert_or_update _ _ _ _ _ _) as [t r]. exact W'.
  - now rewrite ping_due_tbl.
  - unfold add_enr. cbn [tbl]. apply insert_or_update_wf, W.
  - unfold delete_enr. cbn [tbl]. apply remove_wf, W.
  - cbn [tbl]. exact (drift_wf _ _ W (D t eq_refl)).
Qed.
Lemma reach_wf st t : reach local st t -> wf local (tbl st).
Proof.
  induction 1 as [|st t o H IH D]; [split; [constructor|intros []]|]. now apply step_wf.
Qed.

(** ** Entries before and after a call *)
Lemma wf_same t s s' : wf local t -> In s t -> In s' t -> s_id s = s_id s' -> s = s'.
Proof.
  intros [N _] H1 H2 E. pose proof (lookup_in t s N H1) as L1. pose proof (lookup_in t s' N H2) as L2. congruence.
Qed.
Lemma insert_or_update_after t n c i f s' : In s' (fst (insert_or_update local t n c i f)) ->
  (In s' t /\ (s_id s' <> enr_id (n_enr n) \/ lookup (enr_id (n_enr n)) t = None)) \/
  (s_node s' = n /\ s_connected s' = c /\ enr_id (n_enr n) <> local /\ f <> Refused) \/ (In s' t /\ enr_id (n_enr n) = local).
Proof.
  unfold insert_or_update. destruct (enr_id (n_enr n) =? local) eqn:L; cbn [fst].
  { intros H. right. right. split; [exact H|now apply N.eqb_eq]. }
  apply N.eqb_neq in L. destruct (lookup (enr_id (n_enr n)) t) as [s|] eqn:E.
  - assert (Hid : In (enr_id (n_enr n)) (map s_id t)).
    { apply lookup_some in E. destruct E as [E1 E2]. rewrite <- E2. now apply in_map. }
    destruct f; cbn [fst]; intros H.
    + apply replace_in in H; [|exact Hid]. destruct H as [->|[H1 H2]]; [right; left; cbn; repeat split; try assumption; discriminate|left; auto].
    + apply replace_in in H; [|exact Hid]. destruct H as [->|[H1 H2]]; [right; left; cbn; repeat split; try assumption; discriminate|left; auto].
    + apply remove_in in H. left. tauto.
  - destruct f; cbn [fst]; intros H.
    + apply in_app_iff in H. destruct H as [H|[<-|[]]]; [left; auto|right; left; cbn; repeat split; try assumption; discriminate].
    + apply in_app_iff in H. destruct H as [H|[<-|[]]]; [left; auto|right; left; cbn; repeat split; try assumption; discriminate].
    + left. auto.
Qed.

Definition same_slot_data (s s' : slot) : Prop := s_node s' = s_node s.
Lemma insert_or_update_pair t n c i f s s' : wf local t -> In s t -> In s' (fst (insert_or_update local t n c i f)) -> s_id s = s_id s' ->
  s' = s \/ (s_node s' = n /\ enr_id (n_enr n) = s_id s).
Proof.
  intros W Hs Hs' E. apply insert_or_update_after in Hs'. destruct Hs' as [[H _]|[(H & _)|[H _]]].
  - left. symmetry. now apply (wf_same t).
  - right. split; [exact H|]. rewrite E. unfold s_id. now rewrite H.
  - left. symmetry. now apply (wf_same t).
Qed.
Lemma update_node_pair t n f s s' : wf local t -> In s t -> In s' (fst (update_node local t n f)) -> s_id s = s_id s' ->
  s' = s \/ (s_node s' = n /\ enr_id (n_enr n) = s_id s).
Proof.
  intros W Hs Hs' E. unfold update_node in Hs'. destruct (_ =? local); [left; symmetry; now apply (wf_same t)|].
  destruct (lookup _ t) as [a|] eqn:L; [|left; symmetry; now apply (wf_same t)]. apply lookup_some in L. destruct L as [L1 L2].
  assert (Hid : In (enr_id (n_enr n)) (map s_id t)) by (rewrite <- L2; now apply in_map).
  assert (X : forall b, s_node b = n -> In s' (replace (enr_id (n_enr n)) b t) -> s' = s \/ s_node s' = n /\ enr_id (n_enr n) = s_id s).
  { intros b Hb H. apply replace_in in H; [|exact Hid]. destruct H as [->|[H1 H2]]; [|left; symmetry; now apply (wf_same t)].
    right. split; [exact Hb|]. rewrite E. unfold s_id. now rewrite Hb. }
  destruct f; cbn [fst] in Hs'; [eapply X; [|exact Hs']; reflexivity|eapply X; [|exact Hs']; reflexivity|].
  apply remove_in in Hs'. left. symmetry. now apply (wf_same t).
Qed.
Lemma update_status_pair t id c f s s' : wf local t -> In s t -> In s' (fst (update_status local t id c f)) -> s_id s = s_id s' ->
  s' = s \/ s_node s' = s_node s.
Proof.
  intros W Hs Hs' E. unfold update_status in Hs'. destruct (_ =? local); [left; symmetry; now apply (wf_same t)|].
  destruct (lookup _ t) as [a|] eqn:L; [|left; symmetry; now apply (wf_same t)]. apply lookup_some in L. destruct L as [L1 L2].
  assert (Hid : In id (map s_id t)) by (rewrite <- L2; now apply in_map).
  assert (X : forall b, s_node b = s_node a -> In s' (replace id b t) -> s' = s \/ s_node s' = s_node s).
  { intros b Hb H. apply replace_in in H; [|exact Hid]. destruct H as [->|[H1 H2]]; [|left; symmetry; now apply (wf_same t)].
    right. rewrite Hb. f_equal. apply (wf_same t); [exact W|exact L1|exact Hs|]. rewrite E. unfold s_id. now rewrite Hb. }
  destruct f; cbn [fst] in Hs'; [eapply X; [|exact Hs']; reflexivity|eapply X; [|exact Hs']; reflexivity|].
  apply remove_in in Hs'. left. symmetry. now apply (wf_same t).
Qed.
(** Other ids are left alone. *)
Lemma lookup_node t id s : wf local t -> In s t -> s_id s = id -> present_or_pending id t = Some (s_node s).
Proof. intros [N _] Hs <-. unfold present_or_pending. now rewrite (lookup_in t s N Hs). Qed.
Lemma handle_enr x n n' : handle_extension x n = Some n' -> n_enr n' = n_enr n /\ n_radius n' = radius_in x.
Proof.
  unfold handle_extension. destruct x; (match goal with |- context [if ?b then _ else _] => destruct b end); intros [= <-]; split; reflexivity.
Qed.
Lemma handle_none x n : handle_extension x n = None -> n_radius n = radius_in x.
Proof.
  unfold handle_extension. destruct x as [r c|r|r c]; cbn [radius_in].
  - destruct (n_radius n =? r) eqn:E; [intros _; now apply N.eqb_eq|discriminate].
  - destruct (n_radius n =? r) eqn:E; [intros _; now apply N.eqb_eq|discriminate].
  - destruct (n_radius n =? r) eqn:E; [intros _; now apply N.eqb_eq|discriminate].
Qed.
End P.
