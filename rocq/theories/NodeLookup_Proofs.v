(** Lookups of nodes: the service drives the search of Query_Model, and keeps the first record of each node. *)
From Verif Require Import Base.
From Verif Require Import Query_Model Query_Spec Query_Proofs QueryPool_Model QueryPool_Props KBucket_Model NodeLookup_Model NodeLookup_Spec.

(** ** What a poll does *)
Lemma poll_cases k w lk now lk' x : poll_lookup k w lk now = Ok (lk', x) ->
  exists q s, poll (lk_query lk) now = Ok (q, s) /\ lk_untrusted lk' = lk_untrusted lk /\
  match x with
  | Ask e ds => lk_query lk' = q /\ exists n, s = QWaiting (Some n) /\ findnode_log2distance (q_target q) n k = Ok (Some ds) /\ find_enr w lk' n = Some e
  | Skip n => s = QWaiting (Some n) /\ on_failure q n = Ok (lk_query lk') /\
              (findnode_log2distance (q_target q) n k = Ok None \/ find_enr w lk n = None)
  | Nothing s' => lk_query lk' = q /\ s' = s /\ timed_out w = false /\ s <> QFinished /\ forall n, s <> QWaiting (Some n)
  | Reply l => lk_query lk' = q /\ l = found w lk' /\ (s = QFinished \/ timed_out w = true) /\ forall n, s <> QWaiting (Some n)
  end.
Proof.
  unfold poll_lookup. destruct (poll (lk_query lk) now) as [[q s]| |]; try discriminate. cbn [obind].
  assert (F : forall n u, failing q n u = Ok (lk', x) -> x = Skip n /\ on_failure q n = Ok (lk_query lk') /\ lk_untrusted lk' = u).
  { intros n u. unfold failing. destruct (on_failure q n) as [q'| |]; try discriminate. cbn. intros [= <- <-]. auto. }
  destruct s as [[n|]| |m|].
  - destruct (findnode_log2distance (q_target q) n k) as [[ds|]| |] eqn:D; try discriminate; cbn [obind].
    + destruct (find_enr w _ n) as [e|] eqn:Fe.
      * intros [= <- <-]. exists q, (QWaiting (Some n)). split; [reflexivity|]. split; [reflexivity|]. split; [reflexivity|]. exists n. auto.
      * intros H. apply F in H. destruct H as (-> & H & U). exists q, (QWaiting (Some n)). split; [reflexivity|]. split; [exact U|].
        split; [reflexivity|]. split; [exact H|]. right. exact Fe.
    + intros H. apply F in H. destruct H as (-> & H & U). exists q, (QWaiting (Some n)). split; [reflexivity|]. split; [exact U|].
      split; [reflexivity|]. split; [exact H|]. now left.
  - destruct (timed_out w) eqn:T; intros [= <- <-]; exists q, (QWaiting None); (split; [reflexivity|]); (split; [reflexivity|]);
      (split; [reflexivity|]); repeat split; auto; discriminate.
  - destruct (timed_out w) eqn:T; intros [= <- <-]; exists q, QAtCapacity; (split; [reflexivity|]); (split; [reflexivity|]);
      (split; [reflexivity|]); repeat split; auto; discriminate.
  - destruct (timed_out w) eqn:T; intros [= <- <-]; exists q, (QValidating m); (split; [reflexivity|]); (split; [reflexivity|]);
      (split; [reflexivity|]); repeat split; auto; discriminate.
  - intros [= <- <-]. exists q, QFinished. split; [reflexivity|]. split; [reflexivity|]. repeat split; auto; discriminate.
Qed.
Lemma find_enr_id w lk n e : honest w -> find_enr w lk n = Some e -> enr_id e = n.
Proof.
  intros [H1 H2]. unfold find_enr. destruct (discovery w n) as [x|] eqn:D; [intros [= <-]; exact (H1 n x D)|].
  destruct (table_record w n) as [x|] eqn:T; [intros [= <-]; exact (H2 n x T)|].
  intros F. apply find_some in F. now apply N.eqb_eq.
Qed.
Lemma transcript_snoc t l : transcript (t ++ [l]) = transcript t ++ events l.
Proof. unfold transcript. rewrite flat_map_app. cbn. now rewrite app_nil_r. Qed.
Lemma poll_step c target ids q t now q' s : history c target ids q t -> poll q now = Ok (q', s) -> history c target ids q' (t ++ [EPoll now s]).
Proof. intros H P. apply (H_step _ _ _ q t (CPoll now) q' (Some s)); [exact H| |reflexivity]. cbn. now rewrite P. Qed.
Section Lookup.
Context (local : N) (c : config) (k target : N) (closest : list enr).
Notation ran := (ran local c k target closest).
Notation history := (history c target (map enr_id closest)).
Lemma ran_history lk t : ran lk t -> history (lk_query lk) (transcript t).
Proof.
  induction 1 as [lk I|lk t w now lk' e ds R IH W P|lk t w now lk' n R IH W P|lk t w now lk' s R IH W P|lk t src enrs lk' R IH P].
  - unfold init_find_nodes_query in I. destruct closest; [discriminate|]. injection I as <-. apply H_start.
  - apply poll_cases in P. destruct P as (q & s & P & U & Q & n & -> & D & F). rewrite transcript_snoc, Q. cbn [events].
    rewrite (find_enr_id _ _ _ _ W F). exact (poll_step _ _ _ _ _ _ _ _ IH P).
  - apply poll_cases in P. destruct P as (q & s & P & U & -> & F & D). rewrite transcript_snoc. cbn [events].
    change [EPoll now (QWaiting (Some n)); EFailure n] with ([EPoll now (QWaiting (Some n))] ++ [EFailure n]). rewrite app_assoc.
    apply (H_step _ _ _ q _ (CFailure n) _ None); [exact (poll_step _ _ _ _ _ _ _ _ IH P)| |reflexivity]. cbn. now rewrite F.
  - apply poll_cases in P. destruct P as (q & s' & P & U & Q & -> & _). rewrite transcript_snoc, Q. exact (poll_step _ _ _ _ _ _ _ _ IH P).
  - unfold advance_lookup in P. destruct (on_success (lk_query lk) src (map enr_id enrs)) as [q| |] eqn:S; try discriminate. injection P as <-.
    rewrite transcript_snoc. cbn [events lk_query]. apply (H_step _ _ _ (lk_query lk) _ (CSuccess src (map enr_id enrs)) q None); [exact IH| |reflexivity].
    cbn. now rewrite S.
Qed.
Lemma ran_inv lk t : ran lk t -> node_inv c target (lk_query lk) (observe_all c target (map enr_id closest) (transcript t)).
Proof. intros R. apply history_inv, ran_history, R. Qed.

(** ** The records *)
Definition single (l : list enr) : Prop := forall e e', In e l -> In e' l -> enr_id e = enr_id e' -> enr_id e <> local -> e = e'.
Record kept (all u : list enr) : Prop := {
  k_incl : incl u all; k_ids : forall n, In n (map enr_id all) -> In n (map enr_id u); k_single : single u;
  k_first : forall e, In e u -> enr_id e <> local -> first_record (enr_id e) all e }.
Lemma first_more n l m e : first_record n l e -> first_record n (l ++ m) e.
Proof. intros (a & b & -> & I & F). exists a, (b ++ m). rewrite <- app_assoc. auto. Qed.
Lemma first_exists n l : In n (map enr_id l) -> exists e, first_record n l e.
Proof.
  induction l as [|x l IH]; [intros []|]. cbn. destruct (N.eq_dec (enr_id x) n) as [E|D]; [exists x, [], l; auto|].
  intros [E|I]; [contradiction|]. destruct (IH I) as (e & a & b & -> & E & F). exists e, (x :: a), b. split; [reflexivity|]. split; [exact E|].
  cbn. intros [Q|Q]; auto.
Qed.
Lemma first_unique n l e e' : first_record n l e -> first_record n l e' -> e = e'.
Proof.
  intros (a & b & -> & E & F) (a' & b' & Q & E' & F'). revert a' Q F'. induction a as [|x a IH]; intros [|y a'] Q F'; cbn in Q; injection Q as Q1 Q2.
  - exact Q1.
  - subst y. exfalso. apply F'. left. exact E.
  - subst x. exfalso. apply F. left. exact E'.
  - apply (IH (fun i => F (or_intror i)) a' Q2 (fun i => F' (or_intror i))).
Qed.
Lemma add_kept all u e : kept all u -> kept (all ++ [e]) (add_untrusted local u e).
Proof.
  intros [K1 K2 K3 K4]. unfold add_untrusted.
  destruct (existsb _ u) eqn:X.
  - apply existsb_exists in X. destruct X as (x & Ix & X). apply andb_true_iff in X. destruct X as [X1 X2]. apply N.eqb_eq in X1.
    constructor; [now apply incl_appl| |exact K3|intros y Iy L; apply first_more; auto].
    intros n. rewrite map_app, in_app_iff. intros [I|[<-|[]]]; [auto|]. cbn. rewrite <- X1. now apply in_map.
  - assert (F : forall x, In x u -> enr_id x = enr_id e -> enr_id e = local).
    { intros x Ix E. destruct (N.eq_dec (enr_id e) local) as [|D]; [assumption|]. exfalso.
      rewrite <- not_true_iff_false in X. apply X. apply existsb_exists. exists x. split; [exact Ix|].
      rewrite E, N.eqb_refl. apply N.eqb_neq in D. now rewrite D. }
    constructor.
    + intros y. rewrite !in_app_iff. intros [I|I]; auto.
    + intros n. rewrite !map_app, !in_app_iff. intros [I|I]; auto.
    + intros x y. rewrite !in_app_iff. intros [Ix|[<-|[]]] [Iy|[<-|[]]] E L; auto.
      * exfalso. apply L. rewrite E. exact (F _ Ix E).
      * exfalso. apply L. exact (F _ Iy (eq_sym E)).
    + intros y. rewrite in_app_iff. intros [I|[<-|[]]] L; [apply first_more; auto|].
      exists all, []. split; [reflexivity|]. split; [reflexivity|]. intros I. apply K2 in I. apply in_map_iff in I. destruct I as (x & E & Ix).
      exact (L (F _ Ix E)).
Qed.
Lemma fold_kept es : forall all u, kept all u -> kept (all ++ es) (fold_left (add_untrusted local) es u).
Proof.
  induction es as [|e es IH]; intros all u K; [now rewrite app_nil_r|]. cbn.
  change (e :: es) with ([e] ++ es). rewrite app_assoc. apply IH. now apply add_kept.
Qed.
Lemma ran_kept lk t : NoDup (map enr_id closest) -> ran lk t -> kept (told closest t) (lk_untrusted lk).
Proof.
  intros ND.
  assert (Poll : forall lk t l w now lk' x, (match l with LAnswer _ _ => False | _ => True end) -> kept (told closest t) (lk_untrusted lk) ->
    poll_lookup k w lk now = Ok (lk', x) -> kept (told closest (t ++ [l])) (lk_untrusted lk')).
  { intros lk0 t0 l w now lk' x Q K P. apply poll_cases in P. destruct P as (q & s & _ & U & _). rewrite U. unfold told in *.
    rewrite flat_map_app. destruct l; try destruct Q; cbn; rewrite app_nil_r; exact K. }
  induction 1 as [lk I|lk t w now lk' e ds R IH W P|lk t w now lk' n R IH W P|lk t w now lk' s R IH W P|lk t src enrs lk' R IH P];
    try (refine (Poll _ _ _ _ _ _ _ _ IH P); exact Logic.I).
  - unfold init_find_nodes_query in I. unfold told. cbn. rewrite app_nil_r.
    assert (lk_untrusted lk = closest) as -> by (destruct closest; [discriminate|]; injection I as <-; reflexivity). clear I.
    assert (S : single closest).
    { intros e e' Ie Ie' E _. clear -ND Ie Ie' E. induction closest as [|x l IH]; [destruct Ie|]. cbn in ND. inversion ND as [|? ? N1 N2]; subst.
      destruct Ie as [<-|Ie], Ie' as [<-|Ie']; auto; exfalso; apply N1; [rewrite E|rewrite <- E]; now apply in_map. }
    constructor; [apply incl_refl|auto|exact S|].
    intros e Ie L. destruct (first_exists (enr_id e) closest (in_map enr_id _ _ Ie)) as (e' & F). assert (e = e') as ->; [|exact F].
    destruct F as (a & b & Q & E & _). apply S; auto. rewrite Q. apply in_or_app. right. now left.
  - unfold advance_lookup in P. destruct (on_success (lk_query lk) src (map enr_id enrs)) as [q| |]; try discriminate. injection P as <-.
    cbn [lk_untrusted]. unfold told. rewrite flat_map_app. cbn. rewrite app_nil_r, app_assoc. apply fold_kept. exact IH.
Qed.
(** Every node that the lookup knows was told with a record *)
Lemma known_told t : incl (known (observe_all c target (map enr_id closest) (transcript t))) (map enr_id (told closest t)).
Proof.
  intros n I. apply known_named in I. unfold named in I. unfold told. rewrite map_app. apply in_app_or in I. apply in_or_app.
  destruct I as [I|I]; [now left|right]. unfold transcript in I. apply in_flat_map in I. destruct I as (x & Ix & I).
  apply in_flat_map in Ix. destruct Ix as (l & Il & Ix). rewrite flat_map_concat_map, concat_map, map_map, <- flat_map_concat_map.
  apply in_flat_map. exists l. split; [exact Il|]. destruct l; cbn in Ix |- *; repeat (destruct Ix as [<-|Ix]; cbn in I; try contradiction); try contradiction; exact I.
Qed.

(** ** The records of the result *)
Lemma find_split n u e : find (has_id n) u = Some e -> exists a b, u = a ++ e :: b /\ enr_id e = n /\ forall x, In x a -> enr_id x <> n.
Proof.
  induction u as [|x u IH]; [discriminate|]. cbn. unfold has_id at 1. destruct (N.eqb_spec (enr_id x) n) as [E|D].
  - intros [= <-]. exists [], u. split; [reflexivity|]. split; [exact E|]. intros ? [].
  - intros F. destruct (IH F) as (a & b & -> & E & A). exists (x :: a), b. split; [reflexivity|]. split; [exact E|]. intros y [<-|I]; auto.
Qed.
Lemma swap_remove_split n a e b : enr_id e = n -> (forall x, In x a -> enr_id x <> n) ->
  Permutation (swap_remove n (a ++ e :: b)) (a ++ b).
Proof.
  intros E A. unfold swap_remove. set (z := List.last _ _).
  assert (R : replace_first n z (a ++ e :: b) = a ++ z :: b).
  { clearbody z. induction a as [|x a IH]; cbn [replace_first app]; unfold has_id at 1.
    - apply N.eqb_eq in E. now rewrite E.
    - assert (D := A x (or_introl eq_refl)). apply N.eqb_neq in D. rewrite D. f_equal. apply IH. intros y I. apply A. now right. }
  rewrite R. subst z. destruct b as [|y b] using rev_ind.
  - rewrite last_last, removelast_last, app_nil_r. apply Permutation_refl.
  - clear IHb. change (a ++ e :: b ++ [y]) with (a ++ (e :: b) ++ [y]). rewrite (app_assoc a), last_last.
    change (a ++ y :: b ++ [y]) with (a ++ (y :: b) ++ [y]). rewrite (app_assoc a), removelast_last.
    apply Permutation_app_head. apply Permutation_cons_append.
Qed.
Lemma collect_spec w lk : forall ids u, NoDup ids -> incl ids (map enr_id u) -> single u ->
  Forall2 (fun n e => enr_id e = n /\ In e u) ids (collect w lk u ids).
Proof.
  induction ids as [|n ids IH]; intros u ND I S; [constructor|]. cbn. inversion ND as [|? ? N1 N2]; subst.
  destruct (find (has_id n) u) as [e|] eqn:F.
  - apply find_split in F. destruct F as (a & b & -> & E & A). pose proof (swap_remove_split n a e b E A) as P.
    assert (Sub : incl (swap_remove n (a ++ e :: b)) (a ++ e :: b)).
    { intros x Ix. apply (Permutation_in _ P) in Ix. apply in_app_or in Ix. apply in_or_app. destruct Ix; [now left|right; now right]. }
    constructor; [split; [exact E|apply in_or_app; right; now left]|].
    assert (H : Forall2 (fun n0 e0 => enr_id e0 = n0 /\ In e0 (swap_remove n (a ++ e :: b))) ids (collect w lk (swap_remove n (a ++ e :: b)) ids)).
    { apply IH; [exact N2| |intros x y Ix Iy; apply S; auto].
      intros m Im. assert (D : m <> n) by (intros ->; contradiction). specialize (I m (or_intror Im)). apply in_map_iff in I. destruct I as (x & Ex & Ix).
      apply in_map_iff. exists x. split; [exact Ex|]. apply (Permutation_in _ (Permutation_sym P)). apply in_app_or in Ix. apply in_or_app.
      destruct Ix as [Ix|[<-|Ix]]; auto. congruence. }
    clear -H Sub. induction H as [|m e0 ids l [Hx Hy] H IH]; constructor; auto.
  - exfalso. specialize (I n (or_introl eq_refl)). apply in_map_iff in I. destruct I as (x & Ex & Ix).
    apply (List.find_none _ _ F) in Ix. unfold has_id in Ix. rewrite Ex, N.eqb_refl in Ix. discriminate.
Qed.
End Lookup.
