(** Proofs about traces. *)
From Verif Require Import Base Distance_Model Trace_Model Trace_Spec.

Definition run (t : trace) (l : list call) : trace := fold_left do_call l t.
Lemma run_snoc t l c : run t (l ++ [c]) = do_call (run t l) c.
Proof. unfold run. rewrite fold_left_app. reflexivity. Qed.

(** What stays *)
Lemma add_metadata_same t e b : let t' := add_metadata t e b in
  received_from t' = received_from t /\ responses t' = responses t /\ failures t' = failures t /\ started_at_ms t' = started_at_ms t /\ target_id t' = target_id t /\ origin t' = origin t.
Proof. repeat split. Qed.
Lemma add_all_same l : forall t, let t' := fold_left (fun t x => add_metadata t x false) l t in
  received_from t' = received_from t /\ responses t' = responses t /\ failures t' = failures t /\ started_at_ms t' = started_at_ms t /\ target_id t' = target_id t /\ origin t' = origin t.
Proof. induction l as [|x l IH]; intros t; cbn zeta; [repeat split|]. cbn [fold_left]. exact (IH (add_metadata t x false)). Qed.

Lemma do_call_same t c : started_at_ms (do_call t c) = started_at_ms t /\ target_id (do_call t c) = target_id t /\ origin (do_call t c) = origin t.
Proof.
  destruct c; cbn [do_call]; try (repeat split).
  all: unfold node_responded_with; cbn; destruct (add_all_same l t) as (_ & _ & _ & A & B & C); assumption.
Qed.
Lemma run_same l : forall t, started_at_ms (run t l) = started_at_ms t /\ target_id (run t l) = target_id t /\ origin (run t l) = origin t.
Proof.
  induction l as [|c l IH]; intros t; [repeat split|]. cbn. destruct (IH (do_call t c)) as (A & B & C). destruct (do_call_same t c) as (D & E & F).
  unfold run in *. rewrite A, B, C. auto.
Qed.

(** *** The source of the content *)
Lemma received_step t c : received_from (do_call t c) = match received_from t, c with None, Validated n => Some n | x, _ => x end.
Proof.
  destruct c; cbn [do_call].
  - unfold node_responded_with. cbn. destruct (add_all_same l t) as (A & _). rewrite A. destruct (received_from t); reflexivity.
  - cbn. destruct (received_from t); reflexivity.
  - cbn. destruct (received_from t); reflexivity.
  - cbn. destruct (received_from t); reflexivity.
Qed.
Lemma received_run t l n : received_from t = None ->
  received_from (run t l) = Some n <-> exists l1 l2, l = l1 ++ Validated n :: l2 /\ forall m, ~ In (Validated m) l1.
Proof.
  intros N. revert n. assert (G : match received_from (run t l) with
    | Some n => exists l1 l2, l = l1 ++ Validated n :: l2 /\ forall m, ~ In (Validated m) l1
    | None => forall m, ~ In (Validated m) l end).
  { induction l as [|c l IH] using rev_ind; [cbn; rewrite N; intros m []|]. rewrite run_snoc, received_step. destruct (received_from (run t l)) as [n|].
    - destruct IH as (l1 & l2 & -> & H). exists l1, (l2 ++ [c]). rewrite <- app_assoc. auto.
    - destruct c; try (intros m I; apply in_app_iff in I as [I | [I | []]]; [exact (IH m I)|discriminate I]). exists l, []. auto. }
  intros n. split.
  - intros E. rewrite E in G. exact G.
  - intros (l1 & l2 & -> & H). destruct (received_from (run t (l1 ++ Validated n :: l2))) as [n'|].
    + destruct G as (m1 & m2 & E & H'). f_equal.
      revert m1 E H'. induction l1 as [|c l1 IH]; intros [|d m1] E H'.
      * injection E as E1 E2. congruence.
      * injection E as <- _. exfalso. apply (H' n). left. reflexivity.
      * injection E as -> _. exfalso. apply (H n'). left. reflexivity.
      * injection E as -> E. apply (IH (fun m I => H m (or_intror I)) m1 E). intros m I. apply (H' m). right. exact I.
    + exfalso. apply (G n). apply in_or_app. right. left. reflexivity.
Qed.

(** *** Failures *)
Lemma failures_step t c n : failures (do_call t c) n =
  match c with Failed m k now => if beqb n m then Some {| f_duration_ms := elapsed (started_at_ms t) now; f_kind := k |} else failures t n | _ => failures t n end.
Proof.
  destruct c; cbn [do_call]; try reflexivity. unfold node_responded_with. cbn. destruct (add_all_same l t) as (_ & _ & A & _). rewrite A. reflexivity.
Qed.
Lemma failures_run t l n : failures t n = None ->
  match failures (run t l) n with
  | Some f => exists l1 now l2, l = l1 ++ Failed n (f_kind f) now :: l2 /\ f_duration_ms f = elapsed (started_at_ms t) now /\ forall k now', ~ In (Failed n k now') l2
  | None => forall k now, ~ In (Failed n k now) l
  end.
Proof.
  intros N. induction l as [|c l IH] using rev_ind; [cbn; rewrite N; intros k now []|]. rewrite run_snoc, failures_step. destruct (run_same l t) as (St & _).
  assert (Keep : (forall k now, c <> Failed n k now) -> match failures (run t l) n with
    | Some f => exists l1 now l2, l ++ [c] = l1 ++ Failed n (f_kind f) now :: l2 /\ f_duration_ms f = elapsed (started_at_ms t) now /\ forall k now', ~ In (Failed n k now') l2
    | None => forall k now, ~ In (Failed n k now) (l ++ [c]) end).
  { intros H. destruct (failures (run t l) n) as [f|].
    - destruct IH as (l1 & now & l2 & -> & D & F). exists l1, now, (l2 ++ [c]). rewrite <- app_assoc. split; [reflexivity|]. split; [exact D|]. intros k now' I.
      apply in_app_iff in I as [I | [I | []]]; [exact (F _ _ I)|exact (H _ _ I)].
    - intros k now I. apply in_app_iff in I as [I | [I | []]]; [exact (IH _ _ I)|exact (H _ _ I)]. }
  destruct c as [| |m k now|]; try (apply Keep; discriminate). destruct (beqb n m) eqn:E.
  - apply beqb_spec in E. subst m. exists l, now, []. rewrite St. split; [reflexivity|]. split; [reflexivity|]. intros k' now' [].
  - apply Keep. intros k' now' [= -> _ _]. rewrite beqb_refl in E. discriminate.
Qed.

(** *** Answers *)
Lemma responses_step t c n : responses (do_call t c) n =
  match c with
  | Nodes e l now => if beqb n (id e) then Some (match responses t n with
                       | Some r => {| duration_ms := duration_ms r; responded_with := responded_with r ++ map id l |}
                       | None => {| duration_ms := elapsed (started_at_ms t) now; responded_with := map id l |} end) else responses t n
  | Content e now => if beqb n (id e) then Some {| duration_ms := elapsed (started_at_ms t) now; responded_with := [] |} else responses t n
  | _ => responses t n
  end.
Proof.
  destruct c; cbn [do_call]; try reflexivity. unfold node_responded_with. cbn. destruct (add_all_same l t) as (_ & A & _ & B & _). rewrite A, B. unfold insert.
  destruct (beqb n (id e)) eqn:E; [|reflexivity]. apply beqb_spec in E. subst n. destruct (responses t (id e)); reflexivity.
Qed.
Lemma named_snoc n l r c : named_by n l r ->
  (forall names now, answers n c names now -> named_by n (l ++ [c]) (r ++ names)) /\ ((forall names now, ~ answers n c names now) -> named_by n (l ++ [c]) r).
Proof.
  induction 1 as [|x l names r now A H [IH1 IH2]|x l r A H [IH1 IH2]]; cbn [app].
  - split; [intros names now A; rewrite <- (app_nil_r names); apply (named_yes n c [] names [] now A); constructor|intros A; apply named_no; [exact A|constructor]].
  - split; [intros names' now' A'; rewrite <- app_assoc; exact (named_yes _ _ _ _ _ _ A (IH1 _ _ A'))|intros A'; exact (named_yes _ _ _ _ _ _ A (IH2 A'))].
  - split; [intros names' now' A'; exact (named_no _ _ _ _ A (IH1 _ _ A'))|intros A'; exact (named_no _ _ _ _ A (IH2 A'))].
Qed.
Definition silent_call (n : bytes) (c : call) : Prop := (forall names now, ~ answers n c names now) /\ (forall now, ~ sends n c now).
(** [r] is the entry for [n] after the calls [l] *)
Definition entry_ok (started : N) (n : bytes) (l : list call) (r : response) : Prop :=
  exists l1 l2, l = l1 ++ l2 /\ (forall c now, In c l2 -> ~ sends n c now) /\ named_by n l2 (responded_with r) /\
    ((exists l0 c now, l1 = l0 ++ [c] /\ sends n c now /\ duration_ms r = elapsed started now) \/
     (l1 = [] /\ exists a c names now b, l2 = a ++ c :: b /\ Forall (silent_call n) a /\ answers n c names now /\ duration_ms r = elapsed started now)).
Lemma named_silent n a : Forall (silent_call n) a -> named_by n a [].
Proof. induction 1 as [|c a [H _] _ IH]; [constructor|]. apply named_no; assumption. Qed.
Lemma responses_run t l n : responses t n = None ->
  match responses (run t l) n with
  | Some r => entry_ok (started_at_ms t) n l r
  | None => Forall (silent_call n) l
  end.
Proof.
  intros N. induction l as [|c l IH] using rev_ind; [cbn; rewrite N; constructor|]. rewrite run_snoc, responses_step. destruct (run_same l t) as (St & _).
  assert (Keep : silent_call n c -> match responses (run t l) n with Some r => entry_ok (started_at_ms t) n (l ++ [c]) r | None => Forall (silent_call n) (l ++ [c]) end).
  { intros Q. destruct (responses (run t l) n) as [r|]; [|apply Forall_app; split; [exact IH|constructor; [exact Q|constructor]]].
    destruct IH as (l1 & l2 & -> & S & Nm & D). exists l1, (l2 ++ [c]). split; [rewrite app_assoc; reflexivity|]. split.
    { intros c' now I. apply in_app_iff in I as [I | [<- | []]]; [exact (S _ _ I)|exact (proj2 Q now)]. }
    split; [apply (named_snoc n l2 _ c Nm); exact (proj1 Q)|]. destruct D as [D | (-> & a & c0 & names & now & b & -> & F & A & D)]; [left; exact D|].
    right. split; [reflexivity|]. exists a, c0, names, now, (b ++ [c]). rewrite <- app_assoc. auto. }
  destruct c as [e m now|e now|m k now|m].
  - destruct (beqb n (id e)) eqn:E.
    + apply beqb_spec in E. assert (A : answers n (Nodes e m now) (map id m) now) by (constructor; congruence). assert (Ns : forall x, ~ sends n (Nodes e m now) x) by (intros x X; inversion X).
      destruct (responses (run t l) n) as [r|].
      * destruct IH as (l1 & l2 & -> & S & Nm & D). exists l1, (l2 ++ [Nodes e m now]). split; [rewrite app_assoc; reflexivity|]. split.
        { intros c' x I. apply in_app_iff in I as [I | [<- | []]]; [exact (S _ _ I)|apply Ns]. }
        split; [cbn; apply (proj1 (named_snoc n l2 _ _ Nm) _ now A)|]. destruct D as [D | (-> & a & c0 & names & now0 & b & -> & F & A0 & D)]; [left; exact D|].
        right. split; [reflexivity|]. exists a, c0, names, now0, (b ++ [Nodes e m now]). rewrite <- app_assoc. auto.
      * exists [], (l ++ [Nodes e m now]). split; [reflexivity|]. split.
        { intros c' x I. apply in_app_iff in I as [I | [<- | []]]; [|apply Ns]. rewrite Forall_forall in IH. apply (IH c' I). }
        split; [cbn; apply (proj1 (named_snoc n l [] _ (named_silent n l IH)) _ now A)|]. right. split; [reflexivity|]. exists l, (Nodes e m now), (map id m), now, []. rewrite St. auto.
    + apply Keep. split; [intros names x X; inversion X; subst; rewrite beqb_refl in E; discriminate|intros x X; inversion X].
  - destruct (beqb n (id e)) eqn:E.
    + apply beqb_spec in E. exists (l ++ [Content e now]), []. split; [rewrite app_nil_r; reflexivity|]. split; [intros c x []|]. split; [constructor|]. left.
      exists l, (Content e now), now. rewrite St. split; [reflexivity|]. split; [constructor; congruence|reflexivity].
    + apply Keep. split; [intros names x X; inversion X|intros x X; inversion X; subst; rewrite beqb_refl in E; discriminate].
  - apply Keep. split; [intros names x X; inversion X|intros x X; inversion X].
  - apply Keep. split; [intros names x X; inversion X|intros x X; inversion X].
Qed.

(** *** Records *)
Definition sight (c : call) : list (enr * bool) :=
  match c with Nodes e l _ => map (fun x => (x, false)) l ++ [(e, true)] | Content e _ => [(e, true)] | _ => [] end.
Lemma sight_seen c e b : In (e, b) (sight c) <-> seen e b c.
Proof.
  destruct c as [x l now|x now|m k now|m]; cbn [sight]; split; intros H.
  - apply in_app_iff in H as [H | [H | []]]; [apply in_map_iff in H as (y & [= <- <-] & H); constructor; exact H|injection H as <- <-; constructor].
  - apply in_app_iff. inversion H; subst; [right; left; reflexivity|left; apply in_map_iff; eauto].
  - destruct H as [H | []]. injection H as <- <-. constructor.
  - inversion H; subst. left. reflexivity.
  - destruct H.
  - inversion H.
  - destruct H.
  - inversion H.
Qed.
Definition put_sight (t : trace) (p : enr * bool) : trace := add_metadata t (fst p) (snd p).
Lemma metadata_call t c n : metadata (do_call t c) n = metadata (fold_left put_sight (sight c) t) n.
Proof.
  destruct c as [e l now|e now|m k now|m]; try reflexivity. cbn [do_call sight]. rewrite fold_left_app. cbn [fold_left]. unfold node_responded_with.
  assert (X : fold_left put_sight (map (fun x => (x, false)) l) t = fold_left (fun t x => add_metadata t x false) l t).
  { clear. revert t. induction l as [|x l IH]; intros t; [reflexivity|]. cbn. rewrite IH. reflexivity. }
  rewrite X. reflexivity.
Qed.
Lemma metadata_only t t' p : (forall n, metadata t n = metadata t' n) -> target_id t = target_id t' -> forall n, metadata (put_sight t p) n = metadata (put_sight t' p) n.
Proof. intros H T n. unfold put_sight, add_metadata. cbn. rewrite H, T. unfold insert. destruct (beqb n (id (fst p))); [reflexivity|apply H]. Qed.
Lemma put_target t p : target_id (put_sight t p) = target_id t. Proof. reflexivity. Qed.
Lemma metadata_only_all l : forall t t', (forall n, metadata t n = metadata t' n) -> target_id t = target_id t' -> forall n, metadata (fold_left put_sight l t) n = metadata (fold_left put_sight l t') n.
Proof. induction l as [|p l IH]; intros t t' H T; [exact H|]. cbn. apply IH; [apply metadata_only; assumption|rewrite !put_target; exact T]. Qed.
Lemma fold_target l : forall t, target_id (fold_left put_sight l t) = target_id t.
Proof. induction l as [|p l IH]; intros t; [reflexivity|]. cbn. rewrite IH. reflexivity. Qed.
Lemma metadata_run l : forall t n, metadata (run t l) n = metadata (fold_left put_sight (flat_map sight l) t) n.
Proof.
  induction l as [|c l IH] using rev_ind; intros t n; [reflexivity|]. rewrite run_snoc, metadata_call, flat_map_app, fold_left_app. cbn. rewrite app_nil_r.
  apply metadata_only_all; [intros m; apply IH|]. rewrite fold_target. apply run_same.
Qed.
Lemma enr_eqb_spec a b : enr_eqb a b = true <-> a = b.
Proof.
  unfold enr_eqb. rewrite !Bool.andb_true_iff, !beqb_spec, N.eqb_eq. destruct a, b; cbn. split; [intros [[-> ->] ->]; reflexivity|intros [= -> -> ->]; auto].
Qed.
Definition info_ok (target : bytes) (n : bytes) (S : list (enr * bool)) (i : node_info) : Prop :=
  let e := n_enr i in
  i = get_metadata e target /\ id e = n /\ (exists b, In (e, b) S) /\ (forall e' b, In (e', b) S -> id e' = n -> seq e' <= seq e) /\
  ((exists e', In (e', true) S /\ id e' = n /\ seq e' = seq e) -> exists S1 S2, S = S1 ++ (e, true) :: S2 /\ forall e', In (e', true) S2 -> id e' = n -> seq e' < seq e).
Lemma info_fold t S n : metadata t n = None ->
  match metadata (fold_left put_sight S t) n with
  | Some i => info_ok (target_id t) n S i
  | None => forall e b, In (e, b) S -> id e <> n
  end.
Proof.
  intros N. induction S as [|[x b] S IH] using rev_ind; [cbn; rewrite N; intros e b []|]. rewrite fold_left_app. cbn [fold_left]. set (t1 := fold_left put_sight S t) in *.
  assert (T1 : target_id t1 = target_id t) by apply fold_target. unfold put_sight at 1. cbn [fst snd]. unfold add_metadata. cbn [metadata]. unfold insert. rewrite T1. destruct (beqb n (id x)) eqn:E.
  - apply beqb_spec in E. rewrite <- E. destruct (metadata t1 n) as [i|].
    + destruct IH as (Gi & Hi & (bi & Ii) & Mx & La). set (e := n_enr i) in *. destruct (negb (enr_eqb x e) && _) eqn:R.
      * apply Bool.andb_true_iff in R as [R1 R2]. unfold info_ok. cbn [n_enr get_metadata]. split; [reflexivity|]. split; [congruence|]. split; [exists b; apply in_or_app; right; left; reflexivity|].
        assert (Le : seq e <= seq x) by lia. split.
        { intros e' b' I' Id. apply in_app_iff in I' as [I' | [[= <- <-] | []]]; [|lia]. specialize (Mx e' b' I' Id). lia. }
        intros (e' & I' & Id & Sq). destruct b; [exists S, []; split; [reflexivity|intros e0 []]|].
        apply in_app_iff in I' as [I' | [[= <- Q] | []]]. specialize (Mx e' true I' Id). lia.
      * unfold info_ok. fold e. split; [exact Gi|]. split; [exact Hi|]. split; [exists bi; apply in_or_app; left; exact Ii|].
        apply Bool.andb_false_iff in R. assert (Q : x = e \/ (x <> e /\ seq x <= seq e /\ (b = true -> seq x < seq e))).
        { destruct (enr_eqb x e) eqn:X; [apply enr_eqb_spec in X; auto|]. right. split; [intros ->; rewrite (proj2 (enr_eqb_spec e e) eq_refl) in X; discriminate|].
          destruct R as [R | R]; [discriminate R|]. destruct b; lia. }
        split; [intros e' b' I' Id; apply in_app_iff in I' as [I' | [[= <- <-] | []]]; [exact (Mx e' b' I' Id)|destruct Q as [-> | (_ & Q & _)]; lia]|].
        intros (e' & I' & Id & Sq). destruct Q as [-> | (Nx & Lx & Q)].
        -- destruct b; [exists S, []; split; [reflexivity|intros e0 []]|]. destruct La as (S1 & S2 & -> & F).
           { apply in_app_iff in I' as [I' | [[= <- Q] | []]]. eauto. }
           exists S1, (S2 ++ [(e, false)]). rewrite <- app_assoc. split; [reflexivity|]. intros e0 I0. apply in_app_iff in I0 as [I0 | [I0 | []]]; [exact (F e0 I0)|discriminate I0].
        -- destruct La as (S1 & S2 & -> & F).
           { apply in_app_iff in I' as [I' | [[= <- Hb] | []]]; [eauto|]. specialize (Q Hb). lia. }
           exists S1, (S2 ++ [(x, b)]). rewrite <- app_assoc. split; [reflexivity|]. intros e0 I0 Id0. apply in_app_iff in I0 as [I0 | [[= <- Hb] | []]]; [exact (F e0 I0 Id0)|]. exact (Q Hb).
    + unfold info_ok. cbn [n_enr get_metadata]. split; [reflexivity|]. split; [congruence|]. split; [exists b; apply in_or_app; right; left; reflexivity|]. split.
      { intros e' b' I' Id. apply in_app_iff in I' as [I' | [[= <- <-] | []]]; [destruct (IH e' b' I' Id)|lia]. }
      intros (e' & I' & Id & Sq). apply in_app_iff in I' as [I' | [[= <- ->] | []]]; [destruct (IH e' true I' Id)|]. exists S, []. split; [reflexivity|intros e0 []].
  - assert (Nx : id x <> n) by (intros <-; rewrite beqb_refl in E; discriminate). destruct (metadata t1 n) as [i|].
    + destruct IH as (Gi & Hi & (bi & Ii) & Mx & La). split; [exact Gi|]. split; [exact Hi|]. split; [exists bi; apply in_or_app; left; exact Ii|]. split.
      { intros e' b' I' Id. apply in_app_iff in I' as [I' | [[= <- <-] | []]]; [exact (Mx e' b' I' Id)|contradiction]. }
      intros (e' & I' & Id & Sq). apply in_app_iff in I' as [I' | [[= <- Hb] | []]]; [|contradiction]. destruct La as (S1 & S2 & -> & F); [eauto|].
      exists S1, (S2 ++ [(x, b)]). rewrite <- app_assoc. split; [reflexivity|]. intros e0 I0 Id0. apply in_app_iff in I0 as [I0 | [[= <- Hb] | []]]; [exact (F e0 I0 Id0)|contradiction].
    + intros e b' I'. apply in_app_iff in I' as [I' | [[= <- <-] | []]]; [exact (IH e b' I')|exact Nx].
Qed.
Lemma drop_named (m : list enr) : forall S1 S2 (R : list (enr * bool)) e, map (fun x => (x, false)) m ++ R = S1 ++ (e, true) :: S2 -> exists S1', R = S1' ++ (e, true) :: S2.
Proof.
  induction m as [|y m IH]; intros S1 S2 R e E; [exists S1; exact E|]. destruct S1 as [|p S1]; [discriminate E|]. injection E as _ E. exact (IH _ _ _ _ E).
Qed.
Lemma split_sight l : forall S1 S2 e, flat_map sight l = S1 ++ (e, true) :: S2 -> exists l1 c l2, l = l1 ++ c :: l2 /\ seen e true c /\ S2 = flat_map sight l2.
Proof.
  induction l as [|c l IH]; intros S1 S2 e E; [destruct S1; discriminate E|].
  assert (Go : forall S1', flat_map sight l = S1' ++ (e, true) :: S2 -> exists l1 c0 l2, c :: l = l1 ++ c0 :: l2 /\ seen e true c0 /\ S2 = flat_map sight l2).
  { intros S1' E'. destruct (IH _ _ _ E') as (l1 & c0 & l2 & -> & H & Q). exists (c :: l1), c0, l2. auto. }
  assert (One : forall x, seen x true c -> forall S1', (x, true) :: flat_map sight l = S1' ++ (e, true) :: S2 -> exists l1 c0 l2, c :: l = l1 ++ c0 :: l2 /\ seen e true c0 /\ S2 = flat_map sight l2).
  { intros x Sx [|p S1'] E'; [injection E' as -> <-; exists [], c, l; auto|]. injection E' as _ E'. exact (Go _ E'). }
  cbn [flat_map] in E. destruct c as [x m now|x now|k f now|k]; cbn [sight] in E.
  - rewrite <- app_assoc in E. cbn [app] in E. apply drop_named in E as [S1' E]. exact (One x (seen_nodes x m now) S1' E).
  - exact (One x (seen_content x now) S1 E).
  - exact (Go S1 E).
  - exact (Go S1 E).
Qed.
Lemma in_sights l e b : In (e, b) (flat_map sight l) <-> exists c, In c l /\ seen e b c.
Proof. rewrite in_flat_map. split; intros (c & I & H); exists c; (split; [exact I|]); apply sight_seen; exact H. Qed.

(** *** New records *)
Lemma is_known_spec n l : is_known n l = true <-> In n (map id l).
Proof. unfold is_known. rewrite existsb_exists, in_map_iff. split; [intros (x & I & E); apply beqb_spec in E; eauto|intros (x & E & I); exists x; split; [exact I|apply beqb_spec; exact E]]. Qed.
Lemma take_new_spec l : forall known, let '(k, news) := take_new known l in
  k = known ++ news /\ NoDup (map id news) /\ (forall e, In e news -> In e l) /\ (forall n, In n (map id news) <-> In n (map id l) /\ ~ In n (map id known)).
Proof.
  induction l as [|e l IH]; intros known; cbn [take_new]; [rewrite app_nil_r; split; [reflexivity|]; split; [constructor|]; split; [intros e []|intros n; cbn; tauto]|].
  destruct (is_known (id e) known) eqn:K.
  - apply is_known_spec in K. specialize (IH known). destruct (take_new known l) as [k news]. destruct IH as (A & B & C & D). split; [exact A|]. split; [exact B|]. split; [intros x I; right; exact (C x I)|].
    intros n. rewrite D. cbn. split; [tauto|]. intros [[<- | I] Nk]; [contradiction|auto].
  - assert (Nk : ~ In (id e) (map id known)) by (rewrite <- is_known_spec, K; discriminate). specialize (IH (known ++ [e])). destruct (take_new (known ++ [e]) l) as [k news]. destruct IH as (A & B & C & D).
    rewrite map_app in D. split; [rewrite A, <- app_assoc; reflexivity|]. split.
    { cbn. constructor; [|exact B]. intros I. apply D in I as [_ I]. apply I. apply in_or_app. right. left. reflexivity. }
    split; [intros x [<- | I]; [left; reflexivity|right; exact (C x I)]|]. intros n. cbn. rewrite D. split.
    + intros [<- | [I Q]]; [auto|]. split; [auto|]. intros X. apply Q. apply in_or_app. auto.
    + intros [[<- | I] Q]; [auto|]. destruct (beqb (id e) n) eqn:E; [apply beqb_spec in E; auto|]. right. split; [exact I|]. intros X. apply in_app_iff in X as [X | [X | []]]; [exact (Q X)|].
      rewrite X, beqb_refl in E. discriminate.
Qed.
