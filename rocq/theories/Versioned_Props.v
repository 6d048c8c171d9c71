(** C80: content of a type is in one store, and only that store opens it.
    C81: the store of ephemeral content. *)
From Coq Require Import String.
From Verif Require Import Base Distance_Model Store_Model Versioned_Model Versioned_Spec Versioned_Proofs.
Open Scope N_scope.

Section C80.
Context (content_id : bytes -> bytes).
Definition history (l : list event) : world := v_run content_id (mk_world empty_db []) l.

(** A store of another version, or any store if the recorded version is unknown to this
    program, is refused; the database is as before, also if the program dies on the way. *)
Theorem C80_other_version_refused :
  forall o t d name, says d t name -> name <> version_name (opening_version o) ->
    create_store o t d = (Err, d) /\ forall before, create_store_died before o t d = d.
Proof.
  intros o t d name S N. unfold create_store, create_store_died. rewrite (get_says _ _ _ S).
  destruct (version_of name) as [v|] eqn:V; [|now split].
  apply version_of_inv in V. subst name. split; [|now destruct v].
  destruct (same_version (opening_version o) v) eqn:E; [|reflexivity].
  apply same_version_iff in E. now subst v.
Qed.

(** After any history of opening stores of any version, using them, and dying at any point:
    whatever an ephemeral or an id-indexed store finds under a content type was put there,
    for that content type, by a store of the same version. *)
Theorem C80_own_content :
  forall l t,
    (forall s r, opened t (history l) = Some (HEphemeral s) -> In r (e_rows s) ->
       put_ephemeral t (e_key r) (e_value r) l) /\
    (forall s r, opened t (history l) = Some (HIndexed s) -> In r (rows s) ->
       put_indexed t (r_key r) (r_value r) l).
Proof.
  intros l t. destruct (v_run_inv content_id l) as [J H]. split; intros s r O I.
  - destruct (H t _ O) as [_ W]. cbn in W. rewrite W in I. now apply (di_eph _ _ J) in I.
  - destruct (H t _ O) as [_ W]. cbn in W. rewrite W in I. now apply (di_idx _ _ J) in I.
Qed.

(** Content of one type is never in the tables of two versions, and if there is any, the
    version of its store is recorded: a program that writes to the other table never starts. *)
Theorem C80_one_store :
  forall l t,
    let d := disk (history l) in
    (eph d (eph_table t) = [] \/ idx d (idx_table t) = []) /\
    (eph d (eph_table t) <> [] -> says d t "ephemeral_v1") /\
    (idx d (idx_table t) <> [] -> says d t "id_indexed_v1").
Proof.
  intros l t d. destruct (v_run_inv content_id l) as [J _]. fold (history l) in J. fold d in J.
  assert (A : eph d (eph_table t) <> [] -> says d t "ephemeral_v1").
  { destruct (eph d (eph_table t)) as [|r x] eqn:E; [easy|]. intros _. apply (di_eph _ _ J t r). rewrite E. now left. }
  assert (B : idx d (idx_table t) <> [] -> says d t "id_indexed_v1").
  { destruct (idx d (idx_table t)) as [|r x] eqn:E; [easy|]. intros _. apply (di_idx _ _ J t r). rewrite E. now left. }
  split; [|now split].
  destruct (eph d (eph_table t)) as [|r x]; [now left|]. destruct (idx d (idx_table t)) as [|y z]; [now right|].
  assert (K : "ephemeral_v1"%string = "id_indexed_v1"%string); [|discriminate].
  apply (says_unique d t); [now apply A | now apply B].
Qed.

(** No two stores share a table. *)
Theorem C80_tables :
  forall a b, (eph_table a = eph_table b -> a = b) /\ (idx_table a = idx_table b -> a = b) /\ eph_table a <> idx_table b.
Proof. intros a b. split; [apply eph_table_inj|]. split; [apply idx_table_inj|]. destruct a, b; discriminate. Qed.

(** Opening a store for a content type that the database knows nothing about, or knows under
    the same version, works, and makes the version known; what is in the tables of the other
    content types and what is said about them stays. *)
Theorem C80_opens :
  forall o t d, NoDup (map fst (info d)) -> silent d t \/ says d t (version_name (opening_version o)) ->
    let d' := snd (create_store o t d) in
    says d' t (version_name (opening_version o)) /\
    (forall t' name, t' <> t -> (says d' t' name <-> says d t' name)) /\
    (forall n, eph d' n = eph d n) /\
    (forall n, n <> idx_table t -> idx d' n = idx d n) /\
    match o with
    | OpenMock => fst (create_store o t d) = Ok HMock
    | OpenEphemeral => exists s, fst (create_store o t d) = Ok (HEphemeral s) /\ e_rows s = eph d (eph_table t)
    | OpenIndexed c ties durs =>
        fst (create_store o t d) = omap HIndexed (fst (Store_Model.create c ties durs (idx d (idx_table t)))) /\
        idx d' (idx_table t) = snd (Store_Model.create c ties durs (idx d (idx_table t)))
    end.
Proof.
  intros o t d D Q d'.
  assert (K : exists d1, create_store o t d = create_version o t d1 /\ eph d1 = eph d /\ idx d1 = idx d /\
    says d1 t (version_name (opening_version o)) /\ (forall t' name, t' <> t -> (says d1 t' name <-> says d t' name))).
  { unfold create_store. destruct Q as [Q | Q].
    - apply get_silent in Q. rewrite Q. eexists. split; [reflexivity|]. split; [reflexivity|]. split; [reflexivity|].
      split; [now apply set_says|]. intros t' name N. split; [|now apply set_says_other].
      intros [_ I]. split; [exact D|]. cbn in I. destruct I as [I | I]; [|now apply filter_In in I as [I _]].
      injection I as I _. apply type_name_inj in I. congruence.
    - rewrite (get_says _ _ _ Q), version_of_name.
      assert (same_version (opening_version o) (opening_version o) = true) as -> by now apply same_version_iff.
      exists d. split; [reflexivity|]. split; [reflexivity|]. split; [reflexivity|]. split; [exact Q|]. intros; reflexivity. }
  destruct K as (d1 & C & E & I & S & T). unfold d'. rewrite C. rewrite <- E, <- I. clear d' C.
  destruct o as [| | c ties durs]; cbn [create_version].
  - cbn [snd fst]. split; [exact S|]. split; [exact T|]. now repeat split.
  - cbn [snd fst]. split; [exact S|]. split; [exact T|]. split; [easy|]. split; [easy|]. now eexists.
  - destruct (Store_Model.create c ties durs (idx d1 (idx_table t))) as [r rws] eqn:X. cbn [fst snd eph idx].
    split; [now apply (says_info d1)|]. split; [|split; [easy|split; [|split; [reflexivity|now rewrite set_same]]]].
    + intros t' name N. rewrite <- T by exact N. split; apply says_info; reflexivity.
    + intros n N. now apply set_other.
Qed.
End C80.

Section C81.
Context (content_id : bytes -> bytes).

(** After any history of puts, deletions and restarts (the program may die between any two
    steps) the store is there and finds exactly what it should remember, under ids that belong
    to the keys. *)
Theorem C81_contents :
  forall ops, exists s, e_run content_id (e_create []) ops = Ok s /\
    forall id,
      e_lookup_key id s = option_map fst (remembered content_id ops id) /\
      e_lookup id s = option_map snd (remembered content_id ops id) /\
      (e_has id s = true <-> remembered content_id ops id <> None) /\
      (forall k, e_lookup_key id s = Some k -> content_id k = id).
Proof.
  assert (R : forall ops s m, e_inv content_id s m -> exists s', e_run content_id s ops = Ok s' /\
    e_inv content_id s' (fold_left (remember content_id) ops m)).
  { induction ops as [|o ops IH]; intros s m V; [now exists s|]. cbn [e_run fold_left].
    destruct (e_step_inv content_id s m o V) as (s1 & E & V1). rewrite E. cbn [obind]. now apply IH. }
  intros ops. destruct (R ops (e_create []) (fun _ => None)) as (s & E & V).
  { constructor; cbn; try constructor; try reflexivity; lia. }
  exists s. split; [exact E|]. fold (remembered content_id ops) in V. intros id.
  unfold e_lookup_key, e_lookup, e_has. pose proof (ei_map _ _ _ V id) as M.
  destruct (find_erow id (e_rows s)) as [r|] eqn:F; cbn in M; rewrite <- M; cbn.
  - split; [reflexivity|]. split; [reflexivity|]. split; [easy|]. intros k [= <-].
    apply find_erow_some in F as [I <-]. pose proof (ei_ok _ _ _ V) as O. rewrite Forall_forall in O.
    now destruct (O r I) as [-> _].
  - now repeat split.
Qed.

(** The store's count and size are never below the truth, and exact if, since it was
    opened, nothing was put that was already there. *)
Theorem C81_usage :
  forall ops s, e_run content_id (e_create []) ops = Ok s ->
    blen (e_rows s) <= entry_count (e_stats s) /\ occupied (e_rows s) <= total_size (e_stats s) /\
    forall ops' s', e_run content_id s (EReopen :: ops') = Ok s' -> fresh content_id (remembered content_id ops) ops' ->
      entry_count (e_stats s') = blen (e_rows s') /\ total_size (e_stats s') = occupied (e_rows s').
Proof.
  assert (R : forall ops s m s', e_inv content_id s m -> e_run content_id s ops = Ok s' ->
    e_inv content_id s' (fold_left (remember content_id) ops m)).
  { induction ops as [|o ops IH]; intros s m s' V; [now intros [= <-]|]. cbn [e_run fold_left].
    destruct (e_step_inv content_id s m o V) as (s1 & E & V1). rewrite E. cbn [obind]. now apply IH. }
  assert (O : forall s m, e_inv content_id s m -> occupied (e_rows s) = e_sum (e_rows s)).
  { intros s m V. pose proof (ei_ok _ _ _ V) as K. clear V. induction (e_rows s) as [|r l IH]; [reflexivity|].
    inversion K as [|? ? [_ K1] K2]; subst. unfold occupied, e_sum in *. cbn. rewrite K1, (IH K2). unfold content_size. lia. }
  intros ops s E. assert (V : e_inv content_id s (remembered content_id ops)).
  { apply (R ops (e_create [])); [|exact E]. constructor; cbn; try constructor; try reflexivity; lia. }
  split; [apply (ei_count _ _ _ V)|]. split; [rewrite (O s _ V); apply (ei_size _ _ _ V)|].
  intros ops' s'. cbn [e_run e_step obind].
  assert (V0 : e_inv content_id (e_create (e_rows s)) (remembered content_id ops)).
  { destruct (e_step_inv content_id s _ EReopen V) as (x & [= <-] & X). exact X. }
  assert (Q0 : e_stats (e_create (e_rows s)) = mk_usage (blen (e_rows (e_create (e_rows s)))) (e_sum (e_rows (e_create (e_rows s))))) by reflexivity.
  revert V0 Q0. generalize (e_create (e_rows s)) as s0. generalize (remembered content_id ops) as m. clear - R O.
  induction ops' as [|o ops' IH]; intros m s0 V Q.
  - intros [= <-] _. rewrite (O _ _ V), Q. now split.
  - cbn [e_run fresh]. destruct (e_step_inv content_id s0 m o V) as (s1 & E & V1). rewrite E. cbn [obind].
    intros K [F1 F2]. apply (IH _ s1 V1); [|exact K|exact F2].
    destruct o as [k v ty slot | id | ]; [| |contradiction]; cbn [e_step] in E.
    + unfold e_insert in E. destruct (2 ^ 63 <=? slot); [injection E as <-; exact Q|].
      rewrite <- (ei_map _ _ _ V) in F1. destruct (find_erow (content_id k) (e_rows s0)); [discriminate|].
      injection E as <-. cbn [e_stats e_rows]. rewrite Q. unfold on_store. cbn [entry_count total_size].
      rewrite blen_app1, e_sum_app. reflexivity.
    + unfold e_delete in E. destruct (find_erow id (e_rows s0)) as [r|] eqn:F; [|injection E as <-; exact Q].
      destruct (filter_one content_id _ _ _ (ei_nodup _ _ _ V) F) as [A B].
      destruct (on_multi_delete (e_stats s0) 1 (e_size r)) as [u|] eqn:M; [|discriminate]. injection E as <-. cbn [e_stats e_rows].
      unfold on_multi_delete in M. destruct (_ && _); [|discriminate]. injection M as <-. rewrite Q. cbn [entry_count total_size].
      f_equal; lia.
Qed.

(** Content that is put again is counted again, however often: by then the store believes
    it holds more than it does. *)
Theorem C81_repeated_insert_refuted :
  forall k v n, exists s, e_run content_id (e_create []) (repeat (EInsert k v 0 0) (S n)) = Ok s /\
    blen (e_rows s) = 1 /\ entry_count (e_stats s) = N.of_nat (S n).
Proof.
  intros k v. induction n as [|n IH].
  - eexists. split; [reflexivity|]. now split.
  - destruct IH as (s & E & A & B).
    assert (X : forall ops s0 o, e_run content_id s0 (ops ++ [o]) = obind (e_run content_id s0 ops) (fun s => e_step content_id s o)).
    { induction ops as [|a ops IH']; intros s0 o; cbn; [now destruct (e_step content_id s0 o)|].
      destruct (e_step content_id s0 a); cbn; [apply IH'|reflexivity|reflexivity]. }
    assert (Y : repeat (EInsert k v 0 0) (S (S n)) = repeat (EInsert k v 0 0) (S n) ++ [EInsert k v 0 0]).
    { symmetry. change (repeat (EInsert k v 0 0) (S (S n))) with (EInsert k v 0 0 :: repeat (EInsert k v 0 0) (S n)). symmetry. apply repeat_cons. }
    rewrite Y, X, E. cbn [obind e_step].
    assert (H : exists r, find_erow (content_id k) (e_rows s) = Some r).
    { destruct (C81_contents (repeat (EInsert k v 0 0) (S n))) as (s' & E' & C). rewrite E in E'. injection E' as <-.
      destruct (C (content_id k)) as (_ & _ & Z & _). unfold e_has in Z.
      destruct (find_erow (content_id k) (e_rows s)) as [r|]; [now exists r|]. exfalso.
      assert (U : remembered content_id (repeat (EInsert k v 0 0) (S n)) (content_id k) <> None).
      { clear. unfold remembered. generalize (fun _ : bytes => @None (bytes * bytes)) as m. cbn [repeat fold_left]. intros m.
        assert (W : forall n m, m (content_id k) <> None -> fold_left (remember content_id) (repeat (EInsert k v 0 0) n) m (content_id k) <> None).
        { clear. induction n as [|n IH]; intros m N; [exact N|]. cbn [repeat fold_left]. apply IH. cbn.
          destruct (0 <? 2 ^ 63); [|exact N]. cbn. destruct (beqb _ _); [|exact N]. now destruct (m (content_id k)). }
        apply W. cbn. assert (beqb (content_id k) (content_id k) = true) as -> by now apply beqb_spec.
        change (0 <? 2 ^ 63) with true. cbn. now destruct (m (content_id k)). }
      now apply Z in U. }
    destruct H as [r F]. unfold e_insert. change (2 ^ 63 <=? 0) with false. cbn [obind]. rewrite F.
    eexists. split; [reflexivity|]. split; [exact A|]. cbn [e_stats on_store entry_count]. rewrite B. lia.
Qed.
End C81.
Print Assumptions C80_other_version_refused.
Print Assumptions C80_own_content.
Print Assumptions C80_one_store.
Print Assumptions C80_tables.
Print Assumptions C80_opens.
Print Assumptions C81_contents.
Print Assumptions C81_usage.
Print Assumptions C81_repeated_insert_refuted.

(** An ephemeral store is used, the program dies, an id-indexed store is refused for the same
    content type and works for another; the ephemeral store finds its content again. *)
Example C80_example :
  let c := mk_config (repeat 0 32) 1000 (2 ^ 256 - 1) 0 in
  let i := OpenIndexed c (fun _ _ => 0) (fun _ => Optimal) in
  let key := 7 :: repeat 0 31 in
  let l := [VOpen LegacyHistoryEphemeral OpenEphemeral;
            VEphemeral LegacyHistoryEphemeral (EInsert key [1; 2] 3 9);
            VDie;
            VDieOpening State i true;
            VOpen LegacyHistoryEphemeral i;
            VOpen State i;
            VIndexed State (OInsert (fun _ _ => 0) (fun _ => Optimal) key [4]);
            VOpen LegacyHistoryEphemeral OpenEphemeral] in
  let w := history (fun k => k) l in
  match opened LegacyHistoryEphemeral w, opened State w with
  | Some (HEphemeral a), Some (HIndexed b) =>
      e_lookup key a = Some [1; 2] /\ Store_Model.lookup key b = Some [4] /\ says (disk w) State "id_indexed_v1"
  | _, _ => False
  end.
Proof.
  vm_compute. split; [reflexivity|]. split; [reflexivity|]. split.
  - repeat (apply NoDup_cons; [intros K; repeat (destruct K as [K|K]; [discriminate|]); exact K|]). apply NoDup_nil.
  - now left.
Qed.
Example C81_example :
  let ops := [EInsert [1] [10; 11] 0 5; EInsert [2] [20] 0 6; EInsert [1] [12] 0 7; EDelete [2]; EInsert [3] [] 0 (2 ^ 63)] in
  match e_run (fun k => k) (e_create []) ops with
  | Ok s => e_lookup [1] s = Some [10; 11] /\ e_lookup [2] s = None /\ e_lookup [3] s = None /\
            entry_count (e_stats s) = 2 /\ blen (e_rows s) = 1
  | _ => False
  end.
Proof. vm_compute. now repeat split. Qed.
