(** Lemmas about stores and their versions. *)
From Coq Require Import String.
From Verif Require Import Base Distance_Model Store_Model Store_Proofs Versioned_Model Versioned_Spec.
Open Scope N_scope.

Lemma type_name_inj a b : type_name a = type_name b -> a = b.
Proof. destruct a, b; cbn; congruence. Qed.
Lemma version_name_inj a b : version_name a = version_name b -> a = b.
Proof. destruct a, b; cbn; congruence. Qed.
Lemma version_of_name v : version_of (version_name v) = Some v.
Proof. now destruct v. Qed.
Lemma version_of_inv s v : version_of s = Some v -> s = version_name v.
Proof.
  unfold version_of. intros K. apply find_some in K as [_ K]. now apply String.eqb_eq in K.
Qed.
Lemma same_version_iff a b : same_version a b = true <-> a = b.
Proof. unfold same_version. rewrite String.eqb_eq. split; [apply version_name_inj|now intros ->]. Qed.
Lemma same_type_iff a b : same_type a b = true <-> a = b.
Proof. unfold same_type. rewrite String.eqb_eq. split; [apply type_name_inj|now intros ->]. Qed.
Lemma eph_table_inj a b : eph_table a = eph_table b -> a = b.
Proof. destruct a, b; cbn; congruence. Qed.
Lemma idx_table_inj a b : idx_table a = idx_table b -> a = b.
Proof. destruct a, b; cbn; congruence. Qed.
Arguments eph_table : simpl never.
Arguments idx_table : simpl never.
Lemma set_same {A} (f : string -> A) n x : set f n x n = x.
Proof. unfold set. now rewrite String.eqb_refl. Qed.
Lemma set_other {A} (f : string -> A) n x m : m <> n -> set f n x m = f m.
Proof. unfold set. intros K. destruct (String.eqb_spec m n); congruence. Qed.

Lemma find_key {A} (l : list (string * A)) k x :
  NoDup (map fst l) -> In (k, x) l -> find (fun p => String.eqb (fst p) k) l = Some (k, x).
Proof.
  induction l as [|[a b] l IH]; [easy|]. cbn. intros D [E | I].
  - injection E as -> ->. now rewrite String.eqb_refl.
  - inversion D as [|? ? NI D']; subst. destruct (String.eqb_spec a k) as [->|].
    + exfalso. apply NI. apply (in_map fst) in I. exact I.
    + now apply IH.
Qed.
Lemma find_key_none {A} (l : list (string * A)) k :
  ~ In k (map fst l) <-> find (fun p => String.eqb (fst p) k) l = None.
Proof.
  induction l as [|[a b] l IH]; [now cbn|]. cbn. destruct (String.eqb_spec a k) as [->|].
  - split; [tauto|discriminate].
  - rewrite <- IH. split; tauto.
Qed.
Lemma get_says d t name : says d t name ->
  get_version t d = match version_of name with Some v => Ok (Some v) | None => Err end.
Proof.
  intros [D I]. unfold get_version. now rewrite (find_key _ _ _ D I).
Qed.
Lemma get_silent d t : silent d t <-> get_version t d = Ok None.
Proof.
  unfold silent, get_version. rewrite find_key_none. destruct (find _ _) as [[a b]|]; [|easy].
  cbn [snd]. destruct (version_of b); split; discriminate.
Qed.
Lemma get_says_inv d t v : NoDup (map fst (info d)) -> get_version t d = Ok (Some v) -> says d t (version_name v).
Proof.
  intros D. unfold get_version. destruct (find _ _) as [[a b]|] eqn:F; [|easy]. cbn [snd].
  destruct (version_of b) as [w|] eqn:W; [|discriminate]. intros [= ->].
  apply version_of_inv in W. subst b. apply find_some in F as [I E]. apply String.eqb_eq in E. cbn in E. subst a.
  now split.
Qed.
Lemma set_says d t v : NoDup (map fst (info d)) -> says (set_version t v d) t (version_name v).
Proof.
  intros D. split; cbn; [|now left].
  constructor.
  - intros I. apply in_map_iff in I as [p [E I]]. apply filter_In in I as [_ I].
    rewrite E, String.eqb_refl in I. discriminate.
  - clear - D. induction (info d) as [|[a b] l IH]; [constructor|]. cbn in *. inversion D as [|? ? NI D']; subst.
    destruct (String.eqb a (type_name t)); cbn; [now apply IH|].
    constructor; [|now apply IH]. intros I. apply NI. apply in_map_iff in I as [p [E I]].
    apply filter_In in I as [I _]. apply in_map_iff. now exists p.
Qed.
Lemma set_says_other d t v t' name : t' <> t -> says d t' name -> says (set_version t v d) t' name.
Proof.
  intros N [D I]. split; [apply (set_says d t v D)|]. cbn. right. apply filter_In. split; [exact I|].
  cbn. destruct (String.eqb_spec (type_name t') (type_name t)) as [E|]; [|easy].
  now apply type_name_inj in E.
Qed.
Lemma set_silent_other d t v t' : t' <> t -> silent (set_version t v d) t' -> silent d t'.
Proof.
  unfold silent. cbn. intros N K I. apply K. right. apply in_map_iff in I as [p [E I]].
  apply in_map_iff. exists p. split; [exact E|]. apply filter_In. split; [exact I|].
  rewrite E. destruct (String.eqb_spec (type_name t') (type_name t)) as [E'|]; [|easy].
  now apply type_name_inj in E'.
Qed.
Lemma says_unique d t a b : says d t a -> says d t b -> a = b.
Proof.
  intros [D I] [_ J]. pose proof (find_key _ _ _ D I) as F. rewrite (find_key _ _ _ D J) in F. congruence.
Qed.

Section S.
Context (content_id : bytes -> bytes).

(** The ephemeral store. *)
Lemma find_erow_some id l r : find_erow id l = Some r -> In r l /\ e_id r = id.
Proof. unfold find_erow. intros K. apply find_some in K as [I E]. now apply beqb_spec in E. Qed.
Lemma find_erow_app id l r : find_erow id (l ++ [r]) =
  match find_erow id l with Some x => Some x | None => if beqb (e_id r) id then Some r else None end.
Proof. unfold find_erow. induction l as [|a l IH]; cbn; [reflexivity|]. now destruct (beqb (e_id a) id). Qed.
Lemma find_erow_filter id i l : find_erow id (filter (fun r => negb (beqb (e_id r) i)) l) =
  if beqb id i then None else find_erow id l.
Proof.
  unfold find_erow. induction l as [|a l IH]; cbn; [now destruct (beqb id i)|].
  destruct (beqb (e_id a) i) eqn:E; cbn.
  - rewrite IH. apply beqb_spec in E. destruct (beqb id i) eqn:F; [reflexivity|].
    destruct (beqb (e_id a) id) eqn:G; [|reflexivity]. apply beqb_spec in G.
    rewrite <- G, E in F. assert (beqb i i = true) by now apply beqb_spec. congruence.
  - destruct (beqb (e_id a) id) eqn:G.
    + apply beqb_spec in G. destruct (beqb id i) eqn:F; [|reflexivity]. apply beqb_spec in F.
      rewrite G, F in E. assert (beqb i i = true) by now apply beqb_spec. congruence.
    + exact IH.
Qed.
Definition e_ok (r : erow) : Prop := e_id r = content_id (e_key r) /\ e_size r = content_size (e_id r) (e_key r) (e_value r).
Definition e_sum (l : list erow) : N := fold_right (fun r a => e_size r + a) 0 l.
Record e_inv (s : estore) (m : bytes -> content) : Prop := {
  ei_nodup : NoDup (map e_id (e_rows s));
  ei_ok : Forall e_ok (e_rows s);
  ei_map : forall id, option_map (fun r => (e_key r, e_value r)) (find_erow id (e_rows s)) = m id;
  ei_count : blen (e_rows s) <= entry_count (e_stats s);
  ei_size : e_sum (e_rows s) <= total_size (e_stats s)
}.
Lemma e_sum_app l r : e_sum (l ++ [r]) = e_sum l + e_size r.
Proof. unfold e_sum. induction l as [|a l IH]; cbn; [lia|]. rewrite IH. lia. Qed.
Lemma blen_app1 {A} (l : list A) x : blen (l ++ [x]) = blen l + 1.
Proof. unfold blen. rewrite app_length. cbn. lia. Qed.
Lemma find_erow_none id l : find_erow id l = None -> ~ In id (map e_id l).
Proof.
  intros K I. apply in_map_iff in I as [r [E I]]. unfold find_erow in K.
  apply (find_none _ _ K) in I. subst id. assert (beqb (e_id r) (e_id r) = true) by now apply beqb_spec. congruence.
Qed.
Lemma filter_one id l r : NoDup (map e_id l) -> find_erow id l = Some r ->
  blen l = blen (filter (fun r => negb (beqb (e_id r) id)) l) + 1 /\
  e_sum l = e_sum (filter (fun r => negb (beqb (e_id r) id)) l) + e_size r.
Proof.
  unfold find_erow. induction l as [|a l IH]; [easy|]. cbn. intros D. inversion D as [|? ? NI D']; subst.
  destruct (beqb (e_id a) id) eqn:E; cbn.
  - intros [= ->]. apply beqb_spec in E. subst id.
    assert (filter (fun x => negb (beqb (e_id x) (e_id r))) l = l) as ->.
    { apply filter_all. intros x I. destruct (beqb (e_id x) (e_id r)) eqn:F; [|reflexivity].
      apply beqb_spec in F. exfalso. apply NI. rewrite <- F. now apply in_map. }
    unfold blen, e_sum. cbn. lia.
  - intros F. destruct (IH D' F) as [A B]. unfold blen, e_sum in *. cbn. lia.
Qed.
Lemma e_step_inv s m o : e_inv s m -> exists s', e_step content_id s o = Ok s' /\ e_inv s' (remember content_id m o).
Proof.
  intros [D O M C Z]. destruct o as [k v ty slot | id | ]; cbn [e_step remember].
  - unfold e_insert. destruct (N.leb_spec (2 ^ 63) slot) as [L | L].
    + exists s. split; [reflexivity|]. constructor; try assumption. intros id. rewrite M.
      destruct (N.ltb_spec slot (2 ^ 63)); [lia|reflexivity].
    + eexists. split; [reflexivity|]. destruct (N.ltb_spec slot (2 ^ 63)); [|lia]. cbn [andb].
      destruct (find_erow (content_id k) (e_rows s)) as [r|] eqn:F; constructor; cbn [e_rows e_stats on_store entry_count total_size]; try assumption; try lia.
      * intros id. rewrite M. destruct (beqb id (content_id k)) eqn:E; [|reflexivity].
        apply beqb_spec in E. subst id. rewrite <- M, F. reflexivity.
      * rewrite map_app. cbn. apply (Permutation_NoDup (l := content_id k :: map e_id (e_rows s))).
        { apply Permutation_cons_append. }
        constructor; [now apply (find_erow_none _ _ F)|exact D].
      * apply Forall_app. split; [exact O|]. constructor; [|constructor]. split; reflexivity.
      * intros id. rewrite find_erow_app, <- M. cbn [e_id].
        destruct (beqb id (content_id k)) eqn:E.
        -- apply beqb_spec in E. subst id. rewrite F. assert (beqb (content_id k) (content_id k) = true) as -> by now apply beqb_spec.
           reflexivity.
        -- destruct (find_erow id (e_rows s)); [reflexivity|].
           destruct (beqb (content_id k) id) eqn:E'; [|reflexivity]. apply beqb_spec in E'. subst id.
           assert (beqb (content_id k) (content_id k) = true) by now apply beqb_spec. congruence.
      * rewrite blen_app1. lia.
      * rewrite e_sum_app. cbn [e_size]. lia.
  - unfold e_delete. destruct (find_erow id (e_rows s)) as [r|] eqn:F.
    + destruct (filter_one _ _ _ D F) as [A B]. unfold on_multi_delete.
      destruct (N.leb_spec 1 (entry_count (e_stats s))); [|lia].
      destruct (N.leb_spec (e_size r) (total_size (e_stats s))); [|lia]. cbn [andb].
      eexists. split; [reflexivity|]. constructor; cbn [e_rows e_stats entry_count total_size]; try lia.
      * clear - D. induction (e_rows s) as [|a l IH]; [constructor|]. cbn in *. inversion D as [|? ? NI D']; subst.
        destruct (negb _); cbn; [|now apply IH]. constructor; [|now apply IH].
        intros I. apply NI. apply in_map_iff in I as [x [E I]]. apply filter_In in I as [I _]. apply in_map_iff. now exists x.
      * rewrite Forall_forall in *. intros x I. apply filter_In in I as [I _]. now apply O.
      * intros i. rewrite find_erow_filter, <- M. now destruct (beqb i id).
    + exists s. split; [reflexivity|]. constructor; try assumption. intros i. rewrite M.
      destruct (beqb i id) eqn:E; [|reflexivity]. apply beqb_spec in E. subst i. rewrite <- M, F. reflexivity.
  - exists (e_create (e_rows s)). split; [reflexivity|]. constructor; cbn; try assumption; unfold e_usage, e_sum; cbn; lia.
Qed.
End S.

Section W.
Context (content_id : bytes -> bytes).

(** Rows only come from inserts. *)
Lemma delete_farthest_sub tie n l r : In r (snd (sql_delete_farthest tie n l)) -> In r l.
Proof. unfold sql_delete_farthest. cbn. intros I. now apply filter_In in I as [I _]. Qed.
Lemma prune_loop_sub c ties durs r : forall fuel i s, In r (l_rows (fst (prune_loop fuel c ties durs i s))) -> In r (l_rows s).
Proof.
  induction fuel as [|fuel IH]; intros i s; cbn [prune_loop]; [auto|].
  destruct (should_prune c (l_stats s)); [|auto].
  destruct (pruning_count _ _ _ =? 0); [auto|].
  destruct (sql_delete_farthest (ties i) _ (l_rows s)) as [del kept] eqn:E.
  assert (K : In r kept -> In r (l_rows s)).
  { intros I. apply (delete_farthest_sub (ties i) (pruning_count c (l_mpc s) (l_stats s))). now rewrite E. }
  destruct (negb (blen del =? _)); [cbn; auto|].
  destruct (on_multi_delete _ _ _); [|auto]. intros I. apply IH in I. cbn in I. auto.
Qed.
Lemma prune_sub ties durs s r : In r (rows (fst (prune ties durs s))) -> In r (rows s).
Proof.
  unfold prune. destruct (negb _); [auto|]. destruct (prune_loop _ _ _ _ _ _) as [l b] eqn:E. cbn.
  intros I. pose proof (prune_loop_sub (cfg s) ties durs r (length (rows s) + 2) 1
    (mk_loop (rows s) (max_pruning_count s) (stats s) [])) as K. rewrite E in K. auto.
Qed.
Definition of_put (k v : bytes) (r : row) : Prop := r_key r = k /\ r_value r = v.
Lemma sql_insert_sub c k v l r : In r (sql_insert (new_row content_id c k v) l) -> In r l \/ of_put k v r.
Proof.
  unfold sql_insert. destruct (find_row _ l); [auto|]. rewrite in_app_iff. intros [I | [<- | []]]; [auto|].
  right. split; reflexivity.
Qed.
Lemma insert_sub ties durs k v s r : In r (rows (fst (insert content_id ties durs k v s))) -> In r (rows s) \/ of_put k v r.
Proof.
  unfold insert. destruct (radius s <? _); [auto|]. destruct (should_prune _ _).
  - destruct (prune _ _ _) as [s2 dr] eqn:E. cbn. intros I.
    apply (sql_insert_sub (cfg s)). 
    match type of E with prune ?t ?d ?x = _ => pose proof (prune_sub t d x r) as K end. rewrite E in K. cbn in K. auto.
  - cbn. apply sql_insert_sub.
Qed.
Lemma create_sub c ties durs l r : In r (snd (Store_Model.create c ties durs l)) -> In r l.
Proof.
  unfold Store_Model.create.
  match goal with |- In r (snd (match sql_farthest _ (rows ?s) with _ => _ end)) -> _ => set (s1 := s) end.
  assert (K : In r (rows s1) -> In r l).
  { unfold s1. clear s1. destruct (should_prune _ _); [apply prune_sub|].
    destruct (above_target _ _); [auto|]. destruct (capacity c =? 0); auto. }
  clearbody s1. destruct (sql_farthest _ _) as [f|]; [destruct (_ =? _)|]; exact K.
Qed.
Lemma create_rows c ties durs l s : fst (Store_Model.create c ties durs l) = Ok s -> rows s = snd (Store_Model.create c ties durs l).
Proof.
  unfold Store_Model.create.
  match goal with |- fst (match sql_farthest _ (rows ?s) with _ => _ end) = _ -> _ => set (s1 := s) end.
  clearbody s1. destruct (sql_farthest _ _) as [f|]; [destruct (_ =? _)|]; cbn [fst snd]; intros K; congruence.
Qed.
Lemma crashed_rows_sub ties durs k v n s r : In r (crashed_rows content_id ties durs k v n s) -> In r (rows s) \/ of_put k v r.
Proof.
  unfold crashed_rows. destruct (radius s <? _); [auto|]. intros I. apply prune_loop_sub in I. cbn in I.
  now apply (sql_insert_sub (cfg s)).
Qed.
Lemma store_step_sub s o s' r : Store_Model.step content_id s o = Some s' -> In r (rows s') ->
  In r (rows s) \/
  match o with OInsert _ _ k v | OCrash _ _ k v _ _ _ _ => of_put k v r | _ => False end.
Proof.
  destruct o as [ties durs k v | id | c ties durs | ties durs k v n c ties' durs']; cbn [Store_Model.step].
  - intros [= <-]. apply insert_sub.
  - unfold delete. destruct (find_row id (rows s)) as [x|]; [|intros [= <-]; auto].
    destruct (on_multi_delete _ _ _); [|discriminate]. intros [= <-]. cbn. unfold sql_delete.
    intros I. apply filter_In in I as [I _]. auto.
  - destruct (fst _) as [s1| |] eqn:E; try discriminate. intros [= <-] I. left.
    rewrite (create_rows _ _ _ _ _ E) in I. now apply create_sub in I.
  - destruct (fst _) as [s1| |] eqn:E; try discriminate. intros [= <-] I.
    rewrite (create_rows _ _ _ _ _ E) in I. apply create_sub in I. now apply crashed_rows_sub in I.
Qed.
Lemma e_step_sub s o s' r : e_step content_id s o = Ok s' -> In r (e_rows s') ->
  In r (e_rows s) \/ match o with EInsert k v _ _ => e_key r = k /\ e_value r = v | _ => False end.
Proof.
  destruct o as [k v ty slot | id | ]; cbn [e_step].
  - unfold e_insert. destruct (2 ^ 63 <=? slot); [intros [= <-]; auto|].
    destruct (find_erow _ _); intros [= <-]; cbn [e_rows]; [auto|]. rewrite in_app_iff. intros [I | [<- | []]]; auto.
  - unfold e_delete. destruct (find_erow _ _) as [x|]; [|intros [= <-]; auto].
    destruct (on_multi_delete _ _ _); [|discriminate]. intros [= <-]. cbn [e_rows]. intros I. apply filter_In in I as [I _]. auto.
  - intros [= <-]. cbn. auto.
Qed.

Definition handle_version (h : handle) : version :=
  match h with HMock => MockContentStore | HEphemeral _ => EphemeralV1 | HIndexed _ => IdIndexedV1 end.
Definition on_disk (t : content_type) (h : handle) (d : db) : Prop :=
  match h with
  | HMock => True
  | HEphemeral s => e_rows s = eph d (eph_table t)
  | HIndexed s => rows s = idx d (idx_table t)
  end.
Record d_inv (l : list event) (d : db) : Prop := {
  di_nodup : NoDup (map fst (info d));
  di_eph : forall t r, In r (eph d (eph_table t)) -> says d t (version_name EphemeralV1) /\ put_ephemeral t (e_key r) (e_value r) l;
  di_idx : forall t r, In r (idx d (idx_table t)) -> says d t (version_name IdIndexedV1) /\ put_indexed t (r_key r) (r_value r) l
}.
Definition w_inv (l : list event) (w : world) : Prop :=
  d_inv l (disk w) /\
  forall t h, opened t w = Some h -> says (disk w) t (version_name (handle_version h)) /\ on_disk t h (disk w).

Lemma put_e_mono t k v l e : put_ephemeral t k v l -> put_ephemeral t k v (l ++ [e]).
Proof. intros (a & b & I). exists a, b. apply in_or_app. auto. Qed.
Lemma put_i_mono t k v l e : put_indexed t k v l -> put_indexed t k v (l ++ [e]).
Proof.
  intros [(a & b & I) | (a & b & c & d & x & y & I)]; [left; exists a, b | right; exists a, b, c, d, x, y]; apply in_or_app; auto.
Qed.
Lemma d_inv_mono l e d : d_inv l d -> d_inv (l ++ [e]) d.
Proof.
  intros [D E I]. constructor; [exact D| |].
  - intros t r J. destruct (E t r J). split; [assumption|now apply put_e_mono].
  - intros t r J. destruct (I t r J). split; [assumption|now apply put_i_mono].
Qed.
Lemma d_inv_set l d t v : d_inv l d -> silent d t -> d_inv l (set_version t v d).
Proof.
  intros [D E I] Q. constructor.
  - apply (set_says d t v D).
  - intros t' r J. destruct (E t' r J) as [A B]. split; [|exact B]. apply set_says_other; [|exact A].
    intros ->. apply Q. destruct A as [_ A]. apply (in_map fst) in A. exact A.
  - intros t' r J. destruct (I t' r J) as [A B]. split; [|exact B]. apply set_says_other; [|exact A].
    intros ->. apply Q. destruct A as [_ A]. apply (in_map fst) in A. exact A.
Qed.
Lemma says_info d d' t n : info d' = info d -> says d t n -> says d' t n.
Proof. unfold says. now intros ->. Qed.
Lemma opened_add t h l d t' : opened t' (mk_world d ((t, h) :: l)) =
  if same_type t t' then Some h else opened t' (mk_world d l).
Proof. unfold opened. cbn. now destruct (same_type t t'). Qed.
Lemma opened_replace t h w t' : opened t' (replace t h w) = if same_type t t' then Some h else opened t' w.
Proof.
  unfold replace. rewrite opened_add. destruct (same_type t t') eqn:E; [reflexivity|].
  unfold opened. cbn. f_equal. induction (Versioned_Model.open w) as [|[a b] l IH]; [reflexivity|]. cbn.
  destruct (same_type a t) eqn:F; cbn.
  - apply same_type_iff in F. subst a. rewrite E. exact IH.
  - destruct (same_type a t'); [reflexivity|exact IH].
Qed.
Lemma same_type_refl t : same_type t t = true.
Proof. now apply same_type_iff. Qed.

Lemma create_version_inv l o t d r d' : d_inv l d -> says d t (version_name (opening_version o)) ->
  create_version o t d = (r, d') ->
  d_inv l d' /\ info d' = info d /\
  (forall t' h, t' <> t -> on_disk t' h d -> on_disk t' h d') /\
  forall h, r = Ok h -> handle_version h = opening_version o /\ on_disk t h d'.
Proof.
  intros J S. destruct o as [| | c ties durs]; cbn [create_version].
  - intros [= <- <-]. split; [exact J|]. split; [reflexivity|]. split; [auto|]. intros h [= <-]. now split.
  - intros [= <- <-]. split; [exact J|]. split; [reflexivity|]. split; [auto|]. intros h [= <-]. now split.
  - destruct (Store_Model.create c ties durs (idx d (idx_table t))) as [res rws] eqn:E. intros [= <- <-].
    assert (U : forall x, In x rws -> In x (idx d (idx_table t))).
    { intros x I. apply (create_sub c ties durs). now rewrite E. }
    split; [|split; [reflexivity|split]].
    + destruct J as [D P Q]. constructor; [exact D| |].
      * intros t' x I. exact (P t' x I).
      * intros t' x I. cbn in I. apply (Q t' x). unfold set in I.
        destruct (String.eqb_spec (idx_table t') (idx_table t)) as [K|]; [|exact I].
        rewrite K. auto.
    + intros t' h N. destruct h as [| s | s]; cbn; [auto|auto|]. intros ->. symmetry. apply set_other.
      intros K. apply N. now apply idx_table_inj.
    + intros h K. destruct res as [s| |]; try discriminate. injection K as <-. split; [reflexivity|].
      cbn. rewrite set_same. rewrite (create_rows c ties durs (idx d (idx_table t)) s); now rewrite E.
Qed.
Lemma create_store_inv l o t d r d' : d_inv l d -> create_store o t d = (r, d') ->
  d_inv l d' /\
  (forall t' n, t' <> t -> says d t' n -> says d' t' n) /\
  (forall t' h, t' <> t -> on_disk t' h d -> on_disk t' h d') /\
  forall h, r = Ok h -> says d' t (version_name (handle_version h)) /\ on_disk t h d'.
Proof.
  intros J. unfold create_store. destruct (get_version t d) as [[old|]| |] eqn:G.
  - destruct (same_version (opening_version o) old) eqn:V.
    + apply same_version_iff in V. subst old. pose proof (get_says_inv _ _ _ (di_nodup _ _ J) G) as S. intros C.
      destruct (create_version_inv _ _ _ _ _ _ J S C) as (A & B & X & Y). split; [exact A|]. split; [|split; [exact X|]].
      * intros t' n _. now apply says_info.
      * intros h K. destruct (Y h K) as [-> Z]. split; [|exact Z]. now apply (says_info d).
    + cbn. intros [= <- <-]. split; [exact J|]. split; [auto|]. split; [auto|]. discriminate.
  - apply get_silent in G. intros C.
    pose proof (d_inv_set _ _ t (opening_version o) J G) as J'.
    pose proof (set_says d t (opening_version o) (di_nodup _ _ J)) as S.
    destruct (create_version_inv _ _ _ _ _ _ J' S C) as (A & B & X & Y). split; [exact A|]. split; [|split].
    * intros t' n N K. apply (says_info (set_version t (opening_version o) d)); [exact B|]. now apply set_says_other.
    * intros t' h N K. apply X; [exact N|]. destruct h; exact K.
    * intros h K. destruct (Y h K) as [-> Z]. split; [|exact Z]. now apply (says_info (set_version t (opening_version o) d)).
  - intros [= <- <-]. split; [exact J|]. split; [auto|]. split; [auto|]. discriminate.
  - intros [= <- <-]. split; [exact J|]. split; [auto|]. split; [auto|]. discriminate.
Qed.

Lemma v_step_inv l w e : w_inv l w -> w_inv (l ++ [e]) (v_step content_id w e).
Proof.
  intros [J H]. apply (d_inv_mono _ e) in J.
  assert (K0 : w_inv (l ++ [e]) w) by now split.
  destruct e as [t o | t o | t o | | t o before]; cbn [v_step].
  - destruct (opened t w) as [h|] eqn:O; [exact K0|].
    destruct (create_store o t (disk w)) as [r d] eqn:C.
    destruct (create_store_inv _ _ _ _ _ _ J C) as (A & B & X & Y).
    assert (Z : forall t' h, opened t' w = Some h -> says d t' (version_name (handle_version h)) /\ on_disk t' h d).
    { intros t' h P. assert (t' <> t) by congruence. destruct (H t' h P). split; auto. }
    destruct r as [h| |]; (split; [exact A|]); try exact Z.
    intros t' h' P. rewrite opened_add in P. destruct (same_type t t') eqn:S; [|now apply Z].
    apply same_type_iff in S. subst t'. injection P as <-. now apply Y.
  - destruct (opened t w) as [[| s | s]|] eqn:O; try exact K0.
    destruct (e_step content_id s o) as [s'| |] eqn:S; try exact K0.
    destruct (H t _ O) as [V W]. cbn in V, W. split.
    + destruct J as [D P Q]. constructor; [exact D| |exact Q].
      intros t' r I. cbn in I. unfold set in I. destruct (String.eqb_spec (eph_table t') (eph_table t)) as [E|]; [|exact (P t' r I)].
      apply eph_table_inj in E. subst t'. destruct (e_step_sub _ _ _ _ S I) as [I' | I'].
      * rewrite W in I'. exact (P t r I').
      * destruct o as [k v ty slot | |]; try contradiction. destruct I' as [<- <-]. split; [exact V|].
        exists ty, slot. apply in_or_app. right. now left.
    + intros t' h P. rewrite opened_replace in P. destruct (same_type t t') eqn:E.
      * apply same_type_iff in E. subst t'. injection P as <-. split; [exact V|]. cbn. now rewrite set_same.
      * destruct (H t' h P) as [A B]. split; [exact A|]. destruct h as [| x | x]; cbn in *; auto.
        rewrite B. symmetry. apply set_other. intros N. apply eph_table_inj in N. subst. now rewrite same_type_refl in E.
  - destruct (opened t w) as [[| s | s]|] eqn:O; try exact K0.
    destruct (Store_Model.step content_id s o) as [s'|] eqn:S; try exact K0.
    destruct (H t _ O) as [V W]. cbn in V, W. split.
    + destruct J as [D P Q]. constructor; [exact D|exact P|].
      intros t' r I. cbn in I. unfold set in I. destruct (String.eqb_spec (idx_table t') (idx_table t)) as [E|]; [|exact (Q t' r I)].
      apply idx_table_inj in E. subst t'. destruct (store_step_sub _ _ _ _ S I) as [I' | I'].
      * rewrite W in I'. exact (Q t r I').
      * split; [exact V|]. destruct o as [ties durs k v | | | ties durs k v n c ties' durs']; try contradiction; destruct I' as [-> ->].
        -- left. exists ties, durs. apply in_or_app. right. now left.
        -- right. exists ties, durs, n, c, ties', durs'. apply in_or_app. right. now left.
    + intros t' h P. rewrite opened_replace in P. destruct (same_type t t') eqn:E.
      * apply same_type_iff in E. subst t'. injection P as <-. split; [exact V|]. cbn. now rewrite set_same.
      * destruct (H t' h P) as [A B]. split; [exact A|]. destruct h as [| x | x]; cbn in *; auto.
        rewrite B. symmetry. apply set_other. intros N. apply idx_table_inj in N. subst. now rewrite same_type_refl in E.
  - split; [exact J|]. discriminate.
  - destruct (opened t w) as [h|] eqn:O; [exact K0|]. split; [|discriminate]. cbn. unfold create_store_died.
    destruct (get_version t (disk w)) as [[v|]| |] eqn:G; try exact J. destruct before; [exact J|].
    apply get_silent in G. now apply d_inv_set.
Qed.
Lemma v_run_inv l : w_inv l (v_run content_id (mk_world empty_db []) l).
Proof.
  unfold v_run. induction l as [|e l IH] using rev_ind.
  - split; [|discriminate]. constructor; [constructor| |]; intros t r [].
  - rewrite fold_left_app. cbn. now apply v_step_inv.
Qed.
End W.
