(** C110: the trace of a lookup says what happened. *)
From Verif Require Import Base Distance_Model Distance_Spec Distance_Proofs Trace_Model Trace_Spec Trace_Proofs.

(** All sequences of calls on a new trace *)
Definition traced (local : enr) (target : bytes) (t0 : N) (calls : list call) : trace := fold_left do_call calls (new_trace local target t0).

(** The source of the content is the first that was reported *)
Theorem C110_source : forall local target t0 calls n,
  received_from (traced local target t0 calls) = Some n <-> exists before after, calls = before ++ Validated n :: after /\ forall m, ~ In (Validated m) before.
Proof. intros. apply received_run. reflexivity. Qed.
(** The trace knows about a node exactly if the node answered or was named *)
Theorem C110_nodes : forall local target t0 calls n,
  (exists i, metadata (traced local target t0 calls) n = Some i) <-> exists c e b, In c calls /\ seen e b c /\ id e = n.
Proof.
  intros. unfold traced. change (fold_left do_call calls ?t) with (run t calls). rewrite metadata_run.
  pose proof (info_fold (new_trace local target t0) (flat_map sight calls) n eq_refl) as H. destruct (metadata _ n) as [i|].
  - split; [intros _|eauto]. destruct H as (_ & Id & (b & I) & _). apply in_sights in I as (c & I & Sn). eauto 6.
  - split; [intros [i E]; discriminate E|]. intros (c & e & b & I & Sn & Id). destruct (H e b); [|exact Id]. apply in_sights. eauto.
Qed.
(** What it says about a node: a record that was seen, none newer; if the node itself sent one as new, the last of these *)
Theorem C110_records : forall local target t0 calls n i,
  metadata (traced local target t0 calls) n = Some i ->
  let e := n_enr i in
  id e = n /\ (exists c b, In c calls /\ seen e b c) /\
  (forall c e' b, In c calls -> seen e' b c -> id e' = n -> seq e' <= seq e) /\
  ((exists c e', In c calls /\ seen e' true c /\ id e' = n /\ seq e' = seq e) ->
   exists before c after, calls = before ++ c :: after /\ seen e true c /\ forall c' e', In c' after -> seen e' true c' -> id e' = n -> seq e' < seq e) /\
  (id32 n -> id32 target -> length (n_distance i) = 32%nat /\ be_num (n_distance i) = N.lxor (be_num n) (be_num target)).
Proof.
  intros local target t0 calls n i. unfold traced. change (fold_left do_call calls ?t) with (run t calls). rewrite metadata_run.
  pose proof (info_fold (new_trace local target t0) (flat_map sight calls) n eq_refl) as H. intros E. rewrite E in H. cbn [target_id new_trace] in H. clear E.
  destruct H as (Gi & Id & (b & I) & Mx & La). cbn zeta. split; [exact Id|]. split; [apply in_sights in I as (c & I & Sn); eauto|].
  split; [intros c e' b' Ic Sn; apply (Mx e' b'); apply in_sights; eauto|]. split.
  - intros (c & e' & Ic & Sn & Id' & Sq). destruct La as (S1 & S2 & Sp & F); [exists e'; split; [apply in_sights; eauto|auto]|].
    apply split_sight in Sp as (l1 & c0 & l2 & -> & Sn0 & ->). exists l1, c0, l2. split; [reflexivity|]. split; [exact Sn0|]. intros c' e0 I0 S0. apply F. apply in_sights. eauto.
  - intros In It. rewrite Gi. cbn [n_distance get_metadata]. unfold big_endian. rewrite Id, be_bytes_length. split; [reflexivity|].
    rewrite <- distance_lxor by assumption. apply be_num_be_bytes_id. rewrite pow256_pow2. exact (distance_bound n target In It).
Qed.
(** What a node answered: all that it named since it last sent content, in order, and when it sent the content or first answered *)
Theorem C110_answers : forall local target t0 calls n, t0 < 2 ^ 64 ->
  match responses (traced local target t0 calls) n with
  | None => forall c, In c calls -> (forall names now, ~ answers n c names now) /\ (forall now, ~ sends n c now)
  | Some r => exists before after, calls = before ++ after /\ (forall c now, In c after -> ~ sends n c now) /\ named_by n after (responded_with r) /\
      ((exists l c now, before = l ++ [c] /\ sends n c now /\ duration_ms r = elapsed t0 now) \/
       (before = [] /\ exists a c names now b, after = a ++ c :: b /\ (forall c' names' now', In c' a -> ~ answers n c' names' now') /\ answers n c names now /\ duration_ms r = elapsed t0 now))
  end.
Proof.
  intros local target t0 calls n B. pose proof (responses_run (new_trace local target t0) calls n eq_refl) as H. unfold traced. change (fold_left do_call calls ?t) with (run t calls).
  assert (St : started_at_ms (new_trace local target t0) = t0). { cbn. apply N.min_l. change (2 ^ 64) with 18446744073709551616 in *. lia. } rewrite St in H. clear B.
  destruct (responses _ n) as [r|]; [|rewrite Forall_forall in H; exact H]. destruct H as (l1 & l2 & E & A & Nm & D). exists l1, l2. split; [exact E|]. split; [exact A|]. split; [exact Nm|].
  destruct D as [D | (E1 & a & c & names & now & b & E2 & F & An & D)]; [left; exact D|]. right. split; [exact E1|]. exists a, c, names, now, b. split; [exact E2|].
  split; [|auto]. intros c' names' now' I'. rewrite Forall_forall in F. apply (F c' I').
Qed.
(** The last failure of a node is the one in the trace *)
Theorem C110_failures : forall local target t0 calls n, t0 < 2 ^ 64 ->
  match failures (traced local target t0 calls) n with
  | Some f => exists before now after, calls = before ++ Failed n (f_kind f) now :: after /\ f_duration_ms f = elapsed t0 now /\ forall k now', ~ In (Failed n k now') after
  | None => forall k now, ~ In (Failed n k now) calls
  end.
Proof.
  intros local target t0 calls n B. pose proof (failures_run (new_trace local target t0) calls n eq_refl) as H.
  assert (St : started_at_ms (new_trace local target t0) = t0). { cbn. apply N.min_l. change (2 ^ 64) with 18446744073709551616 in *. lia. } rewrite St in H. exact H.
Qed.

(** ** Lookups *)
Definition looked_up (local : enr) (target : bytes) (peers : list enr) (t0 t1 : N) (hs : list happening) : lookup :=
  fold_left (happen (id local)) hs (new_lookup local target peers t0 t1).
Lemma listed_with t e l now n : listed (node_responded_with t e l now) n = if beqb n (id e) then listed t n ++ map id l else listed t n.
Proof.
  unfold listed. change (node_responded_with t e l now) with (do_call t (Nodes e l now)). rewrite responses_step. destruct (beqb n (id e)); [|reflexivity]. destruct (responses t n); reflexivity.
Qed.
Lemma listed_content t e now n : listed (node_responded_with_content t e now) n = if beqb n (id e) then [] else listed t n.
Proof.
  unfold listed. change (node_responded_with_content t e now) with (do_call t (Content e now)). rewrite responses_step. destruct (beqb n (id e)); reflexivity.
Qed.
Lemma in_not_local local enrs n : In n (map id (filter (fun e => negb (beqb (id e) local)) enrs)) <-> In n (map id enrs) /\ n <> local.
Proof.
  rewrite !in_map_iff. split.
  - intros (x & <- & I). apply filter_In in I as [I B]. split; [eauto|]. intros E. rewrite E, beqb_refl in B. discriminate B.
  - intros [(x & <- & I) Ne]. exists x. split; [reflexivity|]. apply filter_In. split; [exact I|]. destruct (beqb (id x) local) eqn:B; [apply beqb_spec in B; contradiction|reflexivity].
Qed.
(** An answer adds the nodes that the query did not know, each once *)
Theorem C110_answer : forall local s source enrs pending now,
  let s' := happen local s (Answered source enrs pending now) in
  (exists new, listed (tr s') (id source) = listed (tr s) (id source) ++ new /\ NoDup new /\
     forall n, In n new <-> In n (map id enrs) /\ n <> local /\ ~ In n (map id (untrusted s))) /\
  (forall n, n <> id source -> listed (tr s') n = listed (tr s) n) /\
  (forall n, In n (map id (untrusted s')) <-> In n (map id (untrusted s)) \/ (In n (map id enrs) /\ n <> local)) /\
  cancelled (tr s') = pending.
Proof.
  intros local s source enrs pending now. cbn zeta. cbn [happen]. set (f := filter _ enrs). pose proof (take_new_spec f (untrusted s)) as H. destruct (take_new (untrusted s) f) as [k news].
  destruct H as (-> & ND & Sub & Iff). cbn [tr untrusted]. assert (X : forall n, listed (set_cancelled (node_responded_with (tr s) source news now) pending) n = listed (node_responded_with (tr s) source news now) n) by reflexivity.
  split; [|split; [|split]].
  - exists (map id news). rewrite X, listed_with, beqb_refl. split; [reflexivity|]. split; [exact ND|]. intros n. rewrite Iff. unfold f. rewrite in_not_local. tauto.
  - intros n Ne. rewrite X, listed_with. destruct (beqb n (id source)) eqn:B; [apply beqb_spec in B; contradiction|reflexivity].
  - intros n. rewrite map_app, in_app_iff, Iff. unfold f. rewrite in_not_local. destruct (is_known n (untrusted s)) eqn:K.
    + apply is_known_spec in K. tauto.
    + assert (~ In n (map id (untrusted s))) by (rewrite <- is_known_spec, K; discriminate). tauto.
  - reflexivity.
Qed.
(** In the trace of a lookup every node is listed under one other at most, once *)
Definition tree_inv (s : lookup) : Prop :=
  (forall a n, In n (listed (tr s) a) -> In n (map id (untrusted s))) /\ (forall a, NoDup (listed (tr s) a)) /\
  (forall a b n, In n (listed (tr s) a) -> In n (listed (tr s) b) -> a = b).
Lemma nodup_app {A} (l m : list A) : NoDup l -> NoDup m -> (forall x, In x l -> ~ In x m) -> NoDup (l ++ m).
Proof.
  induction 1 as [|x l Nx _ IH]; intros Nm D; [exact Nm|]. cbn. constructor; [|apply IH; [exact Nm|intros y I; apply D; right; exact I]].
  rewrite in_app_iff. intros [I | I]; [contradiction|]. apply (D x); [left; reflexivity|exact I].
Qed.
Lemma tree_step local s h : tree_inv s -> tree_inv (happen local s h).
Proof.
  intros (A & B & C). destruct h as [source enrs pending now|source now|n k now|peer stopped].
  - pose proof (C110_answer local s source enrs pending now) as H. cbn zeta in H. set (s' := happen local s _) in *. destruct H as ((new & L & ND & Iff) & Oth & Unt & _).
    assert (Q : forall a n, In n (listed (tr s') a) -> In n (listed (tr s) a) \/ (a = id source /\ In n new)).
    { intros a n I. destruct (beqb a (id source)) eqn:E; [apply beqb_spec in E; subst a; rewrite L in I; apply in_app_iff in I as [I | I]; auto|]. rewrite Oth in I; [auto|]. intros ->. rewrite beqb_refl in E. discriminate. }
    split; [|split].
    + intros a n I. apply Unt. destruct (Q a n I) as [I' | [-> I']]; [left; exact (A a n I')|]. apply Iff in I'. tauto.
    + intros a. destruct (beqb a (id source)) eqn:E; [apply beqb_spec in E; subst a; rewrite L|rewrite Oth; [apply B|intros ->; rewrite beqb_refl in E; discriminate]].
      apply nodup_app; [apply B|exact ND|]. intros x I J. apply Iff in J as (_ & _ & J). exact (J (A _ _ I)).
    + intros a b n Ia Ib. destruct (Q a n Ia) as [Ja | [-> Ja]], (Q b n Ib) as [Jb | [-> Jb]]; [exact (C _ _ _ Ja Jb)| | |reflexivity].
      * apply Iff in Jb as (_ & _ & Jb). destruct (Jb (A _ _ Ja)).
      * apply Iff in Ja as (_ & _ & Ja). destruct (Ja (A _ _ Jb)).
  - assert (Q : forall a, listed (tr (happen local s (Sent source now))) a = [] \/ listed (tr (happen local s (Sent source now))) a = listed (tr s) a).
    { intros a. cbn [happen tr]. rewrite listed_content. destruct (beqb a (id source)); auto. }
    split; [|split]; [intros a n|intros a|intros a b n].
    + destruct (Q a) as [-> | ->]; [intros []|apply A].
    + destruct (Q a) as [-> | ->]; [constructor|apply B].
    + destruct (Q a) as [-> | ->]; [intros []|]. destruct (Q b) as [-> | ->]; [intros _ []|apply C].
  - exact (conj A (conj B C)).
  - exact (conj A (conj B C)).
Qed.
Lemma tree_start local target peers t0 t1 : NoDup (map id peers) -> tree_inv (new_lookup local target peers t0 t1).
Proof.
  intros ND. assert (Q : forall a, listed (tr (new_lookup local target peers t0 t1)) a = if beqb a (id local) then map id peers else []).
  { intros a. cbn [new_lookup tr]. rewrite listed_with. destruct (beqb a (id local)); reflexivity. }
  split; [|split]; [intros a n|intros a|intros a b n]; rewrite ?Q.
  - destruct (beqb a (id local)); [auto|intros []].
  - destruct (beqb a (id local)); [exact ND|constructor].
  - destruct (beqb a (id local)) eqn:Ea; [|intros []]. destruct (beqb b (id local)) eqn:Eb; [|intros _ []]. apply beqb_spec in Ea, Eb. congruence.
Qed.
Lemma fold_inv {S O} (f : S -> O -> S) (P : S -> Prop) : (forall s o, P s -> P (f s o)) -> forall l s, P s -> P (fold_left f l s).
Proof. intros H. induction l as [|o l IH]; intros s Ps; [exact Ps|]. cbn. apply IH, H, Ps. Qed.
Theorem C110_once : forall local target peers t0 t1 hs, NoDup (map id peers) ->
  let t := tr (looked_up local target peers t0 t1 hs) in
  (forall a, NoDup (listed t a)) /\ (forall a b n, In n (listed t a) -> In n (listed t b) -> a = b).
Proof. intros local target peers t0 t1 hs ND. apply (fold_inv (happen (id local)) tree_inv (tree_step (id local)) hs _ (tree_start local target peers t0 t1 ND)). Qed.
(** As long as no node sends content, every node that the query knows is listed *)
Theorem C110_all : forall local target peers t0 t1 hs, (forall source now, ~ In (Sent source now) hs) ->
  let s := looked_up local target peers t0 t1 hs in
  forall n, In n (map id (untrusted s)) <-> exists a, In n (listed (tr s) a).
Proof.
  intros local target peers t0 t1 hs. induction hs as [|h hs IH] using rev_ind; intros NS; cbn zeta; intros n.
  - unfold looked_up. cbn [fold_left new_lookup untrusted tr]. split; [intros I; exists (id local); rewrite listed_with, beqb_refl; exact I|].
    intros [a I]. rewrite listed_with in I. destruct (beqb a (id local)); [exact I|destruct I].
  - assert (NS' : forall source now, ~ In (Sent source now) hs) by (intros x y I; apply (NS x y), in_or_app; left; exact I). specialize (IH NS'). cbn zeta in IH. unfold looked_up in *. rewrite fold_left_app. cbn [fold_left].
    set (s := fold_left (happen (id local)) hs _) in *. destruct h as [source enrs pending now|source now|m k now|peer stopped].
    + pose proof (C110_answer (id local) s source enrs pending now) as H. cbn zeta in H. set (s' := happen (id local) s _) in *. destruct H as ((new & L & ND & Iff) & Oth & Unt & _).
      rewrite Unt, IH. split.
      * intros [[a I] | [I Nl]].
        -- exists a. destruct (beqb a (id source)) eqn:E; [apply beqb_spec in E; subst a; rewrite L; apply in_or_app; auto|]. rewrite Oth; [exact I|]. intros ->. rewrite beqb_refl in E. discriminate.
        -- destruct (is_known n (untrusted s)) eqn:K.
           ++ apply is_known_spec, IH in K as [a J]. exists a. destruct (beqb a (id source)) eqn:E; [apply beqb_spec in E; subst a; rewrite L; apply in_or_app; auto|]. rewrite Oth; [exact J|]. intros ->. rewrite beqb_refl in E. discriminate.
           ++ exists (id source). rewrite L. apply in_or_app. right. apply Iff. split; [exact I|]. split; [exact Nl|]. rewrite <- is_known_spec, K. discriminate.
      * intros [a I]. destruct (beqb a (id source)) eqn:E.
        -- apply beqb_spec in E. subst a. rewrite L in I. apply in_app_iff in I as [I | I]; [left; eauto|]. apply Iff in I. tauto.
        -- rewrite Oth in I; [eauto|]. intros ->. rewrite beqb_refl in E. discriminate.
    + exfalso. apply (NS source now). apply in_or_app. right. left. reflexivity.
    + exact (IH n).
    + exact (IH n).
Qed.
(** The content came from the node that the query ended with first; before that the trace names no source *)
Theorem C110_found : forall local target peers t0 t1 hs p,
  received_from (tr (looked_up local target peers t0 t1 hs)) = Some p <-> exists before stopped after, hs = before ++ Ended p stopped :: after /\ forall q st, ~ In (Ended q st) before.
Proof.
  intros local target peers t0 t1 hs. assert (St : forall s h, received_from (tr (happen (id local) s h)) = match received_from (tr s), h with None, Ended q _ => Some q | x, _ => x end).
  { intros s h. destruct h as [source enrs pending now|source now|m k now|peer stopped].
    - cbn [happen]. destruct (take_new _ _) as [k news]. cbn [tr set_cancelled received_from]. change (node_responded_with (tr s) source news now) with (do_call (tr s) (Nodes source news now)). rewrite received_step. destruct (received_from (tr s)); reflexivity.
    - cbn. destruct (received_from (tr s)); reflexivity.
    - cbn. destruct (received_from (tr s)); reflexivity.
    - cbn. destruct (received_from (tr s)); reflexivity. }
  assert (G : match received_from (tr (looked_up local target peers t0 t1 hs)) with
    | Some p => exists before stopped after, hs = before ++ Ended p stopped :: after /\ forall q st, ~ In (Ended q st) before
    | None => forall q st, ~ In (Ended q st) hs end).
  { induction hs as [|h hs IH] using rev_ind.
    - unfold looked_up. cbn [fold_left new_lookup tr]. change (node_responded_with ?t local peers t1) with (do_call t (Nodes local peers t1)). rewrite received_step. cbn. intros q st [].
    - unfold looked_up in *. rewrite fold_left_app. cbn [fold_left]. rewrite St. destruct (received_from _) as [q|].
      + destruct IH as (b & st & a & -> & F). exists b, st, (a ++ [h]). rewrite <- app_assoc. auto.
      + destruct h as [source enrs pending now|source now|m k now|peer stopped]; try (intros q st I; apply in_app_iff in I as [I | [I | []]]; [exact (IH _ _ I)|discriminate I]).
        exists hs, stopped, []. auto. }
  intros p. split; [intros E; rewrite E in G; exact G|]. intros (b & st & a & E & F). destruct (received_from _) as [p'|].
  - destruct G as (b' & st' & a' & E' & F'). f_equal. rewrite E in E'. clear E. revert b' E' F'. induction b as [|x b IH]; intros [|y b'] E' F'.
    + injection E' as -> _ _. reflexivity.
    + injection E' as <- _. destruct (F' p st). left. reflexivity.
    + injection E' as -> _. destruct (F p' st'). left. reflexivity.
    + injection E' as -> E'. apply (IH (fun q s I => F q s (or_intror I)) b' E'). intros q s I. apply (F' q s). right. exact I.
  - destruct (G p st). rewrite E. apply in_or_app. right. left. reflexivity.
Qed.
(** Content that the node has itself *)
Theorem C110_local : forall local target t0 now, let t := local_trace local target t0 now in
  received_from t = Some (id local) /\ origin t = id local /\ target_id t = target /\ listed t (id local) = [] /\ cancelled t = [] /\
  (forall n, (exists i, metadata t n = Some i) <-> n = id local) /\ (forall n, n <> id local -> responses t n = None) /\ (forall n, failures t n = None).
Proof.
  intros local target t0 now. cbn zeta. unfold local_trace. split; [reflexivity|]. split; [reflexivity|]. split; [reflexivity|].
  split; [unfold listed; cbn; unfold insert; rewrite beqb_refl; reflexivity|]. split; [reflexivity|]. split; [|split; [|reflexivity]].
  - intros n. cbn. unfold insert, none. destruct (beqb n (id local)) eqn:E; [apply beqb_spec in E; split; [auto|eauto]|]. split; [intros [i X]; discriminate X|]. intros ->. rewrite beqb_refl in E. discriminate.
  - intros n Ne. cbn. unfold insert, none. destruct (beqb n (id local)) eqn:E; [apply beqb_spec in E; contradiction|reflexivity].
Qed.
(** The cancelled nodes are those that were still asked at the last answer or at the end *)
Theorem C110_cancelled : forall local target peers t0 t1 hs, let l := cancelled (tr (looked_up local target peers t0 t1 hs)) in
  (exists before h after, hs = before ++ h :: after /\ left_open h l /\ forall h' l', In h' after -> ~ left_open h' l') \/
  (l = [] /\ forall h l', In h hs -> ~ left_open h l').
Proof.
  intros local target peers t0 t1 hs. cbn zeta. induction hs as [|h hs IH] using rev_ind; [right; split; [|intros h l' []]|].
  { assert (F : forall l t, cancelled (fold_left (fun t x => add_metadata t x false) l t) = cancelled t) by (induction l as [|e l IH]; intros t; [reflexivity|]; cbn [fold_left]; rewrite IH; reflexivity).
    exact (F peers (new_trace local target t0)). }
  unfold looked_up in *. rewrite fold_left_app. cbn [fold_left]. set (s := fold_left (happen (id local)) hs _) in *.
  assert (Q : (exists l', left_open h l') \/ (forall l', ~ left_open h l') /\ cancelled (tr (happen (id local) s h)) = cancelled (tr s)).
  { destruct h as [source enrs pending now|source now|m k now|peer stopped]; [left; eexists; constructor | | |left; eexists; constructor];
      right; (split; [intros l' X; inversion X|]); reflexivity. }
  destruct Q as [(l' & Q)|(Q & E)].
  - left. exists hs, h, []. split; [reflexivity|]. split; [|intros h' l2 []]. inversion Q; subst; cbn [happen]; [|constructor].
    destruct (take_new _ _) as [k news]. constructor.
  - rewrite E. destruct IH as [(b & h0 & a & -> & L & A)|(E0 & A)].
    + left. exists b, h0, (a ++ [h]). rewrite <- app_assoc. split; [reflexivity|]. split; [exact L|]. intros h' l2 I. apply in_app_iff in I as [I|[<-|[]]]; [now apply A|apply Q].
    + right. split; [exact E0|]. intros h' l2 I. apply in_app_iff in I as [I|[<-|[]]]; [now apply A|apply Q].
Qed.
(** Not so: that the trace shows what every node answered.  A node that the query knew is not listed under those who name it later *)
Theorem C110_hidden_refuted : forall local s source enrs pending now n, In n (map id (untrusted s)) -> ~ In n (listed (tr s) (id source)) ->
  ~ In n (listed (tr (happen local s (Answered source enrs pending now))) (id source)).
Proof.
  intros local s source enrs pending now n K Nl. destruct (C110_answer local s source enrs pending now) as ((new & L & _ & Iff) & _). cbn zeta in *. rewrite L. intros I. apply in_app_iff in I as [I | I]; [exact (Nl I)|]. apply Iff in I. tauto.
Qed.
(** ... and what a node named is forgotten when it sends content *)
Theorem C110_forgotten_refuted : forall local s source now,
  listed (tr (happen local s (Sent source now))) (id source) = [] /\ exists r, responses (tr (happen local s (Sent source now))) (id source) = Some r.
Proof. intros. cbn [happen tr]. rewrite listed_content, beqb_refl. split; [reflexivity|]. cbn. unfold insert. rewrite beqb_refl. eauto. Qed.
Print Assumptions C110_source.
Print Assumptions C110_cancelled.
Print Assumptions C110_nodes.
Print Assumptions C110_records.
Print Assumptions C110_answers.
Print Assumptions C110_failures.
Print Assumptions C110_answer.
Print Assumptions C110_once.
Print Assumptions C110_all.
Print Assumptions C110_found.
Print Assumptions C110_local.
Print Assumptions C110_hidden_refuted.
Print Assumptions C110_forgotten_refuted.

Definition toy (n s : N) : enr := {| id := be_bytes 32 n; seq := s; rest := [] |}.
Example C110_example :
  let s := looked_up (toy 1 1) (be_bytes 32 9) [toy 2 1; toy 3 1] 1000 1001
             [Answered (toy 2 4) [toy 1 1; toy 4 1; toy 3 7; toy 4 2] [] 1010; Broke (be_bytes 32 4) UtpTransferFailed 1020; Answered (toy 3 1) [toy 5 1; toy 4 1] [] 1030;
              Sent (toy 5 1) 1040; Ended (be_bytes 32 5) [be_bytes 32 4]] in
  received_from (tr s) = Some (be_bytes 32 5) /\
  listed (tr s) (be_bytes 32 1) = [be_bytes 32 2; be_bytes 32 3] /\ listed (tr s) (be_bytes 32 2) = [be_bytes 32 4] /\ listed (tr s) (be_bytes 32 3) = [be_bytes 32 5] /\
  option_map n_enr (metadata (tr s) (be_bytes 32 2)) = Some (toy 2 4) /\ option_map n_enr (metadata (tr s) (be_bytes 32 3)) = Some (toy 3 1) /\
  option_map duration_ms (responses (tr s) (be_bytes 32 5)) = Some 40 /\ option_map f_duration_ms (failures (tr s) (be_bytes 32 4)) = Some 20 /\ cancelled (tr s) = [be_bytes 32 4].
Proof. vm_compute. repeat split. Qed.
