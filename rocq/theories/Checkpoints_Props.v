(** C109: the checkpoint that the light client starts from. *)
From Coq Require Import String Ascii.
From Verif Require Import Base Args_Model Checkpoints_Model Checkpoints_Spec.

Lemma filter_map_in {A B} (f : A -> option B) l y : In y (filter_map f l) <-> exists x, In x l /\ f x = Some y.
Proof.
  induction l as [|a l IH]; cbn; [firstorder|]. destruct (f a) eqn:E; cbn; rewrite IH; split.
  - intros [-> | (x & H & F)]; eauto.
  - intros (x & [-> | H] & F); [left; congruence|right; eauto].
  - intros (x & H & F); eauto.
  - intros (x & [-> | H] & F); [congruence|eauto].
Qed.
Lemma says_task s r e : says s r e <-> exists x, task s = Some x /\ block_root x = Some r /\ epoch x = e.
Proof.
  unfold says, task. split.
  - intros (slots & b & x & a & E & -> & F & R & Ee). exists x. rewrite E. split; [|auto]. set (P := fun x => match block_root x with Some _ => true | None => false end).
    assert (X : find P (b ++ x :: a) = Some x). { clear E. induction F as [|y b H _ IH]; cbn [app find]; unfold P at 1; [rewrite R; reflexivity|rewrite H; exact IH]. }
    rewrite <- X. destruct (b ++ x :: a) eqn:Q; [destruct b; discriminate Q|reflexivity].
  - intros (x & T & R & Ee). destruct (replies s) as [slots|]; [|discriminate T]. exists slots.
    assert (X : find (fun x => match block_root x with Some _ => true | None => false end) slots = Some x) by (destruct slots; [discriminate T|exact T]). clear T.
    assert (G : exists b a, slots = b ++ x :: a /\ Forall (fun y => block_root y = None) b).
    { induction slots as [|y l IH]; [discriminate X|]. cbn in X. destruct (block_root y) eqn:Ey.
      - injection X as ->. exists [], l. split; [reflexivity|constructor].
      - destruct (IH X) as (b & a & -> & F). exists (y :: b), a. split; [reflexivity|constructor; assumption]. }
    destruct G as (b & a & -> & F). exists b, x, a. auto.
Qed.
Lemma task_root s x : task s = Some x -> exists r, block_root x = Some r.
Proof.
  unfold task. destruct (replies s) as [[|y l]|]; try discriminate. intros F. apply find_some in F as [_ F]. destruct (block_root x); [eauto|discriminate].
Qed.
Lemma says_unique s r e r' e' : says s r e -> says s r' e' -> r = r' /\ e = e'.
Proof. rewrite !says_task. intros (x & T & R & E) (y & T' & R' & E'). split; congruence. Qed.
Lemma says_dec s r e : says s r e \/ ~ says s r e.
Proof.
  rewrite says_task. destruct (task s) as [x|]; [|right; intros (x & H & _); discriminate].
  destruct (N.eq_dec (epoch x) e) as [E|E]; [|right; intros (y & [= ->] & _ & F); contradiction]. destruct (block_root x) as [y|] eqn:R; [|right; intros (z & [= ->] & F & _); congruence].
  destruct (beqb y r) eqn:B; [left; apply beqb_spec in B; subst; eauto|right; intros (z & [= ->] & F & _)]. apply beqb_false in B. congruence.
Qed.

(** The greatest *)
Lemma max_by_key_spec {A} (key : A -> N) l m : max_by_key key l = Some m -> In m l /\ forall x, In x l -> key x <= key m.
Proof.
  revert m. induction l as [|a l IH]; [discriminate|]. cbn. intros m. destruct (max_by_key key l) as [y|] eqn:E.
  - destruct (IH y eq_refl) as [I M]. destruct (N.leb_spec (key a) (key y)); intros [= <-].
    + split; [right; exact I|]. intros x [<- | H']; auto.
    + split; [left; reflexivity|]. intros x [<- | H']; [lia|]. specialize (M x H'). lia.
  - intros [= <-]. destruct l as [|b l]; [|cbn in E; destruct (max_by_key key l); [destruct (key b <=? key a0); discriminate|discriminate]].
    split; [left; reflexivity|]. intros x [<- | []]. lia.
Qed.
Lemma max_by_key_some {A} (key : A -> N) l : l <> [] -> exists m, max_by_key key l = Some m.
Proof. destruct l as [|a l]; [congruence|]. intros _. cbn. destruct (max_by_key key l) as [y|]; [destruct (key a <=? key y)|]; eauto. Qed.
Lemma max_by_key_last {A} (key : A -> N) l m : (forall x, In x l -> key x <= key m) -> max_by_key key (l ++ [m]) = Some m.
Proof.
  induction l as [|a l IH]; intros H; [reflexivity|]. cbn. rewrite IH by (intros x Hx; apply H; right; exact Hx). destruct (N.leb_spec (key a) (key m)); [reflexivity|]. specialize (H a (or_introl eq_refl)). lia.
Qed.

(** Counting *)
Fixpoint count (c : bytes) (l : list bytes) : N := match l with [] => 0 | x :: l => (if beqb x c then 1 else 0) + count c l end.
Lemma bump_keys c m : map fst (bump c m) = if existsb (fun k => beqb k c) (map fst m) then map fst m else map fst m ++ [c].
Proof. induction m as [|[k v] m IH]; [reflexivity|]. cbn. destruct (beqb k c) eqn:E; cbn; [reflexivity|]. rewrite IH. destruct (existsb _ _); reflexivity. Qed.
Lemma bump_nodup c m : NoDup (map fst m) -> NoDup (map fst (bump c m)).
Proof.
  intros H. rewrite bump_keys. destruct (existsb _ _) eqn:E; [exact H|]. apply (Permutation_NoDup (l := c :: map fst m)); [apply Permutation_cons_append|].
  constructor; [|exact H]. intros I. assert (X : existsb (fun k => beqb k c) (map fst m) = true) by (apply existsb_exists; exists c; split; [exact I|apply beqb_refl]). congruence.
Qed.
Fixpoint value (c : bytes) (m : list (bytes * N)) : N := match m with [] => 0 | (k, v) :: m => if beqb k c then v else value c m end.
Lemma bump_value c m x : value x (bump c m) = value x m + (if beqb c x then 1 else 0).
Proof.
  induction m as [|[k v] m IH]; cbn; [destruct (beqb c x); reflexivity|]. destruct (beqb k c) eqn:E; cbn.
  - apply beqb_spec in E. subst. destruct (beqb c x); lia.
  - destruct (beqb k x) eqn:F; [|exact IH]. apply beqb_spec in F. subst. apply beqb_false in E. destruct (beqb c x) eqn:G; [apply beqb_spec in G; congruence|lia].
Qed.
Lemma bump_positive c m : Forall (fun p => 0 < snd p) m -> Forall (fun p : bytes * N => 0 < snd p) (bump c m).
Proof. induction 1 as [|[k v] m H F IH]; cbn; [repeat constructor|]. destruct (beqb k c); constructor; cbn in *; auto; lia. Qed.
Lemma value_in m k v : NoDup (map fst m) -> In (k, v) m -> value k m = v.
Proof.
  induction m as [|[a b] m IH]; [intros _ []|]. cbn. intros ND [E | I]; inversion ND as [|? ? Nin ND']; subst.
  - injection E as -> ->. rewrite beqb_refl. reflexivity.
  - destruct (beqb a k) eqn:E; [|auto]. apply beqb_spec in E. subst. exfalso. apply Nin. apply (in_map fst) in I. exact I.
Qed.
Lemma in_value m k : value k m <> 0 -> In (k, value k m) m.
Proof. induction m as [|[a b] m IH]; cbn; [congruence|]. destruct (beqb a k) eqn:E; [apply beqb_spec in E; subst; auto|auto]. Qed.
Definition counts (l : list bytes) : list (bytes * N) := fold_left (fun m c => bump c m) l [].
Lemma counts_from l : forall m, NoDup (map fst m) -> Forall (fun p => 0 < snd p) m ->
  let m' := fold_left (fun m c => bump c m) l m in NoDup (map fst m') /\ Forall (fun p => 0 < snd p) m' /\ forall c, value c m' = value c m + count c l.
Proof.
  induction l as [|x l IH]; intros m ND P; cbn; [split; [exact ND|split; [exact P|intros; lia]]|].
  destruct (IH (bump x m) (bump_nodup x m ND) (bump_positive x m P)) as (A & B & C). split; [exact A|]. split; [exact B|]. intros c. rewrite C, bump_value. lia.
Qed.
Lemma counts_in l k v : In (k, v) (counts l) <-> v = count k l /\ 0 < v.
Proof.
  destruct (counts_from l [] (NoDup_nil _) (Forall_nil _)) as (A & B & C). fold (counts l) in *. cbn [value] in C. split.
  - intros I. split; [|rewrite Forall_forall in B; exact (B _ I)]. rewrite <- (value_in _ _ _ A I), C. reflexivity.
  - intros [-> P]. specialize (C k). replace (0 + count k l) with (count k l) in C by lia. rewrite <- C. apply in_value. lia.
Qed.

(** The votes *)
Definition chosen (e : N) (l : list service) : list bytes := filter_map block_root (filter (fun x => epoch x =? e) (filter_map task l)).
Lemma votes_count r e l : votes r e l (count r (chosen e l)).
Proof.
  induction l as [|s l IH]; [constructor|]. unfold chosen in *. cbn [filter_map]. destruct (task s) as [x|] eqn:T.
  - cbn [filter]. destruct (N.eqb_spec (epoch x) e) as [Ee|Ee].
    + cbn [filter_map]. destruct (task_root s x T) as [y R]. rewrite R. cbn [count]. destruct (beqb y r) eqn:B.
      * apply beqb_spec in B. subst y. rewrite N.add_comm. apply votes_yes; [apply says_task; eauto|exact IH].
      * apply votes_no; [|exact IH]. rewrite says_task. intros (z & T' & R' & _). apply beqb_false in B. congruence.
    + apply votes_no; [|exact IH]. rewrite says_task. intros (z & T' & _ & E'). congruence.
  - apply votes_no; [|exact IH]. rewrite says_task. intros (z & T' & _). congruence.
Qed.
Lemma votes_unique r e l n n' : votes r e l n -> votes r e l n' -> n = n'.
Proof. intros H. revert n'. induction H; intros n' H'; inversion H'; subst; try contradiction; auto. f_equal; auto. Qed.
Lemma votes_positive r e l n : votes r e l n -> 0 < n <-> exists s, In s l /\ says s r e.
Proof.
  induction 1 as [|s l n Hs H IH|s l n Hs H IH].
  - split; [lia|intros (s & [] & _)].
  - split; [intros _; exists s; split; [left; reflexivity|exact Hs]|lia].
  - rewrite IH. split; intros (x & I & X); [exists x; split; [right; exact I|exact X]|]. destruct I as [<- | I]; [contradiction|eauto].
Qed.

Section Fetch.
Context (order : list (bytes * N) -> list (bytes * N)) (order_ok : forall l, Permutation (order l) l).
Notation fetch := (fetch_latest_checkpoint order).

Lemma fetch_spec l r : fetch l = Ok r ->
  exists e n, let h := get_healthy_fallback_services l in
    (exists s, In s h /\ says s r e) /\ (forall s r' e', In s h -> says s r' e' -> e' <= e) /\ votes r e h n /\ forall r' n', votes r' e h n' -> n' <= n.
Proof.
  unfold fetch_latest_checkpoint, fetch_latest_checkpoint_from_services. set (h := get_healthy_fallback_services l). intros E.
  destruct (max_by_key epoch (filter_map task h)) as [m|] eqn:M; [|discriminate E]. apply max_by_key_spec in M as [_ Mm].
  fold (chosen (epoch m) h) in E. fold (counts (chosen (epoch m) h)) in E. destruct (max_by_key snd _) as [[k v]|] eqn:Q; [|discriminate E]. cbn in E. injection E as ->.
  apply max_by_key_spec in Q as [Qi Qm]. apply (Permutation_in _ (order_ok _)) in Qi. apply counts_in in Qi as [Qv Qp]. pose proof (votes_count r (epoch m) h) as V. rewrite <- Qv in V.
  exists (epoch m), v. cbn zeta. split; [apply (votes_positive r (epoch m) h v V); lia|]. split; [|split; [exact V|]].
  - intros s r' e' I H. apply says_task in H as (x & T & _ & <-). apply Mm. apply filter_map_in. eauto.
  - intros r' n' V'. rewrite (votes_unique _ _ _ _ _ V' (votes_count _ _ _)). destruct (N.eq_dec (count r' (chosen (epoch m) h)) 0) as [->|Nz]; [lia|].
    specialize (Qm (r', count r' (chosen (epoch m) h))). cbn in Qm. apply Qm. apply (Permutation_in _ (Permutation_sym (order_ok _))). apply counts_in. split; [reflexivity|lia].
Qed.
Lemma fetch_some l s r e : In s (get_healthy_fallback_services l) -> says s r e -> exists r', fetch l = Ok r'.
Proof.
  intros I H. unfold fetch_latest_checkpoint, fetch_latest_checkpoint_from_services. set (h := get_healthy_fallback_services l) in *. apply says_task in H as (x & T & R & _).
  destruct (max_by_key_some epoch (filter_map task h)) as [m M]. { intros X. assert (Y : In x (filter_map task h)) by (apply filter_map_in; eauto). rewrite X in Y. destruct Y. }
  rewrite M. apply max_by_key_spec in M as [Mi _]. apply filter_map_in in Mi as (s0 & I0 & T0). destruct (task_root _ _ T0) as [r0 R0].
  fold (chosen (epoch m) h) (counts (chosen (epoch m) h)). destruct (max_by_key_some snd (order (counts (chosen (epoch m) h)))) as [[k v] Q].
  - assert (Y : In (r0, count r0 (chosen (epoch m) h)) (counts (chosen (epoch m) h))).
    { apply counts_in. split; [reflexivity|]. apply (votes_positive r0 (epoch m) h _ (votes_count _ _ _)). exists s0. split; [exact I0|]. apply says_task. eauto. }
    apply (Permutation_in _ (Permutation_sym (order_ok _))) in Y. intros X. rewrite X in Y. destruct Y.
  - rewrite Q. cbn. eauto.
Qed.
Lemma healthy_in l s : In s (get_healthy_fallback_services l) <-> healthy l s.
Proof. unfold get_healthy_fallback_services, healthy. apply filter_In. Qed.

(** *** The checkpoint of the services *)
(** It is one of those of the latest epoch that any healthy service speaks of, and no other of that epoch has more votes. *)
Theorem C109_checkpoint : forall l r, fetch l = Ok r ->
  exists e n, (exists s, healthy l s /\ says s r e) /\ (forall s r' e', healthy l s -> says s r' e' -> e' <= e) /\
    votes r e (filter state l) n /\ forall r' n', votes r' e (filter state l) n' -> n' <= n.
Proof.
  intros l r E. destruct (fetch_spec l r E) as (e & n & (s & I & H) & Mx & V & Vm). exists e, n. split; [exists s; split; [apply healthy_in; exact I|exact H]|].
  split; [|split; [exact V|exact Vm]]. intros s' r' e' I'. apply Mx. apply healthy_in. exact I'.
Qed.
(** There is one unless no healthy service has a checkpoint, and there is no panic. *)
Theorem C109_found : forall l,
  ((exists r, fetch l = Ok r) <-> exists s r e, healthy l s /\ says s r e) /\ fetch l <> Panic.
Proof.
  intros l. split; [split|].
  - intros [r E]. destruct (fetch_spec l r E) as (e & n & (s & I & H) & _). exists s, r, e. split; [apply healthy_in; exact I|exact H].
  - intros (s & r & e & I & H). apply (fetch_some l s r e); [apply healthy_in; exact I|exact H].
  - unfold fetch_latest_checkpoint, fetch_latest_checkpoint_from_services. destruct (max_by_key epoch _); [|discriminate]. destruct (max_by_key snd _) as [[k v]|]; discriminate.
Qed.
(** If one checkpoint has more votes than each other one, and nobody speaks of a later epoch, it is the one. *)
Theorem C109_majority : forall l r e n, (forall s r' e', healthy l s -> says s r' e' -> e' <= e) -> votes r e (filter state l) n -> 0 < n ->
  (forall r' n', r' <> r -> votes r' e (filter state l) n' -> n' < n) -> fetch l = Ok r.
Proof.
  intros l r e n Mx V P Vm. apply (votes_positive r e _ n V) in P as (s & I & H). destruct (fetch_some l s r e I H) as [r0 E]. rewrite E. f_equal.
  destruct (fetch_spec l r0 E) as (e0 & n0 & (s0 & I0 & H0) & Mx0 & V0 & Vm0). assert (e0 = e) as ->.
  { apply N.le_antisymm; [apply (Mx s0 r0 e0); [apply healthy_in; exact I0|exact H0]|apply (Mx0 s r e I H)]. }
  destruct (beqb r0 r) eqn:B; [apply beqb_spec in B; exact B|]. apply beqb_false in B. specialize (Vm r0 n0 B V0). specialize (Vm0 r n V). lia.
Qed.

(** *** One service is enough *)
(** A service that speaks of a later epoch than all others decides alone, however many the others are. *)
Theorem C109_one_service_refuted : forall l s r e, healthy l s -> says s r e ->
  (forall s' r' e', healthy l s' -> s' <> s -> says s' r' e' -> e' < e) -> fetch l = Ok r.
Proof.
  intros l s r e Hs H Mx. destruct (fetch_some l s r e (proj2 (healthy_in l s) Hs) H) as [r0 E]. rewrite E. f_equal.
  destruct (fetch_spec l r0 E) as (e0 & n0 & (s0 & I0 & H0) & Mx0 & _). pose proof (Mx0 s r e (proj2 (healthy_in l s) Hs) H) as Le. apply healthy_in in I0.
  destruct (says_dec s r0 e0) as [D|D]; [apply (says_unique s r0 e0 r e D H)|].
  assert (N : s0 <> s) by (intros ->; contradiction). specialize (Mx s0 r0 e0 I0 N H0). lia.
Qed.

(** *** The start of the client *)
Context (sync : bytes -> sync_result).
Notation start := (start sync order).
(** The sources of checkpoints: the configuration or the database; the first slot of the service that was given; the services. *)
Definition first_choice (configured : option bytes) (stored c : bytes) : Prop := configured = Some c \/ (configured = None /\ stored = c).
Definition second_choice (fallback : option (option (list slot))) (c : bytes) : Prop :=
  exists x rest, fallback = Some (Some (x :: rest)) /\ block_root x = Some c.
Definition third_choice (load_external : bool) (services : option (list service)) (c : bytes) : Prop :=
  load_external = true /\ exists l, services = Some l /\ fetch l = Ok c.
(** They are tried in this order.  The next is tried only if the first is too old; the services only if they are allowed and
    the second choice does not work.  The client runs if and only if the one tried last works. *)
Theorem C109_start : forall configured stored fallback ext services,
  let a := start configured stored fallback ext services in
  exists c, first_choice configured stored c /\
  ((tried a = [c] /\ sync c <> TooOld) \/
   (sync c = TooOld /\
    ((tried a = [c] /\ (ok a <> Panic -> (forall x, ~ second_choice fallback x) /\ forall x, ~ third_choice ext services x)) \/
     (exists x, second_choice fallback x /\ tried a = [c; x] /\ (sync x = Synced \/ forall y, ~ third_choice ext services y)) \/
     (exists y, third_choice ext services y /\ (forall x, ~ second_choice fallback x) /\ tried a = [c; y]) \/
     (exists x y, second_choice fallback x /\ sync x <> Synced /\ third_choice ext services y /\ tried a = [c; x; y])))) /\
  (ok a = Ok tt <-> exists z, last (tried a) c = z /\ sync z = Synced).
Proof.
  intros configured stored fallback ext services. cbn zeta. set (c := match configured with Some c => c | None => stored end).
  exists c. split; [unfold first_choice, c; destruct configured; auto|]. unfold Checkpoints_Model.start. fold c. destruct (sync c) eqn:S0.
  - cbn. split; [left; split; [reflexivity|discriminate]|]. split; [intros _; exists c; auto|reflexivity].
  - assert (T3 : (exists y, third_choice ext services y /\ ext = true /\ boot_from_external_fallbacks sync order services = {| tried := [y]; ok := match sync y with Synced => Ok tt | _ => Err end |}) \/
                 ((forall y, ~ third_choice ext services y) /\ (ext = true -> boot_from_external_fallbacks sync order services = {| tried := []; ok := Err |}))).
    { unfold third_choice, boot_from_external_fallbacks. destruct ext; [|right; split; [intros y [A _]; discriminate|discriminate]]. destruct services as [l|].
      - destruct (fetch l) as [y| |] eqn:F; [left; exists y; eauto 10| |destruct (proj2 (C109_found l) F)].
        right. split; [|auto]. intros y (_ & l' & [= <-] & F'). congruence.
      - right. split; [|auto]. intros y (_ & l' & F & _). discriminate. }
    assert (T2 : (exists x, second_choice fallback x /\ boot_from_fallback sync fallback = {| tried := [x]; ok := match sync x with Synced => Ok tt | _ => Err end |}) \/
                 ((forall x, ~ second_choice fallback x) /\ boot_from_fallback sync fallback = {| tried := []; ok := Err |}) \/
                 boot_from_fallback sync fallback = {| tried := []; ok := Panic |}).
    { unfold second_choice, boot_from_fallback. destruct fallback as [[[|x l]|]|]; cbn.
      - auto.
      - destruct (block_root x) as [r|] eqn:R; cbn; [left; exists r; eauto 10|]. right. left. split; [|reflexivity]. intros y (a & b & [= <- <-] & F). congruence.
      - right. left. split; [|reflexivity]. intros y (a & b & F & _). discriminate.
      - right. left. split; [|reflexivity]. intros y (a & b & F & _). discriminate. }
    destruct T2 as [(x & X & ->) | [(X & ->) | ->]]; cbn [ok tried].
    + destruct (sync x) eqn:Sx; cbn [ok tried].
      * split; [right; split; [reflexivity|]; right; left; exists x; auto|]. cbn. split; [intros _; eauto|auto].
      * destruct T3 as [(y & Y & -> & ->) | (Y & B)]; cbn [ok tried app].
        -- split; [right; split; [reflexivity|]; right; right; right; exists x, y; split; [exact X|]; split; [congruence|auto]|]. cbn. split; [destruct (sync y) eqn:Sy; try discriminate; eauto|intros (z & <- & ->); reflexivity].
        -- assert (N : forall o, sync x = o -> o <> Synced -> (Err = Ok tt <-> exists z, last [c; x] c = z /\ sync z = Synced)) by (intros o A B'; split; [discriminate|cbn; intros (z & <- & Z); congruence]).
           destruct ext; [rewrite (B eq_refl)|]; cbn [ok tried app]; (split; [right; split; [reflexivity|]; right; left; exists x; auto|apply (N TooOld); [exact Sx|discriminate]]).
      * destruct T3 as [(y & Y & -> & ->) | (Y & B)]; cbn [ok tried app].
        -- split; [right; split; [reflexivity|]; right; right; right; exists x, y; split; [exact X|]; split; [congruence|auto]|]. cbn. split; [destruct (sync y) eqn:Sy; try discriminate; eauto|intros (z & <- & ->); reflexivity].
        -- assert (N : forall o, sync x = o -> o <> Synced -> (Err = Ok tt <-> exists z, last [c; x] c = z /\ sync z = Synced)) by (intros o A B'; split; [discriminate|cbn; intros (z & <- & Z); congruence]).
           destruct ext; [rewrite (B eq_refl)|]; cbn [ok tried app]; (split; [right; split; [reflexivity|]; right; left; exists x; auto|apply (N OtherError); [exact Sx|discriminate]]).
    + assert (N : Err = Ok tt <-> exists z, last [c] c = z /\ sync z = Synced) by (split; [discriminate|cbn; intros (z & <- & Z); congruence]).
      destruct T3 as [(y & Y & -> & ->) | (Y & B)]; cbn [ok tried app].
      * split; [right; split; [reflexivity|]; right; right; left; exists y; auto|]. cbn. split; [destruct (sync y) eqn:Sy; try discriminate; eauto|intros (z & <- & ->); reflexivity].
      * destruct ext; [rewrite (B eq_refl)|]; cbn [ok tried app]; (split; [right; split; [reflexivity|]; left; split; [reflexivity|auto]|exact N]).
    + split; [right; split; [reflexivity|]; left; split; [reflexivity|congruence]|]. split; [discriminate|cbn; intros (z & <- & Z); congruence].
  - cbn. split; [left; split; [reflexivity|discriminate]|]. split; [discriminate|intros (z & <- & Z); congruence].
Qed.
(** If the service that was given has no slots at all, the client panics. *)
Theorem C109_panic_refuted : forall configured stored ext services,
  ok (start configured stored (Some (Some [])) ext services) = Panic <-> sync (match configured with Some c => c | None => stored end) = TooOld.
Proof. intros configured stored ext services. unfold Checkpoints_Model.start. destruct (sync _); cbn; split; congruence. Qed.
End Fetch.

(** *** Ties *)
(** Among the checkpoints with the most votes of the latest epoch, the order of a hash map decides. *)
Theorem C109_tie_refuted : forall l s r e n, healthy l s -> says s r e -> (forall s r' e', healthy l s -> says s r' e' -> e' <= e) ->
  votes r e (filter state l) n -> (forall r' n', votes r' e (filter state l) n' -> n' <= n) ->
  exists order, (forall m, Permutation (order m) m) /\ fetch_latest_checkpoint order l = Ok r.
Proof.
  intros l s r e n Hs H Mx V Vm.
  exists (fun m => filter (fun p => negb (beqb (fst p) r)) m ++ filter (fun p => beqb (fst p) r) m). split.
  - intros m. rewrite Permutation_app_comm. induction m as [|x m IH]; [reflexivity|]. cbn [filter]. destruct (beqb (fst x) r); cbn [negb app]; [constructor; exact IH|].
    rewrite <- Permutation_middle. constructor. exact IH.
  - unfold fetch_latest_checkpoint, fetch_latest_checkpoint_from_services, get_healthy_fallback_services. set (h := filter state l) in *.
    assert (I : In s h) by (apply filter_In; exact Hs). pose proof H as H1. apply says_task in H1 as (x & T & R & Ex).
    destruct (max_by_key_some epoch (filter_map task h)) as [m M]. { intros X. assert (Y : In x (filter_map task h)) by (apply filter_map_in; eauto). rewrite X in Y. destruct Y. }
    rewrite M. apply max_by_key_spec in M as [Mi Mm]. assert (Em : epoch m = e).
    { apply filter_map_in in Mi as (s0 & I0 & T0). destruct (task_root _ _ T0) as [r0 R0]. apply N.le_antisymm.
      - apply (Mx s0 r0); [apply filter_In in I0; exact I0|apply says_task; eauto].
      - rewrite <- Ex. apply Mm. apply filter_map_in. eauto. }
    rewrite Em. fold (chosen e h) (counts (chosen e h)). set (cs := counts (chosen e h)).
    pose proof (votes_unique _ _ _ _ _ V (votes_count r e h)) as En.
    assert (P : 0 < n) by (apply (votes_positive r e h n V); eauto).
    destruct (counts_from (chosen e h) [] (NoDup_nil _) (Forall_nil _)) as (ND & _ & _). fold (counts (chosen e h)) in ND. fold cs in ND.
    assert (Ic : In (r, n) cs) by (apply counts_in; auto).
    assert (F : filter (fun p : bytes * N => beqb (fst p) r) cs = [(r, n)]).
    { clear -ND Ic. induction cs as [|[k v] cs IH]; [destruct Ic|]. inversion ND as [|? ? Nin ND']; subst. cbn. destruct Ic as [E | Ic].
      - injection E as -> ->. rewrite beqb_refl. f_equal. cbn in Nin. clear -Nin. induction cs as [|[k v] cs IH]; [reflexivity|]. cbn in *. destruct (beqb k r) eqn:E; [apply beqb_spec in E; tauto|]. apply IH. tauto.
      - destruct (beqb k r) eqn:E; [apply beqb_spec in E; subst; exfalso; apply Nin; apply (in_map fst) in Ic; exact Ic|]. apply IH; assumption. }
    rewrite F, max_by_key_last; [reflexivity|]. intros [k v] Hk. apply filter_In in Hk as [Hk _]. apply counts_in in Hk as [-> _]. cbn. apply (Vm k). apply votes_count.
Qed.

(** *** Addresses *)
Theorem C109_url : forall host x n, x <> 47 -> construct_url (host ++ [x] ++ repeat 47 n) = host ++ [x] ++ lit "/checkpointz/v1/beacon/slots".
Proof.
  intros host x n H. unfold construct_url, trim_end_matches. rewrite !rev_app_distr. change (rev [x]) with [x]. 
  assert (R : rev (repeat 47 n) = repeat 47 n). { clear. induction n as [|n IH]; [reflexivity|]. cbn [repeat rev]. rewrite IH. clear. induction n as [|n IH]; [reflexivity|]. cbn. rewrite IH. reflexivity. }
  rewrite R.
  assert (T : forall t, trim_start 47 (repeat 47 n ++ [x] ++ t) = [x] ++ t).
  { intros t. clear R. induction n as [|n IH]; cbn; [destruct (N.eqb_spec x 47); [contradiction|reflexivity]|assumption]. }
  rewrite <- ?app_assoc. rewrite T, rev_app_distr, rev_involutive, <- app_assoc. reflexivity.
Qed.

(** *** Examples *)
Definition svc (h : bool) (l : list slot) : service := {| endpoint := []; state := h; replies := Some l |}.
Definition at_epoch (r e : N) : slot := {| block_root := Some [r]; epoch := e |}.
Definition no_root (e : N) : slot := {| block_root := None; epoch := e |}.
Definition silent : service := {| endpoint := []; state := true; replies := None |}.
Definition honest_services : list service := [svc true [at_epoch 1 5]; svc true [no_root 7; at_epoch 2 6; at_epoch 1 5]; silent; svc false [at_epoch 9 9]; svc true [at_epoch 3 6]; svc true [at_epoch 2 6]; svc true []].
Example C109_example : fetch_latest_checkpoint id honest_services = Ok [2] /\ fetch_latest_checkpoint (@rev _) honest_services = Ok [2] /\
  fetch_latest_checkpoint id [silent; svc false [at_epoch 9 9]; svc true [no_root 3]] = Err.
Proof. vm_compute. auto. Qed.
(** One that lies *)
Example C109_one_service_example : fetch_latest_checkpoint id (svc true [at_epoch 66 18446744073709551615] :: honest_services) = Ok [66].
Proof. vm_compute. reflexivity. Qed.
Example C109_tie_example : fetch_latest_checkpoint id [svc true [at_epoch 1 5]; svc true [at_epoch 2 5]] = Ok [2] /\ fetch_latest_checkpoint (@rev _) [svc true [at_epoch 1 5]; svc true [at_epoch 2 5]] = Ok [1].
Proof. vm_compute. auto. Qed.
Example C109_start_example :
  let sync c := match c with [1] => TooOld | [2] => Synced | [3] => OtherError | _ => TooOld end in
  let st := Checkpoints_Model.start sync id in
  map tried [st (Some [2]) [9] None true None; st None [1] (Some (Some [at_epoch 2 0])) true None; st None [1] (Some (Some [at_epoch 3 0])) true (Some honest_services);
             st None [1] (Some (Some [at_epoch 3 0])) false (Some honest_services); st (Some [3]) [1] (Some (Some [at_epoch 2 0])) true (Some honest_services)]
  = [[[2]]; [[1]; [2]]; [[1]; [3]; [2]]; [[1]; [3]]; [[3]]] /\
  map ok [st None [1] (Some (Some [at_epoch 3 0])) true (Some honest_services); st None [1] (Some (Some [])) true (Some honest_services)] = [Ok tt; Panic].
Proof. vm_compute. auto. Qed.

Print Assumptions C109_checkpoint.
Print Assumptions C109_found.
Print Assumptions C109_majority.
Print Assumptions C109_one_service_refuted.
Print Assumptions C109_start.
Print Assumptions C109_panic_refuted.
Print Assumptions C109_tie_refuted.
Print Assumptions C109_url.
