(** The start of the light client. *)
From Verif Require Import Base LcStart_Model LcStart_Spec.

(** Which checkpoint a new client starts from. *)
Theorem C118_checkpoint : forall portal b d s c,
  build_with_rpc b = Ok s -> client_new portal s d = Ok c -> first_root b d (c_root c).
Proof.
  intros portal b d s c B C. unfold build_with_rpc, base_config in B. unfold client_new in C.
  destruct (data_dir s) as [dir|]; [|discriminate]. injection C as <-. cbn [c_root].
  destruct (bd_network b) as [n|] eqn:N; [|destruct (bd_config b) as [cf|] eqn:F; [|discriminate]]; cbn [obind] in B; injection B as <-; cbn [checkpoint assemble].
  - unfold choose. destruct (bd_checkpoint b) as [r|] eqn:K; [now apply root_set|].
    destruct (bd_config b) as [cf|] eqn:F.
    + destruct (checkpoint cf) as [r|] eqn:K2; [eapply root_configured; eauto|].
      unfold load_checkpoint, assemble. cbn [default_checkpoint]. rewrite F. destruct d as [f|].
      * destruct (Nat.eqb_spec (length f) 32) as [L|L]; [apply root_saved; auto; intros c E; congruence|].
        apply root_config_default; auto. intros r E. congruence.
      * apply root_config_default; auto. discriminate.
    + unfold load_checkpoint, assemble. cbn [default_checkpoint]. rewrite F. destruct d as [f|].
      * destruct (Nat.eqb_spec (length f) 32) as [L|L]; [apply root_saved; auto; intros c E; congruence|].
        apply root_network_default; auto. intros r E. congruence.
      * apply root_network_default; auto. discriminate.
  - unfold choose. destruct (bd_checkpoint b) as [r|] eqn:K; [now apply root_set|]. rewrite F.
    destruct (checkpoint cf) as [r|] eqn:K2; [eapply root_configured; eauto|].
    unfold load_checkpoint, assemble. cbn [default_checkpoint]. rewrite F. destruct d as [f|].
    + destruct (Nat.eqb_spec (length f) 32) as [L|L]; [apply root_saved; auto; intros c E; congruence|].
      apply root_config_default; auto. intros r E. congruence.
    + apply root_config_default; auto. discriminate.
Qed.
Print Assumptions C118_checkpoint.

(** The other settings: what is set on the builder wins, a flag holds if either sets it, the chain is that of the network
    if one is set. *)
Theorem C118_settings : forall b s, build b = Ok s \/ build_with_rpc b = Ok s ->
  decides (bd_port b) (option_map rpc_port (bd_config b)) (rpc_port s)
  /\ decides (bd_dir b) (option_map data_dir (bd_config b)) (data_dir s)
  /\ decides (bd_fallback b) (option_map fallback (bd_config b)) (fallback s)
  /\ (load_external s = true <-> bd_external b = true \/ exists c, bd_config b = Some c /\ load_external c = true)
  /\ (strict s = true <-> bd_strict b = true \/ exists c, bd_config b = Some c /\ strict c = true)
  /\ (forall n, bd_network b = Some n -> chain s = base_chain n /\ max_age s = base_max_age n)
  /\ (forall c, bd_network b = None -> bd_config b = Some c -> chain s = chain c /\ max_age s = max_age c).
Proof.
  intros b s B.
  assert (E : exists n u, base_config b = Ok n /\ s = assemble b n u).
  { destruct B as [B|B]; unfold build, build_with_rpc in B; destruct (base_config b) as [n| |] eqn:N; cbn in B; try discriminate.
    - destruct (bd_rpc b) as [u|]; [injection B as <-; eauto|]. destruct (bd_config b); [injection B as <-; eauto|discriminate].
    - injection B as <-. eauto. }
  clear B. destruct E as (n & u & N & ->). unfold base_config in N. unfold assemble. cbn.
  unfold decides, choose, either.
  assert (FL : forall (f : settings -> bool) own, (match bd_config b with Some c => own || f c | None => own end) = true
     <-> own = true \/ exists c, bd_config b = Some c /\ f c = true).
  { intros f own. destruct (bd_config b) as [c|].
    - rewrite Bool.orb_true_iff. split; [intros [H|H]; eauto|intros [H|(c' & [= <-] & H)]; auto].
    - split; [auto|]. intros [H|(c & H & _)]; [exact H|discriminate]. }
  split; [destruct (bd_port b), (bd_config b); reflexivity|].
  split; [destruct (bd_dir b), (bd_config b); reflexivity|].
  split; [destruct (bd_fallback b), (bd_config b); reflexivity|].
  split; [apply FL|]. split; [apply FL|].
  destruct (bd_network b) as [m|].
  - injection N as <-. split; [intros ? [= <-]; auto|discriminate].
  - split; [discriminate|]. destruct (bd_config b) as [c|]; [|discriminate]. injection N as <-. intros ? _ [= <-]. auto.
Qed.
Print Assumptions C118_settings.

(** A checkpoint that was saved is the one a later client starts from, unless one is set. *)
Theorem C118_saved : forall portal s d root c, length root = 32%nat -> checkpoint s = None ->
  client_new portal s (save_checkpoint root d) = Ok c -> c_root c = root.
Proof.
  intros portal s d root c L K C. unfold client_new, save_checkpoint, load_checkpoint in C. rewrite K in C.
  destruct (data_dir s); [|discriminate]. injection C as <-. cbn. rewrite (proj2 (Nat.eqb_eq _ _) L). reflexivity.
Qed.
Print Assumptions C118_saved.
(** A crash while a checkpoint is saved never makes the client start from a wrong root, *)
Theorem C118_torn : forall portal s root n c, length root = 32%nat -> checkpoint s = None ->
  client_new portal s (torn root n) = Ok c -> c_root c = root \/ c_root c = default_checkpoint s.
Proof.
  intros portal s root n c L K C. unfold client_new, torn, load_checkpoint in C. rewrite K in C.
  destruct (data_dir s); [|discriminate]. injection C as <-. cbn.
  destruct (Nat.eqb_spec (length (firstn n root)) 32) as [E|E]; [|auto].
  left. apply firstn_all2. rewrite firstn_length in E. lia.
Qed.
Print Assumptions C118_torn.
(** but the one that was saved before is lost: the client starts from the default. *)
Theorem C118_torn_refuted : forall portal s old root n c, length old = 32%nat -> length root = 32%nat -> (n < 32)%nat -> checkpoint s = None ->
  default_checkpoint s <> old -> client_new portal s (torn root n) = Ok c -> c_root c = default_checkpoint s /\ c_root c <> old.
Proof.
  intros portal s old root n c Lo L N K D C. unfold client_new, torn, load_checkpoint in C. rewrite K in C.
  destruct (data_dir s); [|discriminate]. injection C as <-. cbn.
  destruct (Nat.eqb_spec (length (firstn n root)) 32) as [E|E]; [|auto]. rewrite firstn_length in E. lia.
Qed.
Print Assumptions C118_torn_refuted.

Lemma reboot_spec e i a c c' l o : reboot e i a c = (c', l, o) -> c_settings c' = c_settings c /\
  (c' = c /\ l = [] /\ o <> Ok tt
   \/ exists r x, a = Some r /\ l = [(r, x)] /\ c_root c' = r /\ (o = Ok tt <-> x = Synced) /\ (x = Synced -> c_synced c' = Some r)).
Proof.
  unfold reboot. destruct a as [r|]; [|intros [= <- <- <-]; split; [auto|left; repeat split; discriminate]].
  destruct (c_portal c); [intros [= <- <- <-]; split; [auto|left; repeat split; discriminate]|].
  destruct (e_sync e i r); intros [= <- <- <-]; (split; [reflexivity|]); right; exists r; eexists; repeat split; try discriminate; reflexivity.
Qed.
(** What one start does: it first tries the client's own root; it tries the root of a service only if that was too old; it
    succeeds exactly if the last sync did, and the client has then synced from the root it now has. *)
Theorem C118_start : forall e c c' l o, start e c = (c', l, o) ->
  (o = Ok tt <-> exists l', l = l' ++ [(c_root c', Synced)]) /\
  (o = Ok tt -> c_synced c' = Some (c_root c')) /\
  (forall r x m, l = (r, x) :: m -> r = c_root c /\ (m <> [] -> x = TooOld)) /\
  (forall r, In r (tried l) -> r = c_root c
     \/ (exists u, fallback (c_settings c) = Some u) /\ e_fallback e = Some r
     \/ load_external (c_settings c) = true /\ e_external e = Some r) /\
  (c_root c' = c_root c \/ In (c_root c') (tried l)).
Proof.
  intros e c c' l o S. unfold start in S.
  set (p := match rpc_port (c_settings c) with Some _ => _ | None => _ end) in S.
  assert (P : p = Err \/ exists c1, p = Ok c1 /\ c_root c1 = c_root c /\ c_settings c1 = c_settings c).
  { unfold p. destruct (rpc_port (c_settings c)) as [q|]; [|right; eauto]. destruct (negb (q =? 0) && c_serving c); [auto|]. destruct (e_bind e); [right; eexists; split; [reflexivity|]; auto|auto]. }
  clearbody p. destruct P as [->|(c1 & -> & R & T)].
  { injection S as <- <- <-. split; [split; [discriminate|intros (l' & E); destruct l'; discriminate]|]. split; [discriminate|]. split; [discriminate|]. split; [intros r []|auto]. }
  rewrite <-R, <-T. clear R T c. rename c1 into c.
  assert (sn : forall (m : list (bytes * ends)) y z, (exists l', m ++ [y] = l' ++ [z]) <-> y = z).
  { intros m y z. split; [|intros ->; exists m; reflexivity]. intros (l' & E). apply app_inj_tail in E. tauto. }
  assert (one : forall (r : bytes) (x : ends), (exists l', [(r, x)] = l' ++ [(r, Synced)]) <-> x = Synced).
  { intros r x. rewrite (sn [] (r, x) (r, Synced)). split; congruence. }
  assert (nosync : forall m (r r' : bytes) (x : ends), x <> Synced -> ~ exists l', m ++ [(r, x)] = l' ++ [(r', Synced)]).
  { intros m r r' x N. rewrite sn. congruence. }
  destruct (e_sync e 1 (c_root c)) eqn:E1.
  - injection S as <- <- <-. split; [split; [exists []; reflexivity|auto]|]. split; [auto|]. split; [intros r x m [= <- <- <-]; split; [auto|congruence]|]. split; [intros r [<-|[]]; auto|auto].
  - set (a2 := match fallback (c_settings c) with Some _ => _ | None => _ end) in S.
    assert (A2 : forall r, a2 = Some r -> (exists u, fallback (c_settings c) = Some u) /\ e_fallback e = Some r).
    { unfold a2. destruct (fallback (c_settings c)); [eauto|discriminate]. }
    clearbody a2. destruct (reboot e 2 a2 c) as [[c2 l2] o2] eqn:B2. apply reboot_spec in B2 as [T2 B2].
    destruct B2 as [(-> & -> & N2)|(r2 & x2 & Y2 & -> & R2 & O2 & S2)].
    + destruct o2 as [[]| |]; [congruence| |].
      * destruct (load_external (c_settings c)) eqn:LE.
        -- destruct (reboot e 3 (e_external e) c) as [[c3 l3] o3] eqn:B3. injection S as <- <- <-. apply reboot_spec in B3 as [T3 B3].
           destruct B3 as [(-> & -> & N3)|(r3 & x3 & Y3 & -> & R3 & O3 & S3)]; cbn [app].
           ++ split; [split; [tauto|intros X; apply one in X; discriminate]|]. split; [tauto|]. split; [intros r x m [= <- <- <-]; split; auto|]. split; [intros r [<-|[]]; auto|auto].
           ++ split; [rewrite O3; rewrite (sn [(c_root c, TooOld)] (r3, x3)); rewrite R3; split; congruence|]. split; [rewrite O3, R3; exact S3|].
              split; [intros r x m [= <- <- <-]; auto|]. split; [intros r [<-|[<-|[]]]; auto|rewrite R3; cbn; auto].
        -- injection S as <- <- <-. split; [split; [discriminate|intros X; apply one in X; discriminate]|]. split; [discriminate|]. split; [intros r x m [= <- <- <-]; split; auto|]. split; [intros r [<-|[]]; auto|auto].
      * injection S as <- <- <-. split; [split; [discriminate|intros X; apply one in X; discriminate]|]. split; [discriminate|]. split; [intros r x m [= <- <- <-]; split; auto|]. split; [intros r [<-|[]]; auto|auto].
    + specialize (A2 r2 Y2). destruct o2 as [[]| |].
      * injection S as <- <- <-. split; [split; auto; intros _; exists [(c_root c, TooOld)]; rewrite R2; cbn; do 2 f_equal; f_equal; apply O2; reflexivity|].
        split; [rewrite R2; intros _; apply S2, O2; reflexivity|]. split; [intros r x m [= <- <- <-]; auto|].
        split; [intros r [<-|[<-|[]]]; auto|rewrite R2; cbn; auto].
      * assert (N2 : x2 <> Synced) by (intros X; apply O2 in X; discriminate).
        rewrite T2 in S. destruct (load_external (c_settings c)) eqn:LE.
        -- destruct (reboot e 3 (e_external e) c2) as [[c3 l3] o3] eqn:B3. injection S as <- <- <-. apply reboot_spec in B3 as [T3 B3].
           destruct B3 as [(-> & -> & N3)|(r3 & x3 & Y3 & -> & R3 & O3 & S3)]; cbn [app].
           ++ split; [split; [tauto|intros X; exfalso; exact (nosync [(c_root c, TooOld)] r2 (c_root c2) x2 N2 X)]|]. split; [tauto|]. split; [intros r x m [= <- <- <-]; split; auto|].
              split; [intros r [<-|[<-|[]]]; auto|rewrite R2; cbn; auto].
           ++ split; [rewrite O3; rewrite (sn [(c_root c, TooOld); (r2, x2)] (r3, x3)); rewrite R3; split; congruence|]. split; [rewrite O3, R3; exact S3|].
              split; [intros r x m [= <- <- <-]; auto|]. split; [intros r [<-|[<-|[<-|[]]]]; auto|rewrite R3; cbn; auto].
        -- injection S as <- <- <-. split; [split; [discriminate|intros X; exfalso; exact (nosync [(c_root c, TooOld)] r2 (c_root c2) x2 N2 X)]|]. split; [discriminate|]. split; [intros r x m [= <- <- <-]; split; auto|].
           split; [intros r [<-|[<-|[]]]; auto|rewrite R2; cbn; auto].
      * assert (N2 : x2 <> Synced) by (intros X; apply O2 in X; discriminate).
        injection S as <- <- <-. split; [split; [discriminate|intros X; exfalso; exact (nosync [(c_root c, TooOld)] r2 (c_root c2) x2 N2 X)]|]. split; [discriminate|]. split; [intros r x m [= <- <- <-]; split; auto|].
        split; [intros r [<-|[<-|[]]]; auto|rewrite R2; cbn; auto].
  - injection S as <- <- <-. split; [split; [discriminate|intros X; apply one in X; discriminate]|]. split; [discriminate|]. split; [intros r x m [= <- <- <-]; split; [auto|congruence]|]. split; [intros r [<-|[]]; auto|auto].
Qed.
Print Assumptions C118_start.

Lemma start_plain e c c1 l o : fallback (c_settings c) = None -> load_external (c_settings c) = false -> start e c = (c1, l, o) ->
  c_root c1 = c_root c /\ c_settings c1 = c_settings c /\ (c_synced c1 = c_synced c \/ c_synced c1 = Some (c_root c)) /\ o <> Panic.
Proof.
  intros F L E. unfold start in E.
  set (p := match rpc_port (c_settings c) with Some _ => _ | None => _ end) in E.
  assert (P : p = Err \/ exists d, p = Ok d /\ c_root d = c_root c /\ c_settings d = c_settings c /\ c_synced d = c_synced c).
  { unfold p. destruct (rpc_port (c_settings c)) as [q|]; [|right; eauto]. destruct (negb (q =? 0) && c_serving c); [auto|]. destruct (e_bind e); [right; eexists; split; [reflexivity|]; auto|auto]. }
  clearbody p. destruct P as [->|(d & -> & D1 & D2 & D3)]; [injection E as <- <- <-; repeat split; auto; discriminate|].
  rewrite D2, F in E. cbn [reboot] in E. rewrite D2, L in E. rewrite <-D1, <-D2, <-D3.
  destruct (e_sync e 1 (c_root d)); injection E as <- <- <-; cbn; repeat split; auto; discriminate.
Qed.
(** Without a service set and without the list of services the client never panics in a start and never trusts any other root than the
    one it was made with, however often it is started and whatever happens. *)
Theorem C118_trust : forall es c c' r, fallback (c_settings c) = None -> load_external (c_settings c) = false -> starts es c = (c', r) ->
  c_root c' = c_root c /\ (c_synced c' = c_synced c \/ c_synced c' = Some (c_root c))
  /\ Forall (fun p => snd p <> Panic /\ forall x, In x (tried (fst p)) -> x = c_root c) r.
Proof.
  intros es. induction es as [|e es IH]; intros c c' r F L S; cbn [starts] in S; [injection S as <- <-; auto|].
  destruct (start e c) as [[c1 l] o] eqn:E. destruct (starts es c1) as [c2 r2] eqn:R. injection S as <- <-.
  destruct (start_plain _ _ _ _ _ F L E) as (X1 & X2 & X3 & X4).
  destruct (C118_start _ _ _ _ _ E) as (_ & _ & _ & T & _).
  destruct (IH c1 c2 r2) as (I1 & I2 & I3); [now rewrite X2|now rewrite X2|exact R|].
  rewrite X1 in *. split; [exact I1|]. split.
  - destruct I2 as [->|I2]; auto.
  - constructor; [|exact I3]. cbn. split; [exact X4|]. intros x H. destruct (T x H) as [H1|[(( u & H1) & _)|(H1 & _)]]; [exact H1|congruence|congruence].
Qed.
Print Assumptions C118_trust.

(** With a service: if the sync from its root fails, the client keeps that root, and the next start trusts it first. *)
Theorem C118_replaced_refuted : forall e e' c u r, c_portal c = false -> rpc_port (c_settings c) = None -> fallback (c_settings c) = Some u -> load_external (c_settings c) = false ->
  e_sync e 1 (c_root c) = TooOld -> e_fallback e = Some r -> e_sync e 2 r = OtherError -> e_sync e' 1 r = Synced ->
  exists c1, start e c = (c1, [(c_root c, TooOld); (r, OtherError)], Err) /\ exists c2, start e' c1 = (c2, [(r, Synced)], Ok tt) /\ c_synced c2 = Some r.
Proof.
  intros e e' c u r P Q F L E1 E2 E3 E4. exists (with_root c r). split.
  - unfold start. rewrite Q, E1, F. unfold reboot. rewrite E2, P, E3. cbn. rewrite L. reflexivity.
  - exists (synced (with_root c r)). split; [|reflexivity]. unfold start. cbn. rewrite Q. cbn. rewrite E4. reflexivity.
Qed.
Print Assumptions C118_replaced_refuted.
(** Over the portal network the answer of a service, given or from the list, makes the start panic. *)
Theorem C118_portal_panics_refuted : forall e c r, c_portal c = true -> rpc_port (c_settings c) = None -> e_sync e 1 (c_root c) = TooOld ->
  (exists u, fallback (c_settings c) = Some u) /\ e_fallback e = Some r \/ fallback (c_settings c) = None /\ load_external (c_settings c) = true /\ e_external e = Some r ->
  start e c = (c, [(c_root c, TooOld)], Panic).
Proof.
  intros e c r P Q E1 [[(u & F) E2]|(F & L & E2)]; unfold start; rewrite Q, E1, F; unfold reboot; rewrite ?E2, ?P; [reflexivity|].
  rewrite L. cbn. reflexivity.
Qed.
Print Assumptions C118_portal_panics_refuted.
(** A client with a server of its own cannot be started again after a start that failed: the port is taken by itself. *)
Theorem C118_port_refuted : forall e es c p c1 l r c2, rpc_port (c_settings c) = Some p -> 0 < p -> e_bind e = true ->
  start e c = (c1, l, Err) -> c_serving c = false -> starts es c1 = (c2, r) -> c2 = c1 /\ Forall (fun x => x = ([], Err)) r.
Proof.
  intros e es c p c1 l r c2 Q P B S V R.
  assert (X : rpc_port (c_settings c1) = Some p /\ c_serving c1 = true).
  { unfold start in S. rewrite Q, V, B in S. rewrite Bool.andb_false_r in S. cbn [c_root serving] in S.
    assert (RB : forall i a d d' m o, reboot e i a d = (d', m, o) -> c_settings d' = c_settings d /\ c_serving d' = c_serving d).
    { intros i a d d' m o Y. unfold reboot in Y. destruct a; [|injection Y as <- _ _; auto]. destruct (c_portal d); [injection Y as <- _ _; auto|]. destruct (e_sync e i b); injection Y as <- _ _; auto. }
    destruct (e_sync e 1 (c_root c)); [discriminate| |injection S as <- _; auto].
    destruct (reboot e 2 _ _) as [[d m] o] eqn:Y. apply RB in Y as [Y1 Y2]. cbn in Y1, Y2. destruct o as [?| |]; [discriminate| |discriminate].
    rewrite Y1 in S. destruct (load_external (c_settings c)).
    - destruct (reboot e 3 _ _) as [[d' m'] o'] eqn:Z. apply RB in Z as [Z1 Z2]. injection S as <- _ _. rewrite Z1, Z2, Y1, Y2. auto.
    - injection S as <- _. rewrite Y1, Y2. auto. }
  destruct X as [X1 X2]. clear S. revert c2 r R. induction es as [|e' es IH]; intros c2 r R; cbn in R; [injection R as <- <-; auto|].
  unfold start in R. rewrite X1, X2 in R. assert (Z : p =? 0 = false) by (apply N.eqb_neq; lia). rewrite Z in R. cbn in R.
  destruct (starts es c1) as [c3 r3] eqn:E. injection R as <- <-. destruct (IH _ _ eq_refl) as [-> I]. auto.
Qed.
Print Assumptions C118_port_refuted.

(** The client wakes 8 seconds into the next slot, so once for every slot if asking takes less than four seconds; *)
Theorem C118_pace : forall genesis now, genesis <= now ->
  now + pause genesis now = genesis + 12 * (slot_at genesis now + 1) + 8 /\
  forall took, (now - genesis) mod 12 = 8 -> took < 4 -> slot_at genesis ((now + took) + pause genesis (now + took)) = slot_at genesis now + 1.
Proof.
  intros g n L. unfold pause, slot_at. split; [lia|]. intros t M T. lia.
Qed.
Print Assumptions C118_pace.
(** otherwise it leaves out a slot. *)
Theorem C118_pace_refuted : forall genesis now took, genesis <= now -> (now - genesis) mod 12 = 8 -> 4 <= took ->
  slot_at genesis now + 2 <= slot_at genesis ((now + took) + pause genesis (now + took)).
Proof. intros g n t L M T. unfold pause, slot_at. lia. Qed.
Print Assumptions C118_pace_refuted.

Definition toy_network : base := {| base_default := repeat 1 32; base_chain := 1; base_max_age := 1209600 |}.
Definition toy_builder : builder :=
  {| bd_network := Some toy_network; bd_rpc := None; bd_checkpoint := Some (repeat 2 32); bd_port := None; bd_dir := Some [47]; bd_config := None; bd_fallback := None; bd_external := false; bd_strict := false |}.
(** As trin builds it (subnetworks/beacon/src/sync.rs:28-43): no service, no list. *)
Example C118_example : exists s c, build_with_rpc toy_builder = Ok s /\ client_new true s (Some (repeat 3 32)) = Ok c /\ c_root c = repeat 2 32
  /\ fallback (c_settings c) = None /\ load_external (c_settings c) = false
  /\ snd (starts [{| e_sync := fun _ _ => OtherError; e_fallback := None; e_external := None; e_bind := true |}; {| e_sync := fun _ _ => Synced; e_fallback := None; e_external := None; e_bind := true |}] c)
     = [([(repeat 2 32, OtherError)], Err); ([(repeat 2 32, Synced)], Ok tt)].
Proof. eexists. eexists. repeat split. Qed.
Example C118_pace_example : pause 1606824023 (1606824023 + 12 * 100 + 8) = 12 /\ pause 1606824023 (1606824023 + 12 * 100) = 20.
Proof. vm_compute. auto. Qed.
