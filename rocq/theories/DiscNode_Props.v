(** The discovery layer of a node. *)
From Verif Require Import Base DiscNode_Model DiscNode_Spec.

Lemma ip_eqb_spec a b : ip_eqb a b = true <-> a = b.
Proof.
  destruct a, b; cbn; try (split; [discriminate|intros [=]]); rewrite N.eqb_eq; split; [intros ->; reflexivity|intros [= ->]; reflexivity| intros ->; reflexivity|intros [= ->]; reflexivity].
Qed.
Lemma ip_eqb_refl a : ip_eqb a a = true.
Proof. now apply ip_eqb_spec. Qed.

Definition ip_of (s : option sock) : option ip := option_map fst s.
Definition port_of (c : config) (s : option sock) : N := match s with Some (_, p) => p | None => listen_port c end.
Lemma known_said c w : exists s, said c w s /\ known_external c w = (ip_of s, port_of c s).
Proof.
  unfold known_external. destruct (no_stun c) eqn:S.
  - exists None. split; [now constructor|reflexivity].
  - destruct (external_addr c) as [[a p]|] eqn:E.
    + exists (Some (a, p)). split; [apply said_by_user; auto|reflexivity].
    + exists (w_stun w). split; [apply said_by_stun; auto|]. destruct (w_stun w) as [[a p]|]; reflexivity.
Qed.
Lemma said_fun c w s s' : said c w s -> said c w s' -> s = s'.
Proof. intros [?|? ? ?|? ? ? ?] [?|? ? ?|? ? ? ?]; congruence. Qed.
Lemma local_spec w a : is_local_addr w a = true <-> exists x l, a = Some x /\ w_interfaces w = Some l /\ In x l.
Proof.
  unfold is_local_addr. destruct a as [x|]; [|split; [discriminate|intros (x & l & E & _); discriminate]].
  destruct (w_interfaces w) as [l|]; [|split; [discriminate|intros (y & l & _ & E & _); discriminate]].
  rewrite existsb_exists. split.
  - intros (y & I & E). apply ip_eqb_spec in E. subst y. eauto.
  - intros (y & l' & [= <-] & [= <-] & I). exists x. split; [exact I|apply ip_eqb_refl].
Qed.
Lemma asked_spec c w s : (negb (no_upnp c) && negb (is_local_addr w (ip_of s)) = true /\ exists a, upnp_for_external w (listen_port c) = Some (a, listen_port c))
  <-> exists a, gateway_gives c w s a.
Proof.
  rewrite Bool.andb_true_iff, !Bool.negb_true_iff. unfold gateway_gives, upnp_for_external. split.
  - intros [[U L] (a & G)]. exists a. split; [exact U|]. split.
    + intros x p l -> I X. assert (is_local_addr w (ip_of (Some (x, p))) = true); [|congruence]. apply local_spec. cbn. eauto.
    + destruct (w_gateway w) as [g|]; [|discriminate]. destruct (g_local g) as [h|] eqn:H; [|discriminate].
      destruct (g_external g) as [b|] eqn:E; [|discriminate]. destruct (g_maps g (listen_port c)) eqn:M; [|discriminate].
      injection G as ->. exists g, h. auto.
  - intros (a & U & L & g & h & G & H & E & M). rewrite G, H, E, M. split; [|eauto]. split; [exact U|].
    destruct (is_local_addr w (ip_of s)) eqn:X; [|reflexivity]. apply local_spec in X as (x & l & E' & I & X).
    destruct s as [[y p]|]; [|discriminate]. injection E' as ->. destruct (L _ _ _ eq_refl I X).
Qed.
Lemma gives_is c w s a : gateway_gives c w s a -> upnp_for_external w (listen_port c) = Some (a, listen_port c).
Proof. intros (_ & _ & g & h & G & H & E & M). unfold upnp_for_external. now rewrite G, H, E, M. Qed.
Lemma address_cases c w s : said c w s ->
  (exists a, gateway_gives c w s a /\ enr_address c w =
     match ip_of s, external_addr c with Some x, Some _ => if ip_eqb x a then Ok (Some a, listen_port c) else Err | _, _ => Ok (Some a, listen_port c) end)
  \/ ((forall a, ~ gateway_gives c w s a) /\ enr_address c w = Ok (ip_of s, port_of c s)).
Proof.
  intros S. destruct (known_said c w) as (s' & S' & K). rewrite <- (said_fun _ _ _ _ S S') in K. clear s' S'.
  unfold enr_address. rewrite K.
  destruct (negb (no_upnp c) && negb (is_local_addr w (ip_of s))) eqn:A.
  - destruct (upnp_for_external w (listen_port c)) as [[a q]|] eqn:U.
    + assert (q = listen_port c) as ->.
      { unfold upnp_for_external in U. destruct (w_gateway w) as [g|]; [|discriminate]. destruct (g_local g); [|discriminate].
        destruct (g_external g); [|discriminate]. destruct (g_maps g (listen_port c)); [|discriminate]. congruence. }
      left. destruct (proj1 (asked_spec c w s)) as (b & G); [split; [exact A|eauto]|].
      pose proof (gives_is _ _ _ _ G). assert (b = a) as -> by congruence. exists a. auto.
    + right. split; [|reflexivity]. intros a G. apply gives_is in G. congruence.
  - right. split; [|reflexivity]. intros a G. destruct (proj2 (asked_spec c w s) (ex_intro _ a G)) as [X _]. congruence.
Qed.

(** The address and the port in the record of a node that starts: those of the gateway and the port it listens on if the
    gateway is asked and gives one, else those that the user or else the STUN server says, else none and the port it listens on. *)
Theorem C119_address : forall c w f s, own_fields c w = Ok f -> said c w s ->
  (forall a, gateway_gives c w s a -> shows f (Some a) /\ f_udp4 f = Some (listen_port c))
  /\ ((forall a, ~ gateway_gives c w s a) ->
      shows f (option_map fst s) /\ f_udp4 f = Some (match s with Some (_, p) => p | None => listen_port c end)).
Proof.
  intros c w f s F S. unfold own_fields in F.
  destruct (address_cases c w s S) as [(a & G & E)|[G E]].
  - split; [|intros N; destruct (N a G)]. intros b B.
    assert (b = a) as ->. { apply gives_is in G, B. congruence. }
    assert (E' : enr_address c w = Ok (Some a, listen_port c)).
    { rewrite E in F |- *. destruct (ip_of s) as [x|]; [|reflexivity]. destruct (external_addr c); [|reflexivity].
      destruct (ip_eqb x a); [reflexivity|discriminate F]. }
    rewrite E' in F. cbn in F. destruct (w_key_ok w); [|discriminate]. injection F as <-. split; [|reflexivity]. destruct a; cbn; auto.
  - split; [intros a A; destruct (G a A)|]. intros _. rewrite E in F. cbn in F. destruct (w_key_ok w); [|discriminate].
    injection F as <-. split; [|destruct s as [[? ?]|]; reflexivity]. destruct s as [[[x|x] p]|]; cbn; auto.
Qed.
Print Assumptions C119_address.

(** A start is refused exactly if the key is no key or the user gave an address and the gateway gives another. *)
Theorem C119_refused : forall c w s, said c w s ->
  (own_fields c w = Err <->
     w_key_ok w = false \/ exists x p a, s = Some (x, p) /\ external_addr c = Some (x, p) /\ gateway_gives c w s a /\ a <> x)
  /\ own_fields c w <> Panic.
Proof.
  intros c w s S. unfold own_fields. destruct (address_cases c w s S) as [(a & G & E)|[G E]]; rewrite E.
  - destruct (ip_of s) as [x|] eqn:I.
    + destruct (external_addr c) as [u|] eqn:X.
      * assert (s = Some u). { destruct S as [N|v N V|v N V W]; [discriminate I|congruence|congruence]. }
        subst s. destruct u as [y p]. injection I as ->.
        destruct (ip_eqb x a) eqn:Q; cbn.
        -- apply ip_eqb_spec in Q. subst x. destruct (w_key_ok w); split; try discriminate; (split; [intros H; auto; discriminate|]); auto.
           intros [H|(x & q & b & [= <- <-] & _ & B & D)]; [discriminate|]. apply gives_is in B, G. congruence.
        -- split; [|discriminate]. split; auto. intros _. right. exists x, p, a. repeat split; try apply G. intros ->. rewrite ip_eqb_refl in Q. discriminate.
      * cbn. destruct (w_key_ok w); split; try discriminate; (split; [intros H; auto; discriminate|]); auto.
        intros [H|(y & q & b & _ & H & _)]; discriminate.
    + cbn. destruct (w_key_ok w); split; try discriminate; (split; [intros H; auto; discriminate|]); auto.
      intros [H|(y & q & b & -> & _)]; discriminate.
  - cbn. destruct (w_key_ok w); split; try discriminate; (split; [intros H; auto; discriminate|]); auto.
    intros [H|(y & q & b & _ & _ & B & _)]; [discriminate|destruct (G b B)].
Qed.
Print Assumptions C119_refused.

(** With an address of the user and no gateway other nodes can contact the node there, and nowhere else; the address has to be of IPv4. *)
Theorem C119_contact : forall c w f a p, own_fields c w = Ok f -> no_stun c = false -> external_addr c = Some (V4 a, p) ->
  (no_upnp c = true \/ upnp_for_external w (listen_port c) = None) -> forall s, contact f s <-> s = (V4 a, p).
Proof.
  intros c w f a p F S E U s.
  destruct (C119_address c w f _ F (said_by_user c w _ S E)) as [_ H]. destruct H as [[H4 H6] P].
  { intros b B. destruct U as [U|U]; [destruct B as [B _]; congruence|apply gives_is in B; congruence]. }
  cbn in H4, H6, P. split.
  - intros [x q X Q|x q X Q]; congruence.
  - intros ->. now constructor.
Qed.
Print Assumptions C119_contact.

(** With an address of IPv6 the record names no place to send to: the port in it is that of IPv4. *)
Theorem C119_ipv6_refuted : forall c w f a p s, own_fields c w = Ok f -> no_stun c = false -> external_addr c = Some (V6 a, p) ->
  (no_upnp c = true \/ upnp_for_external w (listen_port c) = None) -> ~ contact f s.
Proof.
  intros c w f a p s F S E U K.
  destruct (C119_address c w f _ F (said_by_user c w _ S E)) as [_ H]. destruct H as [[H4 H6] P].
  { intros b B. destruct U as [U|U]; [destruct B as [B _]; congruence|apply gives_is in B; congruence]. }
  cbn in H4, H6, P. unfold own_fields in F. destruct (enr_address c w) as [[? ?]| |]; try discriminate. cbn in F.
  destruct (w_key_ok w); [|discriminate]. injection F as <-. destruct K as [x q X Q|x q X Q]; [congruence|discriminate Q].
Qed.
Print Assumptions C119_ipv6_refuted.

(** A gateway that gives the very address the user gave makes the node announce the port it listens on, not the port of the user. *)
Theorem C119_port_refuted : forall c w f a p, own_fields c w = Ok f -> no_stun c = false -> external_addr c = Some (a, p) ->
  gateway_gives c w (Some (a, p)) a -> p <> listen_port c -> f_udp4 f <> Some p.
Proof.
  intros c w f a p F S E G D.
  destruct (C119_address c w f _ F (said_by_user c w _ S E)) as [H _]. destruct (H a G) as [_ P]. congruence.
Qed.
Print Assumptions C119_port_refuted.

(** The sequence number of the record is the time: a start in a later second, and only such a one, has a greater one. *)
Theorem C119_fresh : forall c w f c' w' f', own_fields c w = Ok f -> own_fields c' w' = Ok f' ->
  (w_now w < w_now w' <-> f_seq f < f_seq f')
  /\ f_client f = w_client w /\ f_versions f = w_versions w.
Proof.
  assert (X : forall c w f, own_fields c w = Ok f -> f_seq f = w_now w /\ f_client f = w_client w /\ f_versions f = w_versions w).
  { intros c w f F. unfold own_fields in F. destruct (enr_address c w) as [[? ?]| |]; try discriminate. cbn in F.
    destruct (w_key_ok w); [|discriminate]. injection F as <-. auto. }
  intros c w f c' w' f' F F'. destruct (X _ _ _ F) as (-> & -> & ->), (X _ _ _ F') as (-> & _). tauto.
Qed.
Print Assumptions C119_fresh.

(** Two starts within a second, with different addresses: different records with one sequence number. *)
Theorem C119_same_second_refuted : exists c w f c' w' f', own_fields c w = Ok f /\ own_fields c' w' = Ok f'
  /\ f_seq f = f_seq f' /\ f_ip4 f <> f_ip4 f' /\ w = w'.
Proof.
  set (w := {| w_stun := None; w_interfaces := None; w_gateway := None; w_key_ok := true; w_now := 100; w_client := []; w_versions := [] |}).
  exists {| external_addr := Some (V4 1, 9000); listen_port := 9000; no_stun := false; no_upnp := true; session_cache := 1000 |}, w.
  eexists.
  exists {| external_addr := Some (V4 2, 9000); listen_port := 9000; no_stun := false; no_upnp := true; session_cache := 1000 |}, w.
  eexists. split; [vm_compute; reflexivity|]. split; [vm_compute; reflexivity|]. cbn. repeat split. discriminate.
Qed.
Print Assumptions C119_same_second_refuted.

(** Bootnodes. *)
Lemma bootnodes_spec {T} (add : T -> enr -> option T) own l : forall t t',
  bootnodes add own l t = Some t' <->
  fold_left (fun o e => match o with Some t => add t e | None => None end) (filter (fun e => negb (e_id e =? own)) l) (Some t) = Some t'.
Proof.
  induction l as [|e l IH]; cbn; intros t t'; [tauto|].
  destruct (e_id e =? own) eqn:E; cbn; [apply IH|].
  destruct (add t e) as [t1|]; [apply IH|].
  split; [discriminate|]. intros F. exfalso. revert F. clear. induction (filter _ l); cbn; [discriminate|auto].
Qed.

(** A node starts exactly if its table takes all the bootnodes that are not the node itself, one after the other, the record can be made
    and the cache has room. *)
Theorem C119_start : forall T (add : T -> enr -> option T) c w own boot t f t' cap,
  new add c w own boot t = Ok (f, t', cap) <->
  own_fields c w = Ok f
  /\ fold_left (fun o e => match o with Some t => add t e | None => None end) (filter (fun e => negb (e_id e =? own)) boot) (Some t) = Some t'
  /\ cap = N.to_nat (session_cache c * 2) /\ session_cache c <> 0.
Proof.
  intros T add c w own boot t f t' cap. unfold new.
  destruct (own_fields c w) as [f0| |]; cbn [obind]; [|split; [discriminate|intros [H _]; discriminate]|split; [discriminate|intros [H _]; discriminate]].
  pose proof (fun t' => bootnodes_spec add own boot t t') as B.
  destruct (bootnodes add own boot t) as [t1|] eqn:Q.
  - destruct (N.eqb_spec (session_cache c * 2) 0) as [Z|Z].
    + split; [discriminate|]. intros (_ & _ & _ & N). lia.
    + split.
      * intros E. injection E as <- <- <-. repeat split; [now apply B|]. intros H. apply Z. rewrite H. reflexivity.
      * intros ([= ->] & F & -> & _). apply B in F. congruence.
  - split; [discriminate|]. intros (_ & F & _). apply B in F. discriminate.
Qed.
Print Assumptions C119_start.

(** One bootnode that the table refuses keeps the node from starting, whatever the others are. *)
Theorem C119_bootnode_refuted : forall T (add : T -> enr -> option T) c w own l1 b l2 t r,
  e_id b <> own -> (forall t, add t b = None) -> new add c w own (l1 ++ b :: l2) t <> Ok r.
Proof.
  intros T add c w own l1 b l2 t [[f t'] cap] D R H. apply C119_start in H as (_ & F & _).
  rewrite filter_app, fold_left_app in F. cbn in F. destruct (N.eqb_spec (e_id b) own) as [E|_]; [contradiction|]. cbn in F.
  destruct (fold_left _ (filter _ l1) (Some t)) as [t1|]; cbn in F; [rewrite R in F|].
  all: revert F; clear; induction (filter _ l2); cbn; [discriminate|auto].
Qed.
Print Assumptions C119_bootnode_refuted.

(** The cache. *)
Definition key (e : entry) : N := e_id (fst e).
Lemma without_in k l x : In x (without k l) <-> In x l /\ key x <> k.
Proof. unfold without. rewrite filter_In, Bool.negb_true_iff, N.eqb_neq. tauto. Qed.
Lemma without_keys k l : NoDup (map key l) -> NoDup (map key (without k l)).
Proof.
  induction l as [|e l IH]; cbn; intros H; [constructor|]. inversion_clear H as [|? ? A B].
  destruct (negb (e_id (fst e) =? k)); cbn; [|auto]. constructor; [|auto].
  intros I. apply in_map_iff in I as (x & E & I). apply without_in in I as [I _]. apply A. rewrite <- E. now apply in_map.
Qed.
Lemma without_key k l : ~ In k (map key (without k l)).
Proof. intros I. apply in_map_iff in I as (x & E & I). apply without_in in I as [_ D]. auto. Qed.
Lemma without_len k l : (length (without k l) <= length l)%nat.
Proof. unfold without. induction l as [|e l IH]; cbn; [lia|]. destruct (negb _); cbn; lia. Qed.
Lemma without_absent k l : ~ In k (map key l) -> without k l = l.
Proof.
  induction l as [|e l IH]; cbn; [auto|]. intros H. destruct (N.eqb_spec (e_id (fst e)) k) as [E|E]; cbn.
  - destruct H. auto.
  - f_equal. apply IH. auto.
Qed.
Lemma firstn_NoDup {A} (l : list A) : forall n, NoDup l -> NoDup (firstn n l).
Proof.
  intros n H. rewrite <- (firstn_skipn n l) in H. clear -H. induction (firstn n l) as [|a f IH]; [constructor|].
  cbn in H. inversion_clear H as [|? ? A1 B]. constructor; [|auto]. intros I. apply A1, in_or_app. auto.
Qed.
Lemma firstn_in {A} (l : list A) n x : In x (firstn n l) -> In x l.
Proof. intros I. rewrite <- (firstn_skipn n l). apply in_or_app. auto. Qed.
Lemma find_key k l e : find (fun e : entry => e_id (fst e) =? k) l = Some e -> In e l /\ key e = k.
Proof. intros F. apply find_some in F as [I E]. apply N.eqb_eq in E. auto. Qed.
Lemma find_absent k l : find (fun e : entry => e_id (fst e) =? k) l = None -> ~ In k (map key l).
Proof. intros F I. apply in_map_iff in I as (x & E & I). apply (List.find_none _ _ F) in I. cbn in I. apply N.eqb_neq in I. auto. Qed.
Lemma find_present k l e : NoDup (map key l) -> In e l -> key e = k -> find (fun e : entry => e_id (fst e) =? k) l = Some e.
Proof.
  induction l as [|a l IH]; cbn; [tauto|]. intros D I E. inversion_clear D as [|? ? A B].
  destruct (N.eqb_spec (e_id (fst a)) k) as [Q|Q].
  - destruct I as [->|I]; [reflexivity|]. destruct A. fold (key a) in Q. rewrite Q, <- E. now apply (in_map key).
  - destruct I as [->|I]; [contradiction|auto].
Qed.
Lemma happen_inv cap l v : NoDup (map key l) -> (length l <= cap)%nat ->
  NoDup (map key (happen cap l v)) /\ (length (happen cap l v) <= cap)%nat.
Proof.
  intros D L.
  assert (P : forall e, NoDup (map key (cache_put cap e l)) /\ (length (cache_put cap e l) <= cap)%nat).
  { intros e. unfold cache_put. rewrite firstn_map || rewrite <- firstn_map. split; [|rewrite firstn_length; lia].
    apply firstn_NoDup. cbn [map]. constructor; [apply without_key|now apply without_keys]. }
  destruct v as [e|e|k]; cbn [happen]; [apply P|apply P|]. unfold cache_get.
  destruct (find _ l) as [e|] eqn:F; cbn [snd]; [|auto]. apply find_key in F as [I E]. split.
  - cbn [map]. constructor; [|now apply without_keys]. rewrite E. apply without_key.
  - cbn [length]. assert (length (without k l) < length l)%nat; [|lia].
    revert I E. clear. unfold without, key. induction l as [|a l IH]; [intros []|]. intros [->|I] E; cbn.
    + rewrite E, N.eqb_refl. cbn. pose proof (without_len k l). unfold without in H. lia.
    + specialize (IH I E). destruct (negb _); cbn; lia.
Qed.
Lemma happened_inv cap vs : forall l, NoDup (map key l) -> (length l <= cap)%nat ->
  NoDup (map key (happened cap vs l)) /\ (length (happened cap vs l) <= cap)%nat.
Proof.
  induction vs as [|v vs IH]; intros l D L; [auto|]. unfold happened. cbn. destruct (happen_inv cap l v D L). now apply IH.
Qed.
Lemma happened_app cap a b l : happened cap (a ++ b) l = happened cap b (happened cap a l).
Proof. apply fold_left_app. Qed.
Lemma happened_snoc cap a v l : happened cap (a ++ [v]) l = happen cap (happened cap a l) v.
Proof. unfold happened. now rewrite fold_left_app. Qed.

(** However many sessions there were, the cache has at most as many entries as it has room for, one per node, and what it has of a
    node is what was filed last for that node. *)
Theorem C119_cache : forall cap vs,
  (length (happened cap vs []) <= cap)%nat
  /\ NoDup (map (fun e : entry => e_id (fst e)) (happened cap vs []))
  /\ forall k e, fst (cache_get k (happened cap vs [])) = Some e -> filed_last vs k e.
Proof.
  intros cap vs. destruct (happened_inv cap vs [] (NoDup_nil _) ltac:(cbn; lia)) as [D L]. split; [exact L|]. split; [exact D|].
  assert (A : forall vs e, In e (happened cap vs []) -> filed_last vs (key e) e).
  { clear. intros vs. induction vs as [|v vs IH] using rev_ind; [intros e []|]. intros e. rewrite happened_snoc.
    destruct (happened_inv cap vs [] (NoDup_nil _) ltac:(cbn; lia)) as [D _].
    assert (P : forall x, files v = Some x -> about v = key x -> In e (cache_put cap x (happened cap vs [])) -> filed_last (vs ++ [v]) (key e) e).
    { intros x F B I. unfold cache_put in I. apply firstn_in in I as [<-|I].
      - exists vs, v, []. repeat split; auto.
      - apply without_in in I as [I N]. destruct (IH e I) as (l1 & u & l2 & -> & U & W & Z).
        exists l1, u, (l2 ++ [v]). rewrite <- app_assoc. repeat split; auto.
        intros y Y. apply in_app_or in Y as [Y|[<-|[]]]; [auto|]. rewrite B. intros _. fold (key x) in N. congruence. }
    destruct v as [x|x|k]; cbn [happen]; [apply (P x); reflexivity|apply (P x); reflexivity|].
    intros I. assert (I' : In e (happened cap vs [])).
    { unfold cache_get in I. destruct (find _ _) as [y|] eqn:F; [|exact I]. cbn [snd] in I. apply find_key in F as [Y _].
      destruct I as [<-|I]; [exact Y|now apply without_in in I]. }
    destruct (IH e I') as (l1 & u & l2 & -> & U & W & Z). exists l1, u, (l2 ++ [Ask k]). rewrite <- app_assoc. repeat split; auto.
    intros y Y. apply in_app_or in Y as [Y|[<-|[]]]; [auto|]. intros N. destruct N. reflexivity. }
  intros k e G. unfold cache_get in G. destruct (find _ _) as [x|] eqn:F; [|discriminate]. cbn [fst] in G.
  assert (x = e) as -> by congruence. apply find_key in F as [I <-]. now apply A.
Qed.
Print Assumptions C119_cache.

Lemma without_app k a b : without k (a ++ b) = without k a ++ without k b.
Proof. apply filter_app. Qed.
Lemma keep_step cap k e others v l p q :
  (length others < cap)%nat -> (about v = k \/ In (about v) others) -> (about v = k -> files v = None) ->
  key e = k -> NoDup (map key l) -> l = p ++ e :: q -> incl (map key p) others ->
  exists p' q', happen cap l v = p' ++ e :: q' /\ incl (map key p') others.
Proof.
  intros C O F K D -> I.
  assert (E : forall k', k' <> k -> without k' (e :: q) = e :: without k' q).
  { intros k' N. unfold without. cbn. fold (key e). rewrite K. destruct (N.eqb_spec k k'); [congruence|reflexivity]. }
  assert (W : forall x, key x <> k -> In (key x) others ->
              incl (map key (x :: without (key x) p)) others /\ NoDup (map key (x :: without (key x) p))).
  { intros x N X. split.
    - intros y [<-|Y]; [exact X|]. apply in_map_iff in Y as (z & <- & Z). apply without_in in Z as [Z _]. apply I. now apply in_map.
    - cbn [map]. constructor; [apply without_key|]. apply without_keys. rewrite map_app in D. clear -D.
      induction (map key p) as [|a m IH]; [constructor|]. cbn in D. inversion_clear D as [|? ? A B]. constructor; [|auto].
      intros I. apply A, in_or_app. auto. }
  assert (P : forall x, key x <> k -> In (key x) others -> exists p' q', cache_put cap x (p ++ e :: q) = p' ++ e :: q' /\ incl (map key p') others).
  { intros x N X. unfold cache_put. rewrite without_app. fold (key x). rewrite (E (key x) N).
    destruct (W x N X) as [W1 W2]. exists (x :: without (key x) p).
    assert (M : (length (x :: without (key x) p) <= length others)%nat).
    { rewrite <- (map_length key). apply NoDup_incl_length; auto. }
    change (x :: without (key x) p ++ e :: without (key x) q) with ((x :: without (key x) p) ++ e :: without (key x) q).
    rewrite firstn_app. rewrite firstn_all2 by lia.
    destruct (cap - length (x :: without (key x) p))%nat as [|m] eqn:Z; [lia|]. cbn [firstn]. eexists. split; [reflexivity|exact W1]. }
  assert (O' : about v = k -> exists p' q', happen cap (p ++ e :: q) v = p' ++ e :: q' /\ incl (map key p') others).
  { intros A. specialize (F A). destruct v as [x|x|k']; try discriminate. cbn in A. subst k'. cbn [happen]. unfold cache_get.
    rewrite (find_present k (p ++ e :: q) e D); [|apply in_or_app; right; now left|exact K]. cbn [snd].
    exists [], (without k (p ++ e :: q)). split; [reflexivity|]. intros y []. }
  destruct (N.eq_dec (about v) k) as [A|A]; [auto|]. destruct O as [O|O]; [auto|].
  destruct v as [x|x|k']; cbn [happen about] in *; [now apply P|now apply P|]. unfold cache_get.
  destruct (find (fun e0 : entry => e_id (fst e0) =? k') (p ++ e :: q)) as [x|] eqn:G; cbn [snd]; [|eauto].
  apply find_key in G as [_ <-]. rewrite without_app. rewrite (E _ A). destruct (W x A O) as [W1 _].
  exists (x :: without (key x) p), (without (key x) q). split; [reflexivity|exact W1].
Qed.
(** What was filed for a node is found as long as nothing else is filed for it and fewer other nodes than there is room for have been filed
    or asked for since. *)
Theorem C119_kept : forall cap before v after e others table,
  files v = Some e -> (length others < cap)%nat ->
  (forall u, In u after -> about u = about v \/ In (about u) others) ->
  (forall u, In u after -> about u = about v -> files u = None) ->
  find_enr (happened cap (before ++ v :: after) []) table (about v) = Some (fst e)
  /\ fst (cache_get (about v) (happened cap (before ++ v :: after) [])) = Some e.
Proof.
  intros cap before v after e others table F C O N.
  assert (K : key e = about v) by (destruct v; cbn in F; try discriminate; injection F as ->; reflexivity).
  assert (X : exists p q, happened cap (before ++ v :: after) [] = p ++ e :: q /\ incl (map key p) others).
  { induction after as [|u after IH] using rev_ind.
    - rewrite happened_snoc. exists []. destruct cap as [|cap]; [lia|].
      destruct v as [x|x|k]; cbn in F; [| |discriminate]; injection F as ->; cbn [happen]; unfold cache_put; cbn [firstn]; eexists; (split; [reflexivity|intros y []]).
    - destruct IH as (p & q & E & I).
      + intros y Y. apply O, in_or_app. auto.
      + intros y Y. apply N, in_or_app. auto.
      + replace (before ++ v :: after ++ [u]) with ((before ++ v :: after) ++ [u]) by (rewrite <- app_assoc; reflexivity).
        rewrite happened_snoc. eapply (keep_step cap (about v) e others u); eauto.
        * apply O, in_or_app. right. now left.
        * apply N, in_or_app. right. now left.
        * destruct (happened_inv cap (before ++ v :: after) [] (NoDup_nil _) ltac:(cbn; lia)) as [D _]. exact D. }
  destruct X as (p & q & E & _). destruct (happened_inv cap (before ++ v :: after) [] (NoDup_nil _) ltac:(cbn; lia)) as [D _].
  rewrite E in *. unfold find_enr, cache_get.
  rewrite (find_present (about v) (p ++ e :: q) e D); [|apply in_or_app; right; now left|exact K]. auto.
Qed.
Print Assumptions C119_kept.

(** A record that is found is one of the node that was asked for, if the table files records by their id. *)
Theorem C119_right_node : forall cap vs table k e, (forall i r, table i = Some r -> e_id r = i) ->
  get_enr (happened cap vs []) table k = Ok e -> e_id e = k.
Proof.
  intros cap vs table k e T G. unfold get_enr, find_enr in G.
  destruct (fst (cache_get k (happened cap vs []))) as [x|] eqn:F.
  - cbn in G. injection G as <-. unfold cache_get in F. destruct (find _ _) as [y|] eqn:Y; [|discriminate]. cbn in F. injection F as <-.
    now apply find_key in Y.
  - destruct (table k) as [x|] eqn:X; [|discriminate]. cbn in G. injection G as <-. eauto.
Qed.
Print Assumptions C119_right_node.

(** A record that was deleted is gone if there was no session with the node. *)
Theorem C119_deleted : forall cap vs table k, (forall v, In v vs -> about v <> k) ->
  get_enr (happened cap vs []) (fst (delete_enr table k)) k = Err
  /\ (snd (delete_enr table k) = true <-> exists r, table k = Some r)
  /\ forall i, i <> k -> fst (delete_enr table k) i = table i.
Proof.
  intros cap vs table k N. split; [|split].
  - unfold get_enr, find_enr. destruct (fst (cache_get k (happened cap vs []))) as [e|] eqn:G.
    + destruct (C119_cache cap vs) as (_ & _ & H). destruct (H k e G) as (l1 & v & l2 & -> & _ & A & _).
      destruct (N v); [apply in_or_app; right; now left|exact A].
    + cbn. now rewrite N.eqb_refl.
  - cbn. destruct (table k) as [r|]; split; try discriminate; eauto. intros (r & H). discriminate.
  - intros i D. cbn. destruct (N.eqb_spec i k); congruence.
Qed.
Print Assumptions C119_deleted.

(** After a session a record is found although it was deleted, and the record of the session is found although the table has a newer one. *)
Theorem C119_deleted_refuted : forall cap before e after others table,
  (length others < cap)%nat ->
  (forall u, In u after -> In (about u) others /\ about u <> e_id (fst e)) ->
  let k := e_id (fst e) in
  let l := happened cap (before ++ Session e :: after) [] in
  get_enr l (fst (delete_enr table k)) k = Ok (fst e) /\ get_enr l table k = Ok (fst e).
Proof.
  intros cap before e after others table C O k l. unfold get_enr, l, k.
  assert (A : forall u, In u after -> about u = about (Session e) \/ In (about u) others) by (intros u U; right; now apply O).
  assert (B : forall u, In u after -> about u = about (Session e) -> files u = None) by (intros u U E; destruct (O u U) as [_ D]; destruct (D E)).
  split.
  - destruct (C119_kept cap before (Session e) after e others (fst (delete_enr table (e_id (fst e)))) eq_refl C A B) as [H _].
    cbn [about] in H. rewrite H. reflexivity.
  - destruct (C119_kept cap before (Session e) after e others table eq_refl C A B) as [H _]. cbn [about] in H. rewrite H. reflexivity.
Qed.
Print Assumptions C119_deleted_refuted.

(** Looking up the record of a node. *)
Lemma loop_sound ask k : forall l r, lookup_loop ask k l = Ok r ->
  e_id r = k /\ (In r l \/ exists e rs, In e l /\ ask e [256] = Some rs /\ In r rs).
Proof.
  induction l as [|e l IH]; cbn; intros r H; [discriminate|].
  destruct (N.eqb_spec (e_id e) k) as [E|E].
  - injection H as <-. auto.
  - destruct (ask e [256]) as [rs|] eqn:A; [|discriminate]. destruct (find _ rs) as [x|] eqn:F.
    + injection H as <-. apply find_some in F as [I Q]. apply N.eqb_eq in Q. split; [exact Q|]. right. exists e, rs. auto.
    + destruct (IH r H) as [Q [I|(y & ys & I & Y & R)]]; split; eauto. right. exists y, ys. auto.
Qed.
(** The record is one of the node, sent by the search or by a node that the search named. *)
Theorem C119_lookup : forall nearest ask k r, lookup_enr nearest ask k = Ok r ->
  e_id r = k /\ exists l, nearest = Some l /\ (In r l \/ exists e rs, In e l /\ ask e [256] = Some rs /\ In r rs).
Proof.
  intros [l|] ask k r H; [|discriminate]. apply loop_sound in H as [E I]. eauto.
Qed.
Print Assumptions C119_lookup.

(** If all nodes before answer, a record that the search named or that one of the named nodes sends is found. *)
Theorem C119_lookup_finds : forall l1 e l2 ask k,
  (forall x, In x l1 -> ask x [256] <> None) ->
  e_id e = k \/ (exists rs r, ask e [256] = Some rs /\ In r rs /\ e_id r = k) ->
  exists r, lookup_enr (Some (l1 ++ e :: l2)) ask k = Ok r.
Proof.
  intros l1 e l2 ask k A H. unfold lookup_enr. induction l1 as [|x l1 IH]; cbn.
  - destruct (N.eqb_spec (e_id e) k) as [E|E]; [eauto|]. destruct H as [H|(rs & r & Q & I & R)]; [contradiction|]. rewrite Q.
    destruct (find _ rs) as [y|] eqn:F; [eauto|]. apply (List.find_none _ _ F) in I. cbn in I. apply N.eqb_neq in I. contradiction.
  - destruct (e_id x =? k); [eauto|]. destruct (ask x [256]) as [rs|] eqn:Q; [|destruct (A x (or_introl eq_refl) Q)].
    destruct (find _ rs); [eauto|]. apply IH. intros y Y. apply A. now right.
Qed.
Print Assumptions C119_lookup_finds.

(** One node that does not answer ends the lookup, even if the next one in the list is the node that is looked for. *)
Theorem C119_silent_refuted : forall l1 x l2 ask k,
  (forall y, In y l1 -> e_id y <> k /\ exists rs, ask y [256] = Some rs /\ forall r, In r rs -> e_id r <> k) ->
  e_id x <> k -> ask x [256] = None -> lookup_enr (Some (l1 ++ x :: l2)) ask k = Err.
Proof.
  intros l1 x l2 ask k A D Q. unfold lookup_enr. induction l1 as [|y l1 IH]; cbn.
  - destruct (N.eqb_spec (e_id x) k); [contradiction|]. now rewrite Q.
  - destruct (A y (or_introl eq_refl)) as (N & rs & R & M). destruct (N.eqb_spec (e_id y) k); [contradiction|]. rewrite R.
    destruct (find _ rs) as [z|] eqn:F; [apply find_some in F as [I E]; apply N.eqb_eq in E; destruct (M z I E)|].
    apply IH. intros w W. apply A. now right.
Qed.
Print Assumptions C119_silent_refuted.

(** Named nodes are asked for distance 256 only: if they answer as they should, a node that shares its first bit with all of them is not found,
    whoever of them knows it. *)
Theorem C119_distance_refuted : forall l ask k, honest ask ->
  (forall e, In e l -> e_id e <> k /\ N.lxor (e_id e) k < 2 ^ 255) -> lookup_enr (Some l) ask k = Err.
Proof.
  intros l ask k H A. unfold lookup_enr. induction l as [|e l IH]; cbn; [reflexivity|].
  destruct (A e (or_introl eq_refl)) as [N D]. destruct (N.eqb_spec (e_id e) k); [contradiction|].
  destruct (ask e [256]) as [rs|] eqn:Q; [|reflexivity]. destruct (find _ rs) as [z|] eqn:F.
  - apply find_some in F as [I E]. apply N.eqb_eq in E. destruct (H e [256] rs z Q I) as (d & [<-|[]] & [[L _] _]).
    rewrite E in L. change (256 - 1) with 255 in L. exfalso. revert D L. generalize (N.lxor (e_id e) k) (2 ^ 255). lia.
  - apply IH. intros w W. apply A. now right.
Qed.
Print Assumptions C119_distance_refuted.

(** Packets of uTP: of two records of a peer the newer one is kept, a packet goes to the peer it is meant for, and arrives whole if there is room. *)
Theorem C119_utp :
  (forall a b r, consolidate a b = Ok r -> (r = a \/ r = b) /\ e_seq a <= e_seq r /\ e_seq b <= e_seq r /\ e_id r = e_id a /\ e_id r = e_id b)
  /\ (forall a b, consolidate a b = Panic <-> e_id a <> e_id b)
  /\ (forall cap vs table k e, (forall i r, table i = Some r -> e_id r = i) -> send_to (happened cap vs []) table k None = Some e -> e_id e = k)
  /\ (forall l table k e, send_to l table k (Some e) = Some e)
  /\ (forall room packet, (length packet <= room)%nat -> recv_from room packet = packet)
  /\ (forall room packet, (room < length packet)%nat -> recv_from room packet = firstn room packet).
Proof.
  split; [|split; [|split; [|split; [|split]]]].
  - intros a b r H. unfold consolidate in H. destruct (N.eqb_spec (e_id a) (e_id b)) as [E|E]; [|discriminate].
    destruct (N.leb_spec (e_seq b) (e_seq a)); injection H as <-; repeat split; auto; lia.
  - intros a b. unfold consolidate. destruct (N.eqb_spec (e_id a) (e_id b)) as [E|E]; [|split; auto].
    destruct (e_seq b <=? e_seq a); split; intros X; try discriminate; contradiction.
  - intros cap vs table k e T S. apply (C119_right_node cap vs table k e T). unfold get_enr. cbn in S. now rewrite S.
  - reflexivity.
  - intros room packet L. unfold recv_from. apply firstn_all2. lia.
  - intros room packet L. unfold recv_from. f_equal. lia.
Qed.
Print Assumptions C119_utp.

(** The port stays mapped as long as each renewal goes well and takes at most half an hour. *)
Theorem C119_lease : forall late good t, (forall i, good i = true) -> (forall i, late i <= 1800) -> mapped late good t.
Proof.
  intros late good t G L.
  assert (M : forall i, tried_at late i <= t -> mapped late good t \/ tried_at late (S i) <= t).
  { intros i A. destruct (N.le_gt_cases (tried_at late (S i)) t) as [B|B]; [auto|]. left. exists i. split; [apply G|]. split; [exact A|].
    cbn [tried_at] in B. specialize (L i). change UPNP_MAPPING_TIMEOUT with 1800 in B. change UPNP_MAPPING_DURATION with 3600. lia. }
  assert (X : forall n, mapped late good t \/ tried_at late n <= t).
  { induction n as [|n IH]; [right; cbn; lia|]. destruct IH as [IH|IH]; [auto|]. now apply M. }
  assert (Y : forall n, N.of_nat n * 1800 <= tried_at late n).
  { induction n as [|n IH]; [cbn; lia|]. cbn [tried_at]. change UPNP_MAPPING_TIMEOUT with 1800. lia. }
  destruct (X (N.to_nat (t + 1))) as [H|H]; [exact H|]. specialize (Y (N.to_nat (t + 1))). lia.
Qed.
Print Assumptions C119_lease.

Lemma tried_mono late i j : (i <= j)%nat -> tried_at late i <= tried_at late j.
Proof. induction 1 as [|j H IH]; [lia|]. cbn [tried_at]. lia. Qed.
(** One renewal that fails leaves a time without mapping if the tries take any time at all. *)
Theorem C119_lease_refuted : forall late good i, good (S i) = false -> 0 < late i + late (S i) ->
  ~ mapped late good (tried_at late i + 3600).
Proof.
  intros late good i B P (j & G & L & H). change UPNP_MAPPING_DURATION with 3600 in H.
  assert (j = S i \/ (j <= i)%nat \/ (S (S i) <= j)%nat) as [->|[J|J]] by lia.
  - congruence.
  - pose proof (tried_mono late j i J). lia.
  - pose proof (tried_mono late (S (S i)) j J) as M. cbn [tried_at] in M. change UPNP_MAPPING_TIMEOUT with 1800 in M. lia.
Qed.
Print Assumptions C119_lease_refuted.

(** A node behind a gateway, sessions with three nodes in a cache for two, a lookup. *)
Definition toy_config : config := {| external_addr := Some (V4 77, 9001); listen_port := 9000; no_stun := false; no_upnp := false; session_cache := 1 |}.
Definition toy_gateway (a : ip) : gateway := {| g_local := Some (V4 5); g_external := Some a; g_maps := fun _ => true |}.
Definition toy_world (a : ip) : world :=
  {| w_stun := Some (V4 78, 4000); w_interfaces := Some [V4 5]; w_gateway := Some (toy_gateway a); w_key_ok := true; w_now := 100; w_client := [116]; w_versions := [0; 1] |}.
Example C119_example :
  (exists f, own_fields toy_config (toy_world (V4 77)) = Ok f /\ contact f (V4 77, 9000) /\ f_seq f = 100)
  /\ own_fields toy_config (toy_world (V4 79)) = Err
  /\ gateway_gives toy_config (toy_world (V4 77)) (Some (V4 77, 9001)) (V4 77)
  /\ (exists f, new (fun (t : list enr) e => Some (e :: t)) toy_config (toy_world (V4 77)) 1 [{| e_id := 1; e_seq := 0; e_rest := 0 |}; {| e_id := 2; e_seq := 0; e_rest := 0 |}] []
        = Ok (f, [{| e_id := 2; e_seq := 0; e_rest := 0 |}], 2%nat)).
Proof.
  split; [|split; [|split]].
  - eexists. split; [vm_compute; reflexivity|]. split; [constructor; reflexivity|reflexivity].
  - vm_compute. reflexivity.
  - split; [reflexivity|]. split; [intros x p l [= <- <-] [= <-] [H|[]]; discriminate H|]. exists (toy_gateway (V4 77)), (V4 5). repeat split.
  - eexists. vm_compute. reflexivity.
Qed.
Definition toy_enr (i s : N) : enr := {| e_id := i; e_seq := s; e_rest := 0 |}.
Example C119_cache_example :
  let vs := [Session (toy_enr 7 1, (V4 1, 1)); Session (toy_enr 8 1, (V4 2, 2)); Ask 7; Session (toy_enr 9 1, (V4 3, 3))] in
  find_enr (happened 2 vs []) (fun _ => None) 7 = Some (toy_enr 7 1)
  /\ find_enr (happened 2 vs []) (fun _ => None) 8 = None
  /\ find_enr (happened 2 vs []) (fun i => Some (toy_enr i 5)) 7 = Some (toy_enr 7 1).
Proof. vm_compute. auto. Qed.
Example C119_lookup_example :
  let ask e (ds : list N) := if (e_id e =? 1) && existsb (N.eqb 256) ds then Some [toy_enr (2 ^ 255 + 2) 1] else None in
  lookup_enr (Some [toy_enr 1 0; toy_enr 3 0]) ask (2 ^ 255 + 2) = Ok (toy_enr (2 ^ 255 + 2) 1)
  /\ lookup_enr (Some [toy_enr 3 0; toy_enr 1 0]) ask (2 ^ 255 + 2) = Err
  /\ honest ask.
Proof.
  cbv zeta. split; [vm_compute; reflexivity|]. split; [vm_compute; reflexivity|].
  intros e ds rs r H I. destruct (N.eqb_spec (e_id e) 1) as [E|E]; [|discriminate]. cbn [andb] in H.
  destruct (existsb (N.eqb 256) ds) eqn:X; [|discriminate]. injection H as <-. destruct I as [<-|[]].
  apply existsb_exists in X as (d & D & Q). apply N.eqb_eq in Q. subst d. exists 256. split; [exact D|]. rewrite E. vm_compute. repeat split; discriminate.
Qed.
