From Coq Require Import String Ascii ListDec.
From Verif Require Import Base Ping_Model Ping_Proofs Trie_Model Args_Model Capacity_Model StateContent_Proofs Builders_Props Serve_Model Serve_Spec.

Lemma addr_eqb_spec a b : addr_eqb a b = true <-> a = b.
Proof.
  destruct a as [[x|x] p], b as [[y|y] q]; unfold addr_eqb, ip_eqb; cbn; rewrite ?andb_true_iff, ?N.eqb_eq; split; intros H; try discriminate;
    try (destruct H; subst; reflexivity); try (destruct H; discriminate); injection H as -> ->; auto.
Qed.
Lemma rpc_module_eqb_spec a b : rpc_module_eqb a b = true <-> a = b.
Proof. destruct a, b; cbn; split; congruence. Qed.
Lemma rpc_module_dec (a b : rpc_module) : {a = b} + {a <> b}.
Proof. decide equality. Qed.
Lemma subnetwork_dec (a b : subnetwork) : {a = b} + {a <> b}.
Proof. decide equality. Qed.
Lemma has_spec l m : has l m = true <-> In m l.
Proof.
  unfold has. rewrite existsb_exists. split; [intros (x & I & E); apply rpc_module_eqb_spec in E; subst; exact I|].
  intros I. exists m. split; [exact I|apply rpc_module_eqb_spec; reflexivity].
Qed.
Lemma enabled_spec l s : enabled l s = true <-> In s l.
Proof.
  unfold enabled. rewrite existsb_exists. split; [intros (x & I & E)|intros I; exists s; split; [exact I|destruct s; reflexivity]].
  assert (s = x) by (destruct s, x; cbn in E; congruence). subst. exact I.
Qed.

(** ** Names *)
Definition names (m : rpc_module) : list string :=
  match m with
  | MBeacon => beacon_methods | MDiscv5 => discv5_methods | MEth => eth_methods
  | MLegacyHistory => legacy_history_methods | MState => state_methods | MWeb3 => web3_methods
  end.
Lemma str_in n l : existsb (String.eqb n) l = true <-> In n l.
Proof.
  rewrite existsb_exists. split; [intros (x & I & E); apply String.eqb_eq in E; subst; exact I|].
  intros I. exists n. split; [exact I|apply String.eqb_refl].
Qed.
Lemma names_prefix m n : In n (names m) <-> In n interface /\ prefix (module_prefix m) n = true.
Proof.
  assert (A : forall n, In n interface -> existsb (String.eqb n) (names m) = prefix (module_prefix m) n).
  { assert (B : forallb (fun n => eqb (existsb (String.eqb n) (names m)) (prefix (module_prefix m) n)) interface = true) by (destruct m; vm_compute; reflexivity).
    rewrite forallb_forall in B. intros x I. apply eqb_prop. exact (B x I). }
  assert (B : In n (names m) -> In n interface) by (unfold interface; destruct m; cbn [names]; rewrite !in_app_iff; tauto).
  split.
  - intros I. split; [exact (B I)|]. rewrite <- (A n (B I)). apply str_in. exact I.
  - intros (I & P). apply str_in. rewrite (A n I). exact P.
Qed.
Lemma prefix_one m m' n : In n interface -> prefix (module_prefix m) n = true -> prefix (module_prefix m') n = true -> m = m'.
Proof.
  assert (B : forallb (fun n => forallb (fun a => forallb (fun b => implb (prefix (module_prefix a) n && prefix (module_prefix b) n) (rpc_module_eqb a b))
    [MBeacon; MDiscv5; MEth; MLegacyHistory; MState; MWeb3]) [MBeacon; MDiscv5; MEth; MLegacyHistory; MState; MWeb3]) interface = true) by (vm_compute; reflexivity).
  intros I P P'. rewrite forallb_forall in B. specialize (B n I). rewrite forallb_forall in B.
  assert (AL : forall x, In x [MBeacon; MDiscv5; MEth; MLegacyHistory; MState; MWeb3]) by (intros []; cbn; tauto).
  specialize (B m (AL m)). rewrite forallb_forall in B. specialize (B m' (AL m')). rewrite P, P' in B. cbn in B. apply rpc_module_eqb_spec. exact B.
Qed.
Lemma names_one m m' n : In n (names m) -> In n (names m') -> m = m'.
Proof. rewrite !names_prefix. intros (I & P) (_ & P'). exact (prefix_one m m' n I P P'). Qed.
Lemma names_some m : exists n, In n (names m).
Proof. destruct m; cbn [names]; eexists; left; reflexivity. Qed.
Lemma names_nodup m : NoDup (names m).
Proof.
  assert (B : forall l : list string, (fix f l := match l with [] => true | x :: r => negb (existsb (String.eqb x) r) && f r end) l = true -> NoDup l).
  { induction l as [|x l IH]; intros H; constructor; apply andb_prop in H; destruct H as [H1 H2]; [|exact (IH H2)].
    intros I. apply str_in in I. rewrite I in H1. discriminate. }
  apply B. destruct m; vm_compute; reflexivity.
Qed.

Section P.
Context {C : Type}.
Implicit Types ch : channels C.
Lemma ok_inj {A} (a b : A) : Ok a = Ok b -> a = b.
Proof. congruence. Qed.
(** ** Modules *)
Lemma module_methods_ok ch m x : module_methods ch m = Ok x -> map fst x = names m.
Proof.
  unfold module_methods. destruct m; try destruct (c_history ch); try destruct (c_beacon ch); try destruct (c_state ch);
    intros [= <-]; reflexivity.
Qed.
Lemma module_methods_panic ch m : (lacks ch m -> module_methods ch m = Panic) /\ (~ lacks ch m -> exists x, module_methods ch m = Ok x).
Proof.
  unfold module_methods, lacks. destruct m, (c_history ch), (c_beacon ch), (c_state ch); split; intros H; try discriminate; try tauto; eauto; exfalso; apply H; reflexivity.
Qed.
Lemma merge_no_panic (acc x : list (string * target C)) :
  merge acc x = if existsb (fun p => existsb (fun q => String.eqb (fst p) (fst q)) acc) x then Panic else Ok (acc ++ x).
Proof. reflexivity. Qed.
Lemma merge_modules ch : forall ms xs done acc, Forall2 (fun m x => module_methods ch m = Ok x) ms xs ->
  map fst acc = flat_map names done -> NoDup done ->
  (NoDup (done ++ ms) -> merge_all acc xs = Ok (acc ++ concat xs)) /\ (~ NoDup (done ++ ms) -> merge_all acc xs = Panic).
Proof.
  intros ms xs. revert ms. induction xs as [|x xs IH]; intros ms done acc F A D; inversion F as [|m x0 ms' xs' E F']; subst; cbn [merge_all concat].
  - rewrite !app_nil_r. split; [reflexivity|tauto].
  - unfold merge.
    destruct (existsb (fun p => existsb (fun q => String.eqb (fst p) (fst q)) acc) x) eqn:Q.
    + split; [|reflexivity]. intros N. exfalso.
      apply existsb_exists in Q. destruct Q as ((n & t) & I & Q). apply existsb_exists in Q. destruct Q as ((n' & t') & I' & Q). cbn in Q.
      apply String.eqb_eq in Q. subst n'.
      assert (N1 : In n (names m)) by (rewrite <- (module_methods_ok _ _ _ E); apply (in_map fst _ _ I)).
      assert (N2 : In n (flat_map names done)) by (rewrite <- A; apply (in_map fst _ _ I')).
      apply in_flat_map in N2. destruct N2 as (m' & M & N2). rewrite <- (names_one _ _ _ N1 N2) in M.
      apply NoDup_remove_2 in N. apply N. apply in_or_app. left. exact M.
    + cbn [obind].
      destruct (in_dec rpc_module_dec m done) as [I|NI].
      { exfalso. destruct (names_some m) as (n & N).
        assert (N1 := N). rewrite <- (module_methods_ok _ _ _ E) in N1. apply in_map_iff in N1. destruct N1 as (p & P & IP).
        assert (N2 : In n (flat_map names done)) by (apply in_flat_map; exists m; split; assumption).
        rewrite <- A in N2. apply in_map_iff in N2. destruct N2 as (q & Q' & IQ).
        rewrite <- not_true_iff_false in Q. apply Q. apply existsb_exists. exists p. split; [exact IP|]. apply existsb_exists. exists q. split; [exact IQ|].
        rewrite P, Q'. apply String.eqb_refl. }
      destruct (IH ms' (done ++ [m]) (acc ++ x) F') as (K1 & K2).
      * rewrite map_app, flat_map_app, A, (module_methods_ok _ _ _ E). cbn. rewrite app_nil_r. reflexivity.
      * apply (Permutation_NoDup (l := m :: done)); [apply Permutation_cons_append|]. constructor; assumption.
      * rewrite <- !app_assoc in K1, K2. cbn in K1, K2. rewrite app_assoc. split; [exact K1|exact K2].
Qed.
Lemma modules_ok ch ms : (forall m, In m ms -> ~ lacks ch m) -> exists xs, Forall2 (fun m x => module_methods ch m = Ok x) ms xs /\ all_ok (map (module_methods ch) ms) = Ok xs.
Proof.
  induction ms as [|m ms IH]; intros H.
  - exists []. split; [constructor|reflexivity].
  - destruct IH as (xs & F & A). { intros m' I. apply H. right. exact I. }
    destruct (proj2 (module_methods_panic ch m) (H m (or_introl eq_refl))) as (x & X).
    exists (x :: xs). split; [constructor; assumption|]. cbn [map all_ok]. rewrite X. cbn. rewrite A. reflexivity.
Qed.
Lemma modules_panic ch ms m : In m ms -> lacks ch m -> all_ok (map (module_methods ch) ms) = Panic.
Proof.
  induction ms as [|m' ms IH]; intros I L; [destruct I|]. cbn [map all_ok].
  destruct (module_methods ch m') as [x| |] eqn:X.
  - destruct I as [->|I]; [rewrite (proj1 (module_methods_panic ch m) L) in X; discriminate|]. cbn. rewrite (IH I L). reflexivity.
  - exfalso. revert X. unfold module_methods. destruct m'; try destruct (c_history ch); try destruct (c_beacon ch); try destruct (c_state ch); discriminate.
  - reflexivity.
Qed.
Lemma lacks_dec ch m : lacks ch m \/ ~ lacks ch m.
Proof. unfold lacks. destruct m, (c_history ch), (c_beacon ch), (c_state ch); try (left; reflexivity); right; try discriminate; tauto. Qed.
Lemma some_lacks ch ms : (exists m, In m ms /\ lacks ch m) \/ (forall m, In m ms -> ~ lacks ch m).
Proof.
  induction ms as [|m ms [(m' & I & L)|H]]; [right; intros m []|left; exists m'; split; [right|]; assumption|].
  destruct (lacks_dec ch m) as [L|L]; [left; exists m; split; [left; reflexivity|exact L]|right; intros m' [<-|I]; auto].
Qed.
Lemma module_for_spec ch s :
  (servable ch s /\ exists xs, Forall2 (fun m x => module_methods ch m = Ok x) (modules_of s) xs /\ module_for ch s = Ok (concat xs)) \/
  (~ servable ch s /\ module_for ch s = Panic).
Proof.
  unfold module_for, servable. destruct (some_lacks ch (modules_of s)) as [(m & I & L)|H].
  - right. split; [intros (_ & H); exact (H m I L)|]. rewrite (modules_panic _ _ _ I L). reflexivity.
  - destruct (modules_ok ch _ H) as (xs & F & A). rewrite A. cbn [obind].
    destruct (merge_modules ch (modules_of s) xs [] [] F eq_refl (NoDup_nil _)) as (K1 & K2). cbn in K1, K2.
    destruct (NoDup_dec rpc_module_dec (modules_of s)) as [N|N].
    + left. split; [split; assumption|]. exists xs. split; [exact F|exact (K1 N)].
    + right. split; [tauto|exact (K2 N)].
Qed.
Lemma in_served ch ms xs n t : Forall2 (fun m x => module_methods ch m = Ok x) ms xs ->
  (In (n, t) (concat xs) <-> exists m x, In m ms /\ module_methods ch m = Ok x /\ In (n, t) x).
Proof.
  induction 1 as [|m x ms xs E F IH]; cbn [concat].
  - split; [intros []|intros (m & x & [] & _)].
  - rewrite in_app_iff, IH. split.
    + intros [I|(m' & x' & I & E' & J)]; [exists m, x|exists m', x']; repeat split; auto; [left; reflexivity|right; exact I].
    + intros (m' & x' & [<-|I] & E' & J); [left; congruence|right; exists m', x'; auto].
Qed.
Lemma served_names ch ms xs : Forall2 (fun m x => module_methods ch m = Ok x) ms xs -> map fst (concat xs) = flat_map names ms.
Proof. induction 1 as [|m x ms xs E F IH]; cbn; [reflexivity|]. rewrite map_app, IH, (module_methods_ok _ _ _ E). reflexivity. Qed.
Lemma names_all_nodup ms : NoDup ms -> NoDup (flat_map names ms).
Proof.
  induction 1 as [|m ms N D IH]; cbn; [constructor|].
  assert (A : forall (a b : list string), NoDup a -> NoDup b -> (forall x, In x a -> ~ In x b) -> NoDup (a ++ b)).
  { intros a b NA NB. induction NA as [|y a Y NA IHa]; intros H; cbn; [exact NB|]. constructor.
    - rewrite in_app_iff. intros [I|I]; [exact (Y I)|exact (H y (or_introl eq_refl) I)].
    - apply IHa. intros z I. apply H. right. exact I. }
  apply A; [apply names_nodup|exact IH|]. intros n I J. apply in_flat_map in J. destruct J as (m' & M & J). rewrite <- (names_one _ _ _ I J) in M. exact (N M).
Qed.
End P.

(** ** Modules as a user of the library selects them *)
Section Library.
Context {C : Type}.
Implicit Types ch : channels C.
(** Modules are installed exactly if no selection names one twice and the network behind each runs; else the program ends. *)
Theorem C114_selection : forall ch t,
  let selected s := t_http t = Some s \/ t_ws t = Some s \/ t_ipc t = Some s in
  ((exists i, build_modules ch t = Ok i) <-> forall s, selected s -> servable ch s) /\
  (build_modules ch t = Panic <-> exists s, selected s /\ ~ servable ch s).
Proof.
  intros ch t selected.
  assert (M : forall o, ((forall s, o = Some s -> servable ch s) /\ exists x, maybe_module ch o = Ok x) \/ ((exists s, o = Some s /\ ~ servable ch s) /\ maybe_module ch o = Panic)).
  { intros [s|]; cbn [maybe_module]; [|left; split; [discriminate|eauto]].
    destruct (module_for_spec ch s) as [(S1 & xs & _ & E)|(S1 & E)]; rewrite E.
    - left. split; [intros s' [= <-]; exact S1|]. cbn. eauto.
    - right. split; [exists s; auto|reflexivity]. }
  unfold build_modules, selected.
  destruct (M (t_http t)) as [(H1 & x & X)|((s & S1 & S2) & X)]; rewrite X; cbn [obind].
  2:{ split; [split; [intros (i & [=])|intros K; exfalso; exact (S2 (K s (or_introl S1)))]|]. split; [intros _; exists s; auto|reflexivity]. }
  destruct (M (t_ws t)) as [(H2 & y & Y)|((s & S1 & S2) & Y)]; rewrite Y; cbn [obind].
  2:{ split; [split; [intros (i & [=])|intros K; exfalso; exact (S2 (K s (or_intror (or_introl S1))))]|]. split; [intros _; exists s; auto|reflexivity]. }
  destruct (M (t_ipc t)) as [(H3 & z & Z)|((s & S1 & S2) & Z)]; rewrite Z; cbn [obind].
  2:{ split; [split; [intros (i & [=])|intros K; exfalso; exact (S2 (K s (or_intror (or_intror S1))))]|]. split; [intros _; exists s; auto|reflexivity]. }
  split; split.
  - intros _ s [S1|[S1|S1]]; auto.
  - intros _. eauto.
  - intros [=].
  - intros (s & [S1|[S1|S1]] & S2); exfalso; auto.
Qed.

Variable header_value : bytes -> bool.
Variable bind : list addr -> addr -> option addr.
Variable ipc_start : bytes -> bool.
Lemma maybe_methods ch o x n : maybe_module ch o = Ok x ->
  ((exists l, x = Some l /\ In n (map fst l)) <-> method_of o n).
Proof.
  destruct o as [s|]; cbn [maybe_module].
  - destruct (module_for_spec ch s) as [(S1 & xs & F & E)|(S1 & E)]; rewrite E; cbn; [|discriminate]. intros [= <-].
    unfold method_of.
    split.
    + intros (l & [= <-] & I). rewrite (served_names ch _ _ F) in I. apply in_flat_map in I. destruct I as (m & M & I). apply names_prefix in I. exists s, m. tauto.
    + intros (s' & m & [= <-] & M & I). exists (concat xs). split; [reflexivity|]. rewrite (served_names ch _ _ F). apply in_flat_map. exists m. split; [exact M|]. apply names_prefix. exact I.
  - intros [= <-]. split; [intros (l & [=] & _)|intros (s & m & [=] & _)].
Qed.
Lemma identical_methods a b : are_identical a b = true -> forall n, method_of a n <-> method_of b n.
Proof.
  intros H n. unfold method_of. destruct a as [a|], b as [b|]; cbn [are_identical] in H.
  - apply andb_prop in H. destruct H as (H1 & H2). rewrite forallb_forall in H1, H2.
    split; intros (s & m & [= <-] & M & K); [exists b, m|exists a, m]; (split; [reflexivity|split; [apply has_spec; auto|exact K]]).
  - destruct a as [| |[|]]; try discriminate. split; intros (s & m & [=] & M & K). subst s. destruct M.
  - destruct b as [| |[|]]; try discriminate. split; intros (s & m & [=] & M & K). subst s. destruct M.
  - tauto.
Qed.
Lemma build_server_ok held a c x y b : build_server header_value bind held a c x y = Ok b -> b_http b = x /\ b_ws b = y /\ bind held a = Some (b_addr b).
Proof.
  unfold build_server. destruct (match c with None => _ | Some c => _ end) as [co| |]; cbn; try discriminate.
  destruct (bind held a); [|discriminate]. intros [= <-]. auto.
Qed.
Lemma started_in {k : listener C} (o : option bound) m : In k (started (both o m)) -> exists b l, o = Some b /\ m = Some l /\ k = listen b l.
Proof. destruct o as [b|], m as [l|]; cbn; try tauto. intros [<-|[]]. eauto. Qed.
(** However the servers are configured: one for HTTP serves exactly the methods selected for HTTP, one for WebSockets those for WebSockets, and one at a path those for IPC. *)
Theorem C114_listeners : forall ch t i c h k, build_modules ch t = Ok i -> start_servers header_value bind ipc_start c i = Ok h -> In k (listeners h) ->
  (accepts_http k = true -> forall n, In n (map fst (serves k)) <-> method_of (t_http t) n) /\
  (accepts_ws k = true -> forall n, In n (map fst (serves k)) <-> method_of (t_ws t) n) /\
  (forall p, at_ k = AtPath p -> forall n, In n (map fst (serves k)) <-> method_of (t_ipc t) n).
Proof.
  intros ch t i c h k B S0 K. unfold build_modules in B.
  destruct (maybe_module ch (t_http t)) as [x| |] eqn:X; cbn in B; try discriminate.
  destruct (maybe_module ch (t_ws t)) as [y| |] eqn:Y; cbn in B; try discriminate.
  destruct (maybe_module ch (t_ipc t)) as [z| |] eqn:Z; cbn in B; try discriminate. injection B as <-.
  unfold start_servers in S0. destruct (build_ws_http header_value bind c) as [[[hl wl] s]| |] eqn:W; cbn in S0; try discriminate.
  destruct (start_ws_http s _) as [l| |] eqn:L; cbn in S0; try discriminate.
  assert (G : In k l -> (exists a, at_ k = AtAddr a) /\ (accepts_http k = true -> forall n, In n (map fst (serves k)) <-> method_of (t_http t) n) /\
    (accepts_ws k = true -> forall n, In n (map fst (serves k)) <-> method_of (t_ws t) n)).
  { clear S0 K. intros K. unfold build_ws_http in W. destruct (opt_addr_eqb (http_addr c) (ws_addr c) && http_on c && ws_on c).
    - destruct (match ws_cors c with Some _ => _ | None => _ end) as [co| |] eqn:CO; cbn in W; try discriminate.
      destruct (build_server header_value bind [] _ co true true) as [b| |] eqn:Q; cbn in W; try discriminate. injection W as <- <- <-.
      cbn in L. destruct (are_identical (t_http t) (t_ws t)) eqn:ID; cbn in L; [|discriminate]. injection L as <-.
      assert (ME := identical_methods _ _ ID).
      assert (exists m, match x with Some m => Some m | None => y end = Some m /\ k = listen b m) as (m & M & ->).
      { destruct x as [x|]; [destruct K as [<-|[]]; eauto|]. destruct y as [y|]; [destruct K as [<-|[]]; eauto|destruct K]. }
      split; [eexists; reflexivity|]. cbn [serves listen].
      assert (R : forall n, In n (map fst m) <-> method_of (t_http t) n).
      { intros n. destruct x as [x|].
        - injection M as ->. rewrite <- (maybe_methods ch _ _ n X). split; [intros I; eauto|intros (l0 & [= <-] & I); exact I].
        - subst y. rewrite ME, <- (maybe_methods ch _ _ n Y). split; [intros I; eauto|intros (l0 & [= <-] & I); exact I]. }
      split; intros _ n; [apply R|rewrite <- ME; apply R].
    - match type of W with obind ?e _ = _ => destruct e as [w| |] eqn:WW end; cbn in W; try discriminate.
      match type of W with obind ?e _ = _ => destruct e as [hh| |] eqn:HH end; cbn in W; try discriminate. injection W as <- <- <-.
      cbn in L. injection L as <-. apply in_app_or in K. destruct K as [K|K]; apply started_in in K; destruct K as (b & m & E1 & E2 & ->); cbn.
      + subst hh x. destruct (http_on c); [|discriminate]. match type of HH with omap _ ?e = _ => destruct e eqn:E end; try discriminate. injection HH as ->.
        apply build_server_ok in E. destruct E as (-> & -> & _). split; [eexists; reflexivity|]. split; [|discriminate]. intros _ n.
        rewrite <- (maybe_methods ch _ _ n X). split; [intros I; eauto|intros (l0 & [= <-] & I); exact I].
      + subst w y. destruct (ws_on c); [|discriminate]. match type of WW with omap _ ?e = _ => destruct e eqn:E end; try discriminate. injection WW as ->.
        apply build_server_ok in E. destruct E as (-> & -> & _). split; [eexists; reflexivity|]. split; [discriminate|]. intros _ n.
        rewrite <- (maybe_methods ch _ _ n Y). split; [intros I; eauto|intros (l0 & [= <-] & I); exact I]. }
  assert (G2 : In k l -> (accepts_http k = true -> forall n, In n (map fst (serves k)) <-> method_of (t_http t) n) /\
    (accepts_ws k = true -> forall n, In n (map fst (serves k)) <-> method_of (t_ws t) n) /\
    (forall p, at_ k = AtPath p -> forall n, In n (map fst (serves k)) <-> method_of (t_ipc t) n)).
  { intros I. destruct (G I) as ((a & A) & H1 & H2). split; [exact H1|split; [exact H2|]]. intros p P. congruence. }
  destruct (ipc_on c); [|injection S0 as <-; exact (G2 K)]. destruct z as [m|]; [|injection S0 as <-; exact (G2 K)].
  destruct (ipc_start _); [|discriminate]. injection S0 as <-. cbn in K. apply in_app_or in K. destruct K as [K|[<-|[]]]; [exact (G2 K)|].
  cbn. split; [discriminate|split; [discriminate|]]. intros p _ n.
  rewrite <- (maybe_methods ch _ _ n Z). split; [intros I; eauto|intros (l0 & [= <-] & I); exact I].
Qed.
(** False of the code: that servers without configured addresses listen on their default ports.  Both are on the port of HTTP. *)
Theorem C114_default_ports_refuted : honest_bind bind -> forall c (i : installed C) h, http_on c = true -> ws_on c = true -> http_addr c = None -> ws_addr c = None ->
  start_servers header_value bind ipc_start c i = Ok h -> forall k a, In k (listeners h) -> at_ k = AtAddr a -> port a = 8545.
Proof.
  intros HB c i h E1 E2 E3 E4 S0 k a K A. unfold start_servers, build_ws_http in S0. rewrite E1, E2, E3, E4 in S0. cbn [opt_addr_eqb andb] in S0.
  destruct (match ws_cors c with Some _ => _ | None => _ end) as [co| |] eqn:CO; cbn in S0; try discriminate.
  destruct (build_server header_value bind [] _ co true true) as [b| |] eqn:Q; cbn in S0; try discriminate.
  apply build_server_ok in Q. destruct Q as (_ & _ & Q). apply HB in Q. destruct Q as (_ & Q). specialize (Q ltac:(cbn; unfold default_http_port; lia)).
  destruct (negb _); cbn in S0; [discriminate|].
  assert (G : forall o, In k (started (both (Some b) o)) -> port a = 8545).
  { intros o I. apply started_in in I. destruct I as (b' & l & [= <-] & _ & ->). cbn in A. injection A as <-. exact Q. }
  destruct (ipc_on c); [|injection S0 as <-; exact (G _ K)]. destruct (i_ipc i); [|injection S0 as <-; exact (G _ K)].
  destruct (ipc_start _); [|discriminate]. injection S0 as <-. cbn in K. apply in_app_or in K. destruct K as [K|[<-|[]]]; [exact (G _ K)|discriminate].
Qed.
End Library.
Print Assumptions C114_selection.
Print Assumptions C114_listeners.
Print Assumptions C114_default_ports_refuted.

(** ** The node *)
Section Node.
Context {C : Type}.
Variable header_value : bytes -> bool.
Variable bind : list addr -> addr -> option addr.
Variable ipc_start : bytes -> bool.
Variable resolve : bytes -> option (list addr).
Variable initialize : subnetwork -> option C.
Notation run := (run_node header_value bind ipc_start resolve initialize).
Notation start := (launch header_value bind ipc_start resolve).
(** The modules of a network *)
Definition mods (s : subnetwork) : list rpc_module :=
  match s with LegacyHistory => [MLegacyHistory; MEth] | State => [MState] | Beacon => [MBeacon] | _ => [] end.
Lemma network_modules_ok l : forallb is_active l = true -> network_modules l = Ok (flat_map mods l).
Proof.
  induction l as [|s l IH]; intros A; [reflexivity|]. cbn in A. apply andb_prop in A. destruct A as (A & A').
  cbn [network_modules flat_map]. destruct s; try discriminate; cbn [obind mods]; rewrite (IH A'); reflexivity.
Qed.
Lemma network_modules_err l : forallb is_active l = false -> network_modules l = Err.
Proof.
  induction l as [|s l IH]; intros A; [discriminate|]. cbn in A. cbn [network_modules].
  destruct (is_active s) eqn:Q; [cbn in A; rewrite (IH A); destruct s; try discriminate; reflexivity|destruct s; try discriminate; reflexivity].
Qed.
Lemma mods_one s s' m : In m (mods s) -> In m (mods s') -> s = s'.
Proof. destruct s, s'; cbn; intuition (subst; discriminate). Qed.
Lemma in_mods m l : In m (flat_map mods l) <-> exists s, In s l /\ In m (mods s).
Proof. apply in_flat_map. Qed.
Lemma mods_nodup l : forallb is_active l = true -> (NoDup l <-> NoDup ([MDiscv5; MWeb3] ++ flat_map mods l)).
Proof.
  intros A.
  assert (N0 : forall m, In m (flat_map mods l) -> m <> MDiscv5 /\ m <> MWeb3).
  { intros m I. apply in_mods in I. destruct I as (s & _ & I). destruct s; cbn in I; intuition (subst; discriminate). }
  assert (Q : NoDup l <-> NoDup (flat_map mods l)).
  { clear N0. induction l as [|s l IH]; [split; constructor|]. cbn in A. apply andb_prop in A. destruct A as (A & A'). specialize (IH A'). cbn [flat_map]. split.
    - intros N. inversion N as [|? ? NI N']; subst.
      assert (D : forall m, In m (mods s) -> ~ In m (flat_map mods l)).
      { intros m I J. apply in_mods in J. destruct J as (s' & S' & J). rewrite <- (mods_one _ _ _ I J) in S'. exact (NI S'). }
      apply IH in N'. destruct s; try discriminate; cbn in *; repeat constructor; try (apply D; tauto); try exact N'.
      intros [E|I]; [discriminate|]. exact (D MLegacyHistory (or_introl eq_refl) I).
    - intros N. constructor.
      + intros I. assert (E : exists m, In m (mods s)) by (destruct s; try discriminate; eexists; left; reflexivity). destruct E as (m & M).
        assert (J : In m (flat_map mods l)) by (apply in_mods; eauto).
        apply in_split in M. destruct M as (u & v & M). rewrite M, <- app_assoc in N. cbn in N. apply NoDup_remove_2 in N. apply N. rewrite !in_app_iff. tauto.
      + apply IH. destruct s; try discriminate; cbn in N; repeat match goal with H : NoDup (_ :: _) |- _ => inversion H; clear H; subst end; assumption. }
  rewrite Q. cbn [app]. split.
  - intros N. constructor; [intros [E|I]; [discriminate|exact (proj1 (N0 _ I) eq_refl)]|]. constructor; [intros I; exact (proj2 (N0 _ I) eq_refl)|exact N].
  - intros N. inversion N as [|? ? _ N1]; subst. inversion N1; subst. assumption.
Qed.

Section Up.
Variable l : list subnetwork.
Hypothesis up : forall s, In s l -> is_active s = true -> initialize s <> None.
Definition running (s : subnetwork) : option C := if enabled l s then initialize s else None.
Definition the_channels : channels C := mk_channels (running LegacyHistory) (running Beacon) (running State).
Lemma set_up_ok s : is_active s = true -> set_up initialize l s = Ok (running s).
Proof.
  intros A. unfold set_up, running. destruct (enabled l s) eqn:E; [|reflexivity]. apply enabled_spec in E.
  destruct (initialize s) eqn:I; [reflexivity|]. exfalso. exact (up s E A I).
Qed.
Lemma run_eq c : run c l = match c with None => Ok (the_channels, None) | Some c => omap (fun h => (the_channels, Some h)) (start c l the_channels) end.
Proof. unfold run_node. rewrite !set_up_ok by reflexivity. reflexivity. Qed.
Lemma running_some s : In s l -> running s = initialize s.
Proof. unfold running. rewrite <- enabled_spec. intros ->. reflexivity. Qed.
Lemma running_none s : ~ In s l -> running s = None.
Proof. unfold running. rewrite <- enabled_spec. destruct (enabled l s); congruence. Qed.
Lemma nothing_lacks m : In m ([MDiscv5; MWeb3] ++ flat_map mods l) -> ~ lacks the_channels m.
Proof.
  intros I. apply in_app_or in I. destruct I as [[<-|[<-|[]]]|I]; [exact (fun x => x)|exact (fun x => x)|].
  apply in_mods in I. destruct I as (s & S1 & I). assert (U := up s S1). apply running_some in S1.
  destruct s; cbn [mods] in I; try (destruct I; fail); destruct I as [<-|I]; try (destruct I as [<-|I]); try (destruct I; fail); unfold the_channels;
    cbn [lacks c_history c_beacon c_state]; rewrite S1; exact (U eq_refl).
Qed.
Lemma node_modules : forallb is_active l = true -> let s := Selected ([MDiscv5; MWeb3] ++ flat_map mods l) in
  (NoDup l /\ exists xs, Forall2 (fun m x => module_methods the_channels m = Ok x) (modules_of s) xs /\ module_for the_channels s = Ok (concat xs)) \/
  (~ NoDup l /\ module_for the_channels s = Panic).
Proof.
  intros A s. destruct (module_for_spec the_channels s) as [(S1 & K)|(S1 & K)]; [left|right]; (split; [|exact K]).
  - apply (mods_nodup l A). exact (proj1 S1).
  - intros N. apply S1. split; [apply (mods_nodup l A); exact N|exact nothing_lacks].
Qed.
Lemma node_answers chan xs n t : (forall s, In s l -> initialize s = Some (chan s)) -> let ms := [MDiscv5; MWeb3] ++ flat_map mods l in
  Forall2 (fun m x => module_methods the_channels m = Ok x) ms xs ->
  (In (n, t) (concat xs) <-> In n interface /\ answered chan l n t).
Proof.
  intros UP ms F. rewrite (in_served the_channels ms xs n t F).
  assert (RS : forall s, In s l -> running s = Some (chan s)) by (intros s S1; rewrite <- (UP s S1); apply running_some; exact S1). split.
  - intros (m & x & M & E & I).
    assert (N : In n (names m)) by (rewrite <- (module_methods_ok _ _ _ E); apply (in_map fst _ _ I)).
    apply names_prefix in N. destruct N as (N & P). split; [exact N|].
    assert (T : forall (t0 : target C) l0, In (n, t) (map (fun n => (n, t0)) l0) -> t = t0).
    { intros t0 l0 J. apply in_map_iff in J. destruct J as (? & [= -> ->] & _). reflexivity. }
    subst ms. apply in_app_or in M. destruct M as [[<-|[<-|[]]]|M].
    + cbn [module_methods] in E. apply ok_inj in E. subst x. apply T in I. subst t. constructor. exact P.
    + cbn [module_methods] in E. apply ok_inj in E. subst x. apply T in I. subst t. apply by_version. exact P.
    + apply in_mods in M. destruct M as (s & S1 & M). assert (S2 := S1). apply RS in S2.
      destruct s; cbn [mods] in M; try (destruct M; fail); destruct M as [<-|M]; try (destruct M as [<-|M]); try (destruct M; fail);
        unfold the_channels in E; cbn [module_methods c_history c_beacon c_state] in E; rewrite S2 in E; apply ok_inj in E; subst x; apply T in I; subst t.
      * exact (by_network chan l n Beacon _ S1 eq_refl P).
      * exact (by_network chan l n LegacyHistory _ S1 eq_refl P).
      * apply by_eth; [exact S1|exact (RS State)|apply running_none|exact P].
      * exact (by_network chan l n State _ S1 eq_refl P).
  - intros (N & AN).
    assert (T : forall m (t0 : target C), prefix (module_prefix m) n = true -> In (n, t0) (map (fun n => (n, t0)) (names m))).
    { intros m t0 P. apply in_map_iff. exists n. split; [reflexivity|]. apply names_prefix. auto. }
    destruct AN as [P|P|s p S1 S2 P|st S1 S2 S3 P].
    + exists MDiscv5. eexists. split; [left; reflexivity|]. split; [reflexivity|]. exact (T MDiscv5 _ P).
    + exists MWeb3. eexists. split; [right; left; reflexivity|]. split; [reflexivity|]. exact (T MWeb3 _ P).
    + assert (S4 := S1). apply RS in S4.
      assert (W : exists m, In m (mods s) /\ module_prefix m = p /\ module_methods the_channels m = Ok (map (fun n => (n, ToNetwork (chan s))) (names m))).
      { destruct s; try discriminate; injection S2 as <-.
        - exists MBeacon. split; [left; reflexivity|]. split; [reflexivity|]. cbn [module_methods the_channels c_beacon names]. rewrite S4. reflexivity.
        - exists MLegacyHistory. split; [left; reflexivity|]. split; [reflexivity|]. cbn [module_methods the_channels c_history names]. rewrite S4. reflexivity.
        - exists MState. split; [left; reflexivity|]. split; [reflexivity|]. cbn [module_methods the_channels c_state names]. rewrite S4. reflexivity. }
      destruct W as (m & M & <- & E). exists m. eexists. split; [|split; [exact E|exact (T m _ P)]].
      apply in_or_app. right. apply in_mods. eauto.
    + assert (S4 := S1). apply RS in S4.
      assert (ST : st = running State). { destruct (in_dec subnetwork_dec State l) as [I|I]; [rewrite (S2 I); symmetry; exact (RS _ I)|rewrite (S3 I); symmetry; apply running_none; exact I]. }
      exists MEth. eexists. split; [apply in_or_app; right; apply in_mods; exists LegacyHistory; split; [exact S1|right; left; reflexivity]|].
      split; [cbn [module_methods the_channels c_history c_state]; rewrite S4; reflexivity|]. subst st. exact (T MEth _ P).
Qed.
(** What a launch does once the modules are there *)
Lemma launch_eq c m : forallb is_active l = true -> module_for the_channels (Selected ([MDiscv5; MWeb3] ++ flat_map mods l)) = m ->
  start c l the_channels = obind m (fun m =>
  match web3_transport c with
  | IPC => if ipc_start (web3_ipc_path c) then Ok (mk_handle None None [mk_listener (AtPath (web3_ipc_path c)) false false None m]) else Err
  | HTTP =>
      match resolve (web3_http_address c) with
      | Some (a :: _) =>
          if ws c then
            if addr_eqb a (mk_addr unspecified (ws_port c)) then
              match bind [] a with Some a => Ok (mk_handle (Some a) (Some a) [mk_listener (AtAddr a) true true None m]) | None => Err end
            else
              match bind [] (mk_addr unspecified (ws_port c)) with
              | Some w =>
                  match bind [w] a with
                  | Some a => Ok (mk_handle (Some a) (Some w) [mk_listener (AtAddr a) true false None m; mk_listener (AtAddr w) false true None m])
                  | None => Err
                  end
              | None => Err
              end
          else match bind [] a with Some a => Ok (mk_handle (Some a) None [mk_listener (AtAddr a) true false None m]) | None => Err end
      | _ => Panic
      end
  end).
Proof.
  intros A M. unfold launch. rewrite (network_modules_ok l A). cbn [omap obind].
  set (sel := [MDiscv5; MWeb3] ++ flat_map mods l) in *.
  destruct (web3_transport c).
  - unfold build_modules. cbn [t_http t_ws t_ipc maybe_module obind]. rewrite M. destruct m as [m| |]; cbn [omap obind]; try reflexivity.
  - unfold build_modules. cbn [t_http t_ws t_ipc maybe_module obind]. rewrite M. destruct m as [m| |]; cbn [omap obind]; try reflexivity.
    destruct (ws c) eqn:W; cbn [maybe_module obind].
    + rewrite M. cbn [omap obind].
      destruct (resolve (web3_http_address c)) as [[|a r]|]; try reflexivity.
      unfold start_servers, build_ws_http. cbn [http_addr ws_addr http_on ws_on ws_cors http_cors opt_addr_eqb ipc_on].
      destruct (addr_eqb a (mk_addr unspecified (ws_port c))) eqn:E; cbn [andb obind].
      * unfold build_server. cbn [obind]. destruct (bind [] a) as [a'|]; cbn [obind start_ws_http i_config t_http t_ws]; [|reflexivity].
        replace (are_identical (Some (Selected sel)) (Some (Selected sel))) with true; [reflexivity|].
        symmetry. cbn [are_identical modules_of]. apply andb_true_iff. split; apply forallb_forall; intros x I; apply has_spec; exact I.
      * unfold build_server. cbn [obind]. destruct (bind [] (mk_addr unspecified (ws_port c))) as [w|]; cbn [omap obind b_addr]; [|reflexivity].
        destruct (bind [w] a) as [a'|]; reflexivity.
    + destruct (resolve (web3_http_address c)) as [[|a r]|]; try reflexivity.
      unfold start_servers, build_ws_http. cbn [http_addr ws_addr http_on ws_on ws_cors http_cors opt_addr_eqb ipc_on andb obind].
      unfold build_server. cbn [obind]. destruct (bind [] a) as [a'|]; reflexivity.
Qed.
End Up.
(** Where the node listens, and the handle's addresses, are as configured and as the system grants; whenever the system grants them the node starts. *)
Theorem C114_where : forall chan l c ks, (forall s, In s l -> initialize s = Some (chan s)) -> forallb is_active l = true -> NoDup l ->
  ((exists ch h, run (Some c) l = Ok (ch, Some h) /\ map kind (listeners h) = ks) <-> opens bind ipc_start resolve c ks).
Proof.
  intros chan l c ks UP A N.
  assert (UP0 : forall s, In s l -> is_active s = true -> initialize s <> None) by (intros s S1 _; rewrite (UP s S1); discriminate). rewrite (run_eq l UP0).
  destruct (node_modules l UP0 A) as [(_ & xs & F & M)|(NN & _)]; [|contradiction].
  rewrite (launch_eq l c _ A M). cbn [obind]. split.
  - intros (ch & h & E & <-). destruct (web3_transport c) eqn:T.
    + destruct (ipc_start (web3_ipc_path c)) eqn:I; cbn in E; [|discriminate]. injection E as _ <-. cbn. apply opens_ipc; assumption.
    + destruct (resolve (web3_http_address c)) as [[|a r]|] eqn:R; cbn in E; try discriminate.
      destruct (ws c) eqn:W.
      * destruct (addr_eqb a (mk_addr unspecified (ws_port c))) eqn:Q.
        -- destruct (bind [] a) as [a'|] eqn:B; cbn in E; [|discriminate]. injection E as _ <-. cbn.
           apply (opens_one _ _ _ c a r); try assumption. apply addr_eqb_spec. exact Q.
        -- destruct (bind [] (mk_addr unspecified (ws_port c))) as [w|] eqn:B; cbn in E; [|discriminate].
           destruct (bind [w] a) as [a'|] eqn:B'; cbn in E; [|discriminate]. injection E as _ <-. cbn.
           apply (opens_two _ _ _ c a r); try assumption. intros K. apply addr_eqb_spec in K. unfold unspecified in Q. congruence.
      * destruct (bind [] a) as [a'|] eqn:B; cbn in E; [|discriminate]. injection E as _ <-. cbn. apply (opens_http _ _ _ c a r); assumption.
  - intros O. destruct O as [T I|a r a' T W R B|a r a' T W R Q B|a r a' w T W R Q B B']; rewrite T.
    + rewrite I. eexists _, _. split; reflexivity.
    + rewrite R, W, B. eexists _, _. split; reflexivity.
    + rewrite R, W. apply addr_eqb_spec in Q. unfold unspecified. rewrite Q, B. eexists _, _. split; reflexivity.
    + rewrite R, W. destruct (addr_eqb a (mk_addr unspecified (ws_port c))) eqn:K; [exfalso; apply Q; apply addr_eqb_spec; exact K|].
      unfold unspecified. rewrite B, B'. eexists _, _. split; reflexivity.
Qed.
(** Each server of a node serves exactly the methods of discovery and the version, those of the networks that run, each by the task of its
    network, and those of eth if the history network runs; every name once. *)
Theorem C114_methods : forall chan l c ch h k, (forall s, In s l -> initialize s = Some (chan s)) -> run (Some c) l = Ok (ch, Some h) -> In k (listeners h) ->
  NoDup (map fst (serves k)) /\ forall n t, In (n, t) (serves k) <-> In n interface /\ answered chan l n t.
Proof.
  intros chan l c ch h k UP E K.
  assert (UP0 : forall s, In s l -> is_active s = true -> initialize s <> None) by (intros s S1 _; rewrite (UP s S1); discriminate). rewrite (run_eq l UP0) in E.
  destruct (forallb is_active l) eqn:A.
  2:{ exfalso. unfold launch in E. rewrite (network_modules_err l A) in E. discriminate. }
  destruct (node_modules l UP0 A) as [(N & xs & F & M)|(NN & M)]; rewrite (launch_eq l c _ A M) in E; [|discriminate].
  assert (S0 : serves k = concat xs).
  { cbn [obind] in E. destruct (web3_transport c); [destruct (ipc_start (web3_ipc_path c)); [|discriminate]; injection E as _ <-; destruct K as [<-|[]]; reflexivity|].
    destruct (resolve (web3_http_address c)) as [[|a r]|]; cbn in E; try discriminate.
    destruct (ws c); [destruct (addr_eqb a (mk_addr unspecified (ws_port c)))|].
    - destruct (bind [] a); cbn in E; [|discriminate]. injection E as _ <-. destruct K as [<-|[]]; reflexivity.
    - destruct (bind [] (mk_addr unspecified (ws_port c))); cbn in E; [|discriminate]. destruct (bind _ a); cbn in E; [|discriminate].
      injection E as _ <-. destruct K as [<-|[<-|[]]]; reflexivity.
    - destruct (bind [] a); cbn in E; [|discriminate]. injection E as _ <-. destruct K as [<-|[]]; reflexivity. }
  rewrite S0. split.
  - rewrite (served_names _ _ _ F). apply names_all_nodup. apply (mods_nodup l A). exact N.
  - intros n t. apply (node_answers l chan xs n t UP F).
Qed.
(** The networks that run are exactly the enabled ones, with or without servers; if the set-up of an enabled network fails, the node does not start. *)
Theorem C114_networks : forall c l,
  (forall ch h, run c l = Ok (ch, h) ->
     (forall s, In s l -> is_active s = true -> initialize s <> None) /\
     c_history ch = (if enabled l LegacyHistory then initialize LegacyHistory else None) /\
     c_beacon ch = (if enabled l Beacon then initialize Beacon else None) /\
     c_state ch = (if enabled l State then initialize State else None) /\ (h = None <-> c = None)) /\
  (forall s, In s l -> is_active s = true -> initialize s = None -> run c l = Err).
Proof.
  intros c l. split.
  - intros ch h. unfold run_node, set_up.
    destruct (enabled l State) eqn:E1; [destruct (initialize State) eqn:I1; cbn [obind]; [|discriminate]|cbn [obind]];
    (destruct (enabled l Beacon) eqn:E2; [destruct (initialize Beacon) eqn:I2; cbn [obind]; [|discriminate]|cbn [obind]]);
    (destruct (enabled l LegacyHistory) eqn:E3; [destruct (initialize LegacyHistory) eqn:I3; cbn [obind]; [|discriminate]|cbn [obind]]);
    intros E;
    (assert (HC : h = None <-> c = None) by (destruct c; [destruct (launch _ _ _ _ _ _ _) eqn:L; cbn in E; try discriminate|]; injection E as <- <-; split; congruence));
    (split; [intros s S1 S2; destruct s; try discriminate; apply enabled_spec in S1; congruence|]);
    (destruct c; [destruct (launch _ _ _ _ _ _ _) eqn:L; cbn in E; try discriminate|]; injection E as <- _; cbn; auto).
  - intros s S1 S2 I. apply enabled_spec in S1. unfold run_node.
    assert (EN : forall s', set_up initialize l s' <> Panic) by (intros s'; unfold set_up; destruct (enabled l s'); [destruct (initialize s')|]; discriminate).
    assert (ES : set_up initialize l s = Err) by (unfold set_up; rewrite S1, I; reflexivity).
    destruct (set_up initialize l State) eqn:Q1; cbn [obind]; [|reflexivity|exfalso; exact (EN _ Q1)].
    destruct (set_up initialize l Beacon) eqn:Q2; cbn [obind]; [|reflexivity|exfalso; exact (EN _ Q2)].
    destruct (set_up initialize l LegacyHistory) eqn:Q3; cbn [obind]; [|reflexivity|exfalso; exact (EN _ Q3)].
    destruct s; try discriminate; congruence.
Qed.
(** With distinct networks the start never panics, unless the URL for HTTP has no address. *)
Theorem C114_no_panic : forall c l, NoDup l -> run (Some c) l = Panic ->
  web3_transport c = HTTP /\ (resolve (web3_http_address c) = None \/ resolve (web3_http_address c) = Some []).
Proof.
  intros c l N P.
  assert (UP : forall s, In s l -> is_active s = true -> initialize s <> None).
  { intros s S1 S2 I. destruct (C114_networks (Some c) l) as (_ & H). rewrite (H s S1 S2 I) in P. discriminate. }
  rewrite (run_eq l UP) in P.
  destruct (forallb is_active l) eqn:A.
  2:{ exfalso. unfold launch in P. rewrite (network_modules_err l A) in P. discriminate. }
  destruct (node_modules l UP A) as [(_ & xs & F & M)|(NN & _)]; [|contradiction].
  rewrite (launch_eq l c _ A M) in P. cbn [obind] in P. destruct (web3_transport c).
  - destruct (ipc_start _); discriminate.
  - split; [reflexivity|]. destruct (resolve (web3_http_address c)) as [[|a r]|]; auto. exfalso. revert P.
    destruct (ws c); [destruct (addr_eqb a (mk_addr unspecified (ws_port c)))|].
    + destruct (bind [] a); discriminate.
    + destruct (bind [] (mk_addr unspecified (ws_port c))) as [w|]; [|discriminate]. destruct (bind [w] a); discriminate.
    + destruct (bind [] a); discriminate.
Qed.
(** False of the code: that a node starts with every list of networks that the command line accepts.  With one that names a network twice it
    ends with a panic, after the networks were started, whatever the servers are to be. *)
Theorem C114_repeated_refuted : forall text l c, subnetwork_parser text = Ok l -> ~ NoDup l -> (forall s, In s l -> initialize s <> None) -> run (Some c) l = Panic.
Proof.
  intros text l c T N UP.
  assert (UP0 : forall s, In s l -> is_active s = true -> initialize s <> None) by (intros s S1 _; exact (UP s S1)).
  assert (A : forallb is_active l = true).
  { unfold subnetwork_parser in T. destruct (all_ok _) as [l0| |]; cbn in T; try discriminate. destruct l0 as [|s0 l0]; [discriminate|].
    destruct (forallb is_active (s0 :: l0)) eqn:Q; [|discriminate]. injection T as <-. exact Q. }
  rewrite (run_eq l UP0). destruct (node_modules l UP0 A) as [(NN & _)|(_ & M)]; [contradiction|]. rewrite (launch_eq l c _ A M). reflexivity.
Qed.
(** False of the code: that HTTP and WebSockets on one port share a server.  Unless HTTP is on all addresses, two servers are
    made, and where the second cannot have a port that is taken for all addresses the node does not start. *)
Theorem C114_same_port_refuted : honest_bind bind -> exclusive_bind bind -> forall c l a r, web3_transport c = HTTP -> ws c = true -> NoDup l ->
  resolve (web3_http_address c) = Some (a :: r) -> port a = ws_port c -> ws_port c <> 0 -> host a <> V4 0 -> run (Some c) l = Err.
Proof.
  intros HB EB c l a r T W N R P P0 H0.
  assert (NP : run (Some c) l <> Panic) by (intros E; apply (C114_no_panic c l N) in E; destruct E as (_ & [E|E]); congruence).
  destruct (run (Some c) l) as [[ch h]| |] eqn:E; [|reflexivity|contradiction]. exfalso.
  assert (UP : forall s, In s l -> is_active s = true -> initialize s <> None) by (intros s S1 S2; exact (proj1 (proj1 (C114_networks (Some c) l) ch h E) s S1 S2)).
  rewrite (run_eq l UP) in E. destruct (forallb is_active l) eqn:A.
  2:{ unfold launch in E. rewrite (network_modules_err l A) in E. discriminate. }
  destruct (node_modules l UP A) as [(_ & xs & F & M)|(NN & _)]; [|contradiction]. rewrite (launch_eq l c _ A M) in E. cbn [obind] in E.
  rewrite T, R, W in E. destruct (addr_eqb a (mk_addr unspecified (ws_port c))) eqn:Q; [apply addr_eqb_spec in Q; subst a; apply H0; reflexivity|].
  destruct (bind [] (mk_addr unspecified (ws_port c))) as [w|] eqn:B; [|discriminate].
  destruct (HB _ _ _ B) as (B1 & B2). rewrite (EB [w] a w) in E; [discriminate|left; reflexivity|exact B1|]. rewrite (B2 P0). cbn. congruence.
Qed.
(** False of the code: that with HTTP at an address of this computer alone, only this computer can use the interface.  With WebSockets it is
    open on all addresses, with all methods. *)
Theorem C114_everywhere_refuted : honest_bind bind -> forall c l ch h, ws c = true -> web3_transport c = HTTP -> run (Some c) l = Ok (ch, Some h) ->
  exists k a, In k (listeners h) /\ accepts_ws k = true /\ at_ k = AtAddr a /\ host a = V4 0 /\ (port a = ws_port c \/ ws_port c = 0) /\
    forall k', In k' (listeners h) -> serves k' = serves k.
Proof.
  intros HB c l ch h W T E.
  assert (UP : forall s, In s l -> is_active s = true -> initialize s <> None) by (intros s S1 S2; exact (proj1 (proj1 (C114_networks (Some c) l) ch _ E) s S1 S2)).
  rewrite (run_eq l UP) in E. destruct (forallb is_active l) eqn:A.
  2:{ unfold launch in E. rewrite (network_modules_err l A) in E. discriminate. }
  destruct (node_modules l UP A) as [(_ & xs & F & M)|(_ & M)]; rewrite (launch_eq l c _ A M) in E; cbn [obind] in E; [|discriminate].
  rewrite T, W in E. destruct (resolve (web3_http_address c)) as [[|a r]|]; try discriminate.
  assert (PP : forall w, bind [] (mk_addr unspecified (ws_port c)) = Some w -> host w = V4 0 /\ (port w = ws_port c \/ ws_port c = 0)).
  { intros w B. destruct (HB _ _ _ B) as (B1 & B2). split; [exact B1|]. cbn in B2. destruct (N.eq_dec (ws_port c) 0); [right; assumption|left; auto]. }
  destruct (addr_eqb a (mk_addr unspecified (ws_port c))) eqn:Q.
  - apply addr_eqb_spec in Q. subst a. destruct (bind [] _) as [w|] eqn:B; [|discriminate]. injection E as _ <-.
    eexists _, w. split; [left; reflexivity|]. split; [reflexivity|]. split; [reflexivity|]. destruct (PP w eq_refl) as (P1 & P2). split; [exact P1|split; [exact P2|]].
    intros k' [<-|[]]. reflexivity.
  - destruct (bind [] (mk_addr unspecified (ws_port c))) as [w|] eqn:B; [|discriminate]. destruct (bind [w] a); [|discriminate]. injection E as _ <-.
    eexists _, w. split; [right; left; reflexivity|]. split; [reflexivity|]. split; [reflexivity|]. destruct (PP w eq_refl) as (P1 & P2). split; [exact P1|split; [exact P2|]].
    intros k' [<-|[<-|[]]]; reflexivity.
Qed.
End Node.
Print Assumptions C114_where.
Print Assumptions C114_methods.
Print Assumptions C114_networks.
Print Assumptions C114_no_panic.
Print Assumptions C114_repeated_refuted.
Print Assumptions C114_same_port_refuted.
Print Assumptions C114_everywhere_refuted.

(** ** CORS *)
Lemma drop_blank_spec s : exists a, s = a ++ drop_blank s /\ Forall (fun c => blank c = true) a.
Proof.
  induction s as [|c s (a & E & F)]; [exists []; split; [reflexivity|constructor]|]. cbn. destruct (blank c) eqn:B; [|exists []; split; [reflexivity|constructor]].
  exists (c :: a). split; [cbn; congruence|constructor; assumption].
Qed.
Lemma drop_blank_app a s : Forall (fun c => blank c = true) a -> drop_blank (a ++ s) = drop_blank s.
Proof. induction 1 as [|c a B F IH]; [reflexivity|]. cbn. rewrite B. exact IH. Qed.
Lemma trim_star s : trim_text s = lit "*" <-> only_star s.
Proof.
  unfold trim_text, only_star. split.
  - intros E. destruct (drop_blank_spec s) as (a & S1 & A). destruct (drop_blank_spec (rev (drop_blank s))) as (b & S2 & B).
    apply (f_equal (@rev N)) in E. rewrite rev_involutive in E. rewrite E in S2. apply (f_equal (@rev N)) in S2. rewrite rev_involutive, rev_app_distr in S2.
    exists a, (rev b). split; [rewrite S1, S2; reflexivity|]. apply Forall_app. split; [exact A|]. apply Forall_rev. exact B.
  - intros (a & b & -> & F). apply Forall_app in F. destruct F as (A & B). rewrite (drop_blank_app a _ A). cbn [drop_blank].
    change (blank 42) with false. cbv iota. cbn [rev]. rewrite drop_blank_app; [|apply Forall_rev; exact B].
    cbn [drop_blank]. change (blank 42) with false. cbv iota. reflexivity.
Qed.
Lemma split_pieces s : pieces s (split comma s).
Proof.
  induction s as [|c s IH]; cbn [split]; [apply (piece_last []); intros []|].
  destruct (c =? comma) eqn:Q.
  - apply N.eqb_eq in Q. subst c. apply (piece_more [] s _ (fun x => x) IH).
  - assert (NC : 44 <> c) by (intros <-; discriminate).
    inversion IH as [s0 NI E1 E2|s0 r l NI P E1 E2]; subst.
    + apply piece_last. intros [E|I]; [congruence|exact (NI I)].
    + apply (piece_more (c :: s0) r l); [intros [E|I]; [congruence|exact (NI I)]|exact P].
Qed.
Lemma pieces_split s l : pieces s l -> split comma s = l.
Proof. induction 1 as [s NI|s r l NI P IH]; [apply Ping_Proofs.split_none; exact NI|]. rewrite <- IH. apply Ping_Proofs.split_app. exact NI. Qed.

Section CorsP.
Variable header_value : bytes -> bool.
(** Origins are all or the ones listed between commas; a star among others is refused, and so is what cannot be a header. *)
Theorem C114_cors : forall s c, create_cors_layer header_value s = Ok c <->
  (only_star s /\ c = AnyOrigin) \/
  (~ only_star s /\ exists l, pieces s l /\ ~ In [42] l /\ (forall o, In o l -> header_value o = true) /\ c = Origins l).
Proof.
  intros s c. unfold create_cors_layer. destruct (beqb (trim_text s) (lit "*")) eqn:Q.
  - apply beqb_spec in Q. apply trim_star in Q. split; [intros [= <-]; left; auto|]. intros [(_ & ->)|(NQ & _)]; [reflexivity|contradiction].
  - assert (NQ : ~ only_star s) by (intros K; apply trim_star in K; apply beqb_spec in K; congruence).
    assert (X : existsb (fun o => beqb o (lit "*")) (split comma s) = true <-> In [42] (split comma s)).
    { rewrite existsb_exists. split; [intros (o & I & E); apply beqb_spec in E; subst o; exact I|intros I; exists [42]; split; [exact I|apply beqb_spec; reflexivity]]. }
    destruct (existsb _ _).
    + split; [discriminate|]. intros [(K & _)|(_ & l & P & NI & _)]; [contradiction|]. exfalso. apply NI. rewrite <- (pieces_split _ _ P). apply X. reflexivity.
    + destruct (forallb header_value (split comma s)) eqn:F.
      * rewrite forallb_forall in F. split.
        -- intros [= <-]. right. split; [exact NQ|]. exists (split comma s). split; [apply split_pieces|]. split; [|split; [exact F|reflexivity]].
           intros I. apply X in I. discriminate.
        -- intros [(K & _)|(_ & l & P & _ & _ & ->)]; [contradiction|]. rewrite (pieces_split _ _ P). reflexivity.
      * split; [discriminate|]. intros [(K & _)|(_ & l & P & _ & H & _)]; [contradiction|]. exfalso.
        rewrite (pieces_split _ _ P) in F. rewrite <- not_true_iff_false in F. apply F. apply forallb_forall. exact H.
Qed.
(** False of the code: that origins may be listed with a space after each comma.  Such an origin is not let in. *)
Theorem C114_cors_space_refuted : forall s c l o, create_cors_layer header_value s = Ok c -> pieces s l -> (1 < length l)%nat -> In (32 :: o) l -> ~ In o l -> ~ allowed c o.
Proof.
  intros s c l o E P L I NI. apply C114_cors in E. destruct E as [(K & _)|(_ & l' & P' & _ & _ & ->)].
  - exfalso. destruct K as (a & b & -> & F). assert (NC : ~ In 44 (a ++ 42 :: b)).
    { intros J. rewrite Forall_forall in F. apply in_app_or in J. destruct J as [J|[J|J]]; [|discriminate|];
        (specialize (F 44); rewrite in_app_iff in F; specialize (F (ltac:(tauto))); discriminate). }
    apply pieces_split in P. rewrite (Ping_Proofs.split_none comma _ NC) in P. subst l. cbn in L. lia.
  - cbn. apply pieces_split in P, P'. rewrite <- P', P. exact NI.
Qed.
(** One server for HTTP and WebSockets has one set of origins: it does not start if the two texts differ by more than white space around them. *)
Theorem C114_cors_conflict : forall {C} bind ipc_start c (i : installed C) w h, http_on c = true -> ws_on c = true -> http_addr c = ws_addr c ->
  ws_cors c = Some w -> http_cors c = Some h -> trim_text w <> trim_text h -> start_servers header_value bind ipc_start c i = Err.
Proof.
  intros C bind ipc_start c i w h E1 E2 E3 E4 E5 D. unfold start_servers, build_ws_http. rewrite E1, E2, E3, E4, E5.
  replace (opt_addr_eqb (ws_addr c) (ws_addr c)) with true by (destruct (ws_addr c); [symmetry; apply addr_eqb_spec|]; reflexivity).
  cbn [andb]. replace (beqb (trim_text w) (trim_text h)) with false; [reflexivity|]. symmetry. apply not_true_iff_false. rewrite beqb_spec. exact D.
Qed.
(** Each server lets in the origins that are configured for it, and has no such limit exactly if none is configured. *)
Theorem C114_origins : forall {C} bind ipc_start c (i : installed C) h k, start_servers header_value bind ipc_start c i = Ok h -> In k (listeners h) ->
  let lets t := match t with None => allows k = None | Some t => exists o, create_cors_layer header_value t = Ok o /\ allows k = Some o end in
  (accepts_http k = true -> accepts_ws k = false -> lets (http_cors c)) /\
  (accepts_http k = false -> accepts_ws k = true -> lets (ws_cors c)) /\
  (accepts_http k = true -> accepts_ws k = true -> lets (match ws_cors c with Some w => Some w | None => http_cors c end)) /\
  (accepts_http k = false -> accepts_ws k = false -> allows k = None).
Proof.
  intros C bind ipc_start c i h k S0 K lets.
  assert (B : forall held a t p q b, build_server header_value bind held a t p q = Ok b -> b_http b = p /\ b_ws b = q /\
    match t with None => b_cors b = None | Some t => exists o, create_cors_layer header_value t = Ok o /\ b_cors b = Some o end).
  { intros held a t p q b H. unfold build_server in H. destruct t as [t|]; cbn in H.
    - destruct (create_cors_layer header_value t) as [o| |]; cbn in H; try discriminate. destruct (bind held a); [|discriminate]. injection H as <-. cbn. eauto.
    - destruct (bind held a); [|discriminate]. injection H as <-. auto. }
  unfold start_servers in S0. destruct (build_ws_http header_value bind c) as [[[hl wl] s]| |] eqn:W; cbn in S0; try discriminate.
  destruct (start_ws_http s i) as [l| |] eqn:L; cbn in S0; try discriminate.
  assert (G : In k l -> (accepts_http k = true -> accepts_ws k = false -> lets (http_cors c)) /\
    (accepts_http k = false -> accepts_ws k = true -> lets (ws_cors c)) /\
    (accepts_http k = true -> accepts_ws k = true -> lets (match ws_cors c with Some w => Some w | None => http_cors c end)) /\
    (accepts_http k = false -> accepts_ws k = false -> allows k = None)).
  { clear S0 K. intros K. unfold build_ws_http in W. destruct (opt_addr_eqb (http_addr c) (ws_addr c) && http_on c && ws_on c).
    - destruct (match ws_cors c with Some _ => _ | None => _ end) as [co| |] eqn:CO; cbn in W; try discriminate.
      destruct (build_server header_value bind [] _ co true true) as [b| |] eqn:Q; cbn in W; try discriminate. injection W as <- <- <-.
      cbn in L. destruct (negb _); [discriminate|]. injection L as <-. change (In k (started (both (Some b) (match i_http i with Some m => Some m | None => i_ws i end)))) in K.
      apply started_in in K as (b' & m & [= <-] & _ & ->). apply B in Q as (Q1 & Q2 & Q3). unfold lets. cbn [listen accepts_http accepts_ws allows]. rewrite Q1, Q2.
      split; [discriminate|]. split; [discriminate|]. split; [|discriminate]. intros _ _.
      assert (E : match ws_cors c with Some w => Some w | None => http_cors c end = co).
      { destruct (ws_cors c) as [w|], (http_cors c) as [x|]; try congruence. destruct (negb _); congruence. }
      rewrite E. exact Q3.
    - match type of W with obind ?e _ = _ => destruct e as [w| |] eqn:WW end; cbn in W; try discriminate.
      match type of W with obind ?e _ = _ => destruct e as [hh| |] eqn:HH end; cbn in W; try discriminate. injection W as <- <- <-.
      cbn in L. injection L as <-. apply in_app_or in K. destruct K as [K|K]; apply started_in in K; destruct K as (b & m & E1 & E2 & ->); unfold lets; cbn [listen accepts_http accepts_ws allows].
      + subst hh. destruct (http_on c); [|discriminate]. match type of HH with omap _ ?e = _ => destruct e eqn:E end; try discriminate. injection HH as ->.
        apply B in E as (-> & -> & E). split; [intros _ _; exact E|]. repeat split; discriminate.
      + subst w. destruct (ws_on c); [|discriminate]. match type of WW with omap _ ?e = _ => destruct e eqn:E end; try discriminate. injection WW as ->.
        apply B in E as (-> & -> & E). split; [discriminate|]. split; [intros _ _; exact E|]. split; discriminate. }
  destruct (ipc_on c); [|injection S0 as <-; exact (G K)]. destruct (i_ipc i) as [m|]; [|injection S0 as <-; exact (G K)].
  destruct (ipc_start _); [|discriminate]. injection S0 as <-. cbn in K. apply in_app_or in K. destruct K as [K|[<-|[]]]; [exact (G K)|].
  unfold lets. cbn. repeat split; discriminate.
Qed.
End CorsP.
Print Assumptions C114_origins.
Print Assumptions C114_cors.
Print Assumptions C114_cors_space_refuted.
Print Assumptions C114_cors_conflict.

(** A system that grants what is asked for unless the port is taken for all addresses *)
Definition toy_bind (held : list addr) (a : addr) : option addr :=
  if existsb (fun b => ip_eqb (host b) (V4 0) && (port b =? port a)) held then None else Some a.
Definition toy_resolve (u : bytes) : option (list addr) :=
  if beqb u (lit "http://127.0.0.1:8545/") then Some [mk_addr (V4 2130706433) 8545]
  else if beqb u (lit "http://0.0.0.0:8545/") then Some [mk_addr (V4 0) 8545] else None.
Definition toy_run (c : rpc_config) (l : list subnetwork) :=
  run_node (fun _ => true) toy_bind (fun _ => true) toy_resolve (fun s => Some s) (Some c) l.
Definition toy_http (u : string) (w : bool) (p : N) : rpc_config := mk_rpc_config HTTP default_ipc_path (lit u) w p.
Definition summary (r : outcome (channels subnetwork * option (handle subnetwork))) :=
  omap (fun p => match snd p with None => [] | Some h => map (fun k => (kind k, length (serves k))) (listeners h) end) r.
(** The hypotheses on the system hold of it; a node with three networks serves 79 methods; a repeated network ends
    in a panic although the command line accepts it; with the default address, WebSockets on the port of HTTP are an error. *)
Example C114_example :
  honest_bind toy_bind /\ exclusive_bind toy_bind /\
  summary (toy_run (toy_http "http://127.0.0.1:8545/" true 8546) [Beacon; LegacyHistory; State]) =
    Ok [((AtAddr (mk_addr (V4 2130706433) 8545), true, false, None), 79%nat); ((AtAddr (mk_addr (V4 0) 8546), false, true, None), 79%nat)] /\
  summary (toy_run (toy_http "http://0.0.0.0:8545/" true 8545) [Beacon; LegacyHistory]) =
    Ok [((AtAddr (mk_addr (V4 0) 8545), true, true, None), 61%nat)] /\
  summary (toy_run (mk_rpc_config IPC default_ipc_path [] false 8546) [Beacon]) = Ok [((AtPath default_ipc_path, false, false, None), 36%nat)] /\
  summary (toy_run (toy_http "http://127.0.0.1:8545/" true 8545) [Beacon]) = Err /\
  summary (toy_run (toy_http "unix:/x" false 8545) [Beacon]) = Panic /\
  subnetwork_parser (lit "beacon,legacy_history,beacon") = Ok [Beacon; LegacyHistory; Beacon] /\
  cli_accepted (mk_cli [Beacon; LegacyHistory; Beacon] (Some 1000) None None None) = true /\
  summary (toy_run (mk_rpc_config IPC default_ipc_path [] false 8546) [Beacon; LegacyHistory; Beacon]) = Panic /\
  create_cors_layer (fun _ => true) (lit " * ") = Ok AnyOrigin /\ create_cors_layer (fun _ => true) (lit "a,*") = Err /\
  create_cors_layer (fun _ => true) (lit "a, b") = Ok (Origins [lit "a"; lit " b"]).
Proof.
  split; [|split].
  - intros held a a'. unfold toy_bind. destruct (existsb _ held); [discriminate|]. intros [= <-]. auto.
  - intros held a b I H P. unfold toy_bind. replace (existsb _ held) with true; [reflexivity|]. symmetry. apply existsb_exists. exists b. split; [exact I|].
    rewrite H, P, N.eqb_refl. reflexivity.
  - repeat split; vm_compute; reflexivity.
Qed.
Print Assumptions C114_example.
