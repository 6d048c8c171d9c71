(** C126: what the light client asks for, and that it is as safe with a provider as with the network. *)
From Verif Require Import Base Merkle_Spec Header_Spec LightClient_Model LightClient_Spec LightClient_Proofs LightClient_Props LcSync_Model LcSync_Spec.

Lemma range_spec a b : periods_between a b (range a b).
Proof.
  unfold range. split.
  - assert (G : forall n k, StronglySorted N.lt (map (fun i => a + N.of_nat i) (seq k n))).
    { induction n as [|n IH]; intros k; cbn [seq map]; constructor; [apply IH|]. apply Forall_forall. intros x I. apply in_map_iff in I as (i & <- & I). apply in_seq in I. lia. }
    apply G.
  - intros p. rewrite in_map_iff. split.
    + intros (i & <- & I). apply in_seq in I. lia.
    + intros L. exists (N.to_nat (p - a)). split; [lia|]. apply in_seq. lia.
Qed.

Section Props.
Context (sha : bytes -> bytes) (Hsha : forall b, length (sha b) = 32%nat) {key : Type} (parse_key : bytes -> option key) (aggregate_verify : list key -> bytes -> bytes -> bool).
Notation sync := (sync sha parse_key aggregate_verify).
Notation advance := (advance sha parse_key aggregate_verify).
Notation process := (process sha parse_key aggregate_verify).
Notation process_all := (process_all sha parse_key aggregate_verify).
Notation latest_updates := (latest_updates sha parse_key aggregate_verify).
Notation ask_latest := (ask_latest sha parse_key aggregate_verify).
Notation sync_with := (sync_with sha parse_key aggregate_verify).
Notation advance_with := (advance_with sha parse_key aggregate_verify).
Notation node_sync := (node_sync sha parse_key aggregate_verify).
Notation advances := (advances sha parse_key aggregate_verify).
Notation run cf c gs := (lc_run sha parse_key aggregate_verify cf c (map Advance gs)).

(** The history before the question for the [k]-th period *)
Definition hist (h : list asked) (first : N) (k : nat) : list asked := h ++ map (fun i => AUpdates (first + N.of_nat i) 1) (seq 0 k).
Lemma ask_periods_fetch s h first (fu : N -> option (list (N * update))) :
  (forall i, fu (first + N.of_nat i) = on_updates s (hist h first i) (first + N.of_nat i) 1) ->
  forall n k, snd (ask_periods s (hist h first k) (map (fun i => first + N.of_nat i) (seq k n))) = fetch_all fu (map (fun i => first + N.of_nat i) (seq k n)).
Proof.
  intros F. induction n as [|n IH]; intros k; cbn [seq map ask_periods fetch_all]; [reflexivity|]. rewrite F.
  destruct (on_updates s (hist h first k) (first + N.of_nat k) 1) as [l|]; [|reflexivity].
  specialize (IH (Datatypes.S k)). assert (E : hist h first (Datatypes.S k) = hist h first k ++ [AUpdates (first + N.of_nat k) 1]).
  { unfold hist. rewrite seq_S, map_app, app_assoc. reflexivity. }
  rewrite E in IH. destruct (ask_periods s _ _) as [h' o]. cbn [snd] in *. rewrite <- IH. destruct o; reflexivity.
Qed.
Lemma ask_periods_asks s : forall ps h, let r := ask_periods s h ps in
  (exists a b, map (fun p => AUpdates p 1) ps = a ++ b /\ fst r = h ++ a) /\ (snd r <> None -> fst r = h ++ map (fun p => AUpdates p 1) ps).
Proof.
  induction ps as [|p ps IH]; intros h; cbn [ask_periods map].
  - cbn. split; [exists [], []; split; [reflexivity|now rewrite app_nil_r] | intros _; now rewrite app_nil_r].
  - destruct (on_updates s h p 1) as [l|].
    + specialize (IH (h ++ [AUpdates p 1])). destruct (ask_periods s (h ++ [AUpdates p 1]) ps) as [h' o]. cbn [fst snd] in *. destruct IH as ((a & b & E & ->) & W). split.
      * exists (AUpdates p 1 :: a), b. rewrite E, <- app_assoc. auto.
      * intros NN. rewrite W by (destruct o; [discriminate|exact NN]). rewrite <- app_assoc. reflexivity.
    + cbn [fst snd]. split; [exists [AUpdates p 1], (map (fun p => AUpdates p 1) ps); auto | congruence].
Qed.

Definition of_latest (s : source) (h : list asked) (b : option (N * bootstrap_data)) (now : N) (fu : N -> option (list (N * update))) : fetched :=
  {| f_bootstrap := b; f_now := now; f_updates := fu; f_finality := on_finality s h; f_optimistic := on_optimistic s (h ++ [AFinality]) |}.
Lemma latest_same cf s h c b now fu : snd (ask_latest cf s h c) = latest_updates cf c (of_latest s h b now fu).
Proof.
  unfold LcSync_Model.ask_latest, LightClient_Model.latest_updates, on_ok, and_then, of_latest. cbn [f_finality f_optimistic fst snd].
  destruct (on_finality s h) as [x|]; cbn [fst snd].
  - destruct (process cf c x) as [c' o]. cbn [fst snd]. destruct o; reflexivity.
  - reflexivity.
Qed.
Lemma latest_asks cf s h c : exists q, fst (ask_latest cf s h c) = h ++ q /\ (q = [AFinality] \/ q = [AFinality; AOptimistic]) /\ (snd (snd (ask_latest cf s h c)) = Ok tt -> q = [AFinality; AOptimistic]).
Proof.
  unfold LcSync_Model.ask_latest, on_ok. cbn [fst snd]. destruct (match on_finality s h with Some x => process cf c x | None => (c, Ok tt) end) as [c' o]. cbn [fst snd].
  destruct o as [[]| |]; cbn [fst snd].
  - exists [AFinality; AOptimistic]. rewrite <- app_assoc. auto.
  - exists [AFinality]. split; [reflexivity|]. split; [auto|discriminate].
  - exists [AFinality]. split; [reflexivity|]. split; [auto|discriminate].
Qed.
Lemma ask_updates_asks s h first : let r := ask_updates s h first in
  let u := if portal s then map (fun p => AUpdates p 1) (range first (period (slot_now s h))) else [AUpdates first 128] in
  (exists a b, u = a ++ b /\ fst r = h ++ a) /\ (snd r <> None -> fst r = h ++ u).
Proof.
  unfold ask_updates. destruct (portal s); [apply ask_periods_asks|]. cbn [fst snd]. split; [exists [AUpdates first 128], []; auto | auto].
Qed.

(** C126: the questions of a sync, in order, each once: all of them if it succeeds, otherwise the first of them. *)
Theorem C126_questions : forall cf s h c, let r := sync_with cf s h c in let root := initial_checkpoint c in
  exists first ps, periods_between first (period_of (slot_now s (h ++ [ABootstrap root]))) ps /\
    (forall now b, on_bootstrap s h root = Some (now, b) -> first = period_of (b_slot (bs_header b))) /\
    (exists q rest, q ++ rest = questions s root ps first /\ fst r = h ++ q /\ q <> []) /\
    (snd (snd r) = Ok tt -> fst r = h ++ questions s root ps first).
Proof.
  intros cf s h c r root. subst r. unfold LcSync_Model.sync_with. fold root. set (h1 := h ++ [ABootstrap root]).
  destruct (on_bootstrap s h root) as [[now b]|] eqn:OB.
  - exists (period_of (b_slot (bs_header b))), (range (period_of (b_slot (bs_header b))) (period_of (slot_now s h1))). split; [apply range_spec|].
    split; [intros n' b' [= _ <-]; reflexivity|].
    set (first := period_of (b_slot (bs_header b))). set (ps := range first _). unfold on_ok at 1 3 5. cbn [fst snd].
    destruct (bootstrap sha cf c now b) as [c1 o1] eqn:BS. cbn [fst snd]. destruct (bootstrap_inv _ _ _ _ _ _ _ BS) as [(N1 & ->)|(-> & _ & _ & ST & _)].
    + assert (E : match o1 with Ok _ => let (h0, o) := ask_updates s h1 (period (b_slot (finalized (lc_store c)))) in
        on_ok (h0, match o with Some l => process_all cf c l | None => (c, Err) end) (fun h c => ask_latest cf s h c) | _ => (h1, (c, o1)) end = (h1, (c, o1)))
        by (destruct o1 as [[]| |]; [congruence|reflexivity|reflexivity]).
      rewrite E. cbn [fst snd]. split; [|intros X; congruence]. exists [ABootstrap root]. eexists. split; [reflexivity|]. split; [reflexivity|discriminate].
    + rewrite ST. cbn [boot_store finalized]. rewrite period_eq. fold first. destruct (ask_updates_asks s h1 first) as ((a & b' & E & F) & W). rewrite period_eq in E, W. fold ps in E, W.
      destruct (ask_updates s h1 first) as [h2 o2]. cbn [fst snd] in F, W. unfold on_ok. cbn [fst snd].
      assert (P : exists q rest, q ++ rest = questions s root ps first /\ h2 = h ++ q /\ q <> []).
      { exists (ABootstrap root :: a), (b' ++ [AFinality; AOptimistic]). split; [|split; [|discriminate]].
        - unfold questions. rewrite E. cbn [app]. rewrite !app_assoc. reflexivity.
        - rewrite F. unfold h1. rewrite <- app_assoc. reflexivity. }
      destruct o2 as [l|]; cbn [fst snd]; [|split; [exact P|discriminate]].
      destruct (process_all cf c1 l) as [c2 o3]. cbn [fst snd]. destruct o3 as [[]| |]; [|split; [exact P|discriminate] | split; [exact P|discriminate]].
      specialize (W ltac:(discriminate)). clear F P. destruct (latest_asks cf s h2 c2) as (q & Q & C & D). rewrite Q. subst h2. unfold h1, questions in *. split.
      * destruct C as [-> | ->].
        -- eexists (ABootstrap root :: _ ++ [AFinality]), [AOptimistic]. split; [|split; [|discriminate]].
           ++ cbn [app]. rewrite <- app_assoc. cbn [app]. reflexivity.
           ++ rewrite <- !app_assoc. reflexivity.
        -- eexists _, []. rewrite app_nil_r. split; [reflexivity|]. split; [|discriminate]. rewrite <- !app_assoc. reflexivity.
      * intros X. rewrite (D X). rewrite <- !app_assoc. reflexivity.
  - exists 0, (range 0 (period_of (slot_now s h1))). split; [apply range_spec|]. split; [discriminate|]. unfold on_ok. cbn [fst snd]. split; [|discriminate].
    exists [ABootstrap root]. eexists. split; [reflexivity|]. split; [reflexivity|discriminate].
Qed.

(** Whatever the source, a sync does what [LightClient_Model.sync] does with some fetched data that is all from the source. *)
Lemma sync_same cf s h c : exists f, snd (sync_with cf s h c) = sync cf c f /\ came_from s (initial_checkpoint c) f.
Proof.
  set (root := initial_checkpoint c). set (h1 := h ++ [ABootstrap root]).
  destruct (on_bootstrap s h root) as [[now b]|] eqn:OB.
  - destruct (bootstrap sha cf c now b) as [c1 o1] eqn:BS. set (first := period (b_slot (finalized (lc_store c1)))).
    set (h2 := fst (ask_updates s h1 first)).
    assert (X : exists nw fu, snd (ask_updates s h1 first) = fetch_all fu (map (fun i => first + N.of_nat i) (seq 0 (N.to_nat (period nw - first)))) /\
      forall p l, fu p = Some l -> exists h n, on_updates s h p n = Some l \/ exists p', on_updates s h p' n = Some l).
    { unfold ask_updates. destruct (portal s).
      - exists (slot_now s h1), (fun p => on_updates s (hist h1 first (N.to_nat (p - first))) p 1). split.
        + assert (Q : h1 = hist h1 first 0) by (unfold hist; cbn; now rewrite app_nil_r). rewrite Q at 1. apply ask_periods_fetch.
          intros i. replace (N.to_nat (first + N.of_nat i - first)) with i by lia. reflexivity.
        + intros p l E. eauto.
      - exists ((first + 1) * 8192), (fun _ => on_updates s h1 first 128). cbn [fst snd]. split.
        + rewrite period_eq. unfold period_of. replace ((first + 1) * 8192 / 8192 - first) with 1 by (rewrite N.div_mul by discriminate; lia).
          change (N.to_nat 1) with 1%nat. cbn [seq map fetch_all]. destruct (on_updates s h1 first 128) as [l|]; [|reflexivity]. now rewrite app_nil_r.
        + intros p l E. exists h1, 128. right. eauto. }
    destruct X as (nw & fu & X & Y). exists (of_latest s h2 (Some (now, b)) nw fu). split.
    + unfold LcSync_Model.sync_with, LightClient_Model.sync, on_ok, and_then at 1. fold root. fold h1. rewrite OB. cbn [of_latest f_bootstrap f_updates f_now fst snd]. rewrite BS. cbn [fst snd].
      destruct o1 as [[]| |]; try reflexivity. fold first. rewrite <- X. unfold h2. destruct (ask_updates s h1 first) as [h3 o]. cbn [fst snd].
      destruct o as [l|]; cbn [fst snd]; [|reflexivity]. unfold and_then at 1. destruct (process_all cf c1 l) as [c2 o3]. cbn [fst snd].
      destruct o3 as [[]| |]; cbn [fst snd]; try reflexivity. apply latest_same.
    + split.
      * intros n u [(p & l & E & I)|[E|E]]; cbn [of_latest f_updates f_finality f_optimistic] in E.
        -- destruct (Y _ _ E) as (h' & m & [Z|(p' & Z)]); exists h'; left; eauto.
        -- exists h2. auto.
        -- exists (h2 ++ [AFinality]). auto.
      * intros b' (n & E). cbn in E. injection E as <- <-. exists h, now. exact OB.
  - exists {| f_bootstrap := None; f_now := 0; f_updates := fun _ => None; f_finality := None; f_optimistic := None |}. split.
    + unfold LcSync_Model.sync_with, LightClient_Model.sync, on_ok. fold root. rewrite OB. reflexivity.
    + split; [intros n u [(p & l & E & _)|[E|E]]; discriminate | intros b (n & E); discriminate].
Qed.
Lemma advance_same cf s h c root : exists f, snd (advance_with cf s h c) = advance cf c f /\ came_from s root f.
Proof.
  set (h2 := fst (ask_latest cf s h c)).
  exists (of_latest s h None 0 (fun p => on_updates s h2 p 1)). split.
  - unfold LcSync_Model.advance_with, LightClient_Model.advance, on_ok, and_then at 1. rewrite <- (latest_same cf s h c None 0 (fun p => on_updates s h2 p 1)).
    unfold h2. destruct (ask_latest cf s h c) as [h3 [c' o]]. cbn [fst snd]. destruct o as [[]| |]; try reflexivity. cbn [of_latest f_updates].
    destruct (next_known (lc_store c')); [reflexivity|]. cbn [snd]. reflexivity.
  - split.
    + intros n u [(p & l & E & I)|[E|E]]; cbn [of_latest f_updates f_finality f_optimistic] in E; [exists h2; left; eauto | exists h; auto | exists (h ++ [AFinality]); auto].
    + intros b (n & E). discriminate.
Qed.
Lemma advances_same cf root : forall ss h c, exists gs, snd (advances cf ss h c) = run cf c gs /\ Forall2 (fun s g => came_from s root g) ss gs.
Proof.
  induction ss as [|s ss IH]; intros h c; cbn [LcSync_Model.advances].
  - exists []. split; [reflexivity|constructor].
  - destruct (advance_same cf s h c root) as (g & E & C). destruct (IH (fst (advance_with cf s h c)) (fst (snd (advance_with cf s h c)))) as (gs & E' & F).
    exists (g :: gs). split; [|constructor; assumption]. rewrite E'. cbn [map]. unfold lc_run. cbn [fold_left lc_step]. rewrite <- E. reflexivity.
Qed.

(** Over the portal network or with a provider, whatever they answer: if the checkpoint is a block of the chain and two thirds of a committee sign only blocks of the chain,
    the finalised header stays a block of the chain, unless an answer contains a hash collision. *)
Theorem C126_safety : forall ch cf c0 h0 s0 h h1 c1 ss, chain_ok sha ch -> honest sha parse_key aggregate_verify ch cf ->
  config_typed cf -> descending (fork_epochs cf) -> source_typed s0 -> Forall source_typed ss ->
  canonical ch h0 -> initial_checkpoint c0 = root_of_header sha h0 -> node_sync cf s0 h c0 = (h1, (c1, Ok tt)) ->
  canonical ch (finalized (lc_store (snd (advances cf ss h1 c1)))) \/
  (exists s now u, In s (s0 :: ss) /\ answered s now u /\ broken_by sha ch u) \/ (exists b, booted s0 (initial_checkpoint c0) b /\ broken_by_bootstrap sha ch h0 b).
Proof.
  intros ch cf c0 h0 s0 h h1 c1 ss OK Hon TC D T0 T H0 Hc S. unfold LcSync_Model.node_sync in S. destruct (on_chain s0 h); [|discriminate].
  destruct (sync_same cf s0 (h ++ [AChain]) c0) as (f & E & (C1 & C2)). rewrite S in E. cbn [snd] in E. symmetry in E.
  destruct (advances_same cf (initial_checkpoint c0) ss h1 c1) as (gs & R & F). rewrite R.
  assert (G : forall g, In g gs -> exists s, In s ss /\ came_from s (initial_checkpoint c0) g).
  { clear -F. induction F as [|s g ss gs C F IH]; intros x I; [destruct I|]. destruct I as [<-|I]; [exists s; split; [now left|exact C]|]. destruct (IH x I) as (s' & I' & C'). exists s'. split; [now right|exact C']. }
  assert (A : forall now u, fetched_by f gs now u -> exists s, In s (s0 :: ss) /\ answered s now u).
  { intros now u [X|(g & I & X)]; [exists s0; split; [now left|auto]|]. destruct (G g I) as (s & I' & (C & _)). exists s. split; [now right|auto]. }
  rewrite Forall_forall in T.
  assert (TI : typed_inputs f gs).
  { split.
    - intros now u X. destruct (A now u X) as (s & [<-|I] & Y); [apply (proj1 T0 now u Y) | apply (proj1 (T s I) now u Y)].
    - intros b X. apply (proj2 T0 (initial_checkpoint c0) b). auto. }
  destruct (C48_safety sha parse_key aggregate_verify Hsha ch cf c0 h0 f c1 gs OK Hon TC D TI H0 Hc E) as [Y|[(now & u & Y & Z)|(b & Y & Z)]].
  - left. exact Y.
  - right. left. destruct (A now u Y) as (s & I & W). eauto 6.
  - right. right. exists b. auto.
Qed.
(** The finalised and the optimistic slot never go back, whatever is answered. *)
Theorem C126_monotone : forall cf c0 s0 h h1 c1 ss ss', node_sync cf s0 h c0 = (h1, (c1, Ok tt)) ->
  let r2 := advances cf ss h1 c1 in let c3 := snd (advances cf ss' (fst r2) (snd r2)) in
  b_slot (finalized (lc_store (snd r2))) <= b_slot (finalized (lc_store c3)) /\ b_slot (optimistic (lc_store (snd r2))) <= b_slot (optimistic (lc_store c3)) /\
  b_slot (finalized (lc_store c3)) <= b_slot (optimistic (lc_store c3)).
Proof.
  intros cf c0 s0 h h1 c1 ss ss' S r2 c3. unfold LcSync_Model.node_sync in S. destruct (on_chain s0 h); [|discriminate].
  destruct (sync_same cf s0 (h ++ [AChain]) c0) as (f & E & _). rewrite S in E. cbn [snd] in E. symmetry in E.
  destruct (advances_same cf [] ss h1 c1) as (gs & R & _). destruct (advances_same cf [] ss' (fst r2) (snd r2)) as (gs' & R' & _).
  unfold c3. rewrite R'. unfold r2 at 1 2 3 4 5 6. rewrite R. apply (C48_monotone sha parse_key aggregate_verify cf c0 f c1 gs gs' E).
Qed.
(** With a source of another chain nothing more is asked and nothing changes. *)
Theorem C126_other_chain : forall cf s h c, on_chain s h = false -> node_sync cf s h c = (h ++ [AChain], (c, Err)).
Proof. intros cf s h c E. unfold LcSync_Model.node_sync. rewrite E. reflexivity. Qed.
(** An advance asks for the latest updates, and then for the committee of its period only if it does not know the next one. *)
Theorem C126_advance : forall cf s h c, let r := advance_with cf s h c in exists q, fst r = h ++ q /\
  (q = [AFinality] \/ q = [AFinality; AOptimistic] \/ exists p, q = [AFinality; AOptimistic; AUpdates p 1]) /\
  (snd (snd r) = Ok tt -> q = [AFinality] -> False) /\
  (forall p, q = [AFinality; AOptimistic; AUpdates p 1] -> exists c', snd (ask_latest cf s h c) = (c', Ok tt) /\ next_known (lc_store c') = None /\ p = period_of (b_slot (finalized (lc_store c')))) /\
  (snd (snd r) = Ok tt -> q = [AFinality; AOptimistic] -> next_known (lc_store (fst (snd r))) <> None).
Proof.
  intros cf s h c r. subst r. unfold LcSync_Model.advance_with, on_ok. destruct (latest_asks cf s h c) as (q & Q & C & D).
  destruct (ask_latest cf s h c) as [h' [c' o]]. cbn [fst snd] in *. subst h'. destruct o as [[]| |].
  - specialize (D eq_refl). subst q. destruct (next_known (lc_store c')) as [k|] eqn:NK; cbn [fst snd].
    + exists [AFinality; AOptimistic]. split; [reflexivity|]. split; [auto|]. split; [discriminate|]. split; [discriminate|]. intros _ _. congruence.
    + rewrite period_eq. eexists [AFinality; AOptimistic; AUpdates _ 1]. rewrite <- app_assoc. split; [reflexivity|]. split; [eauto|]. split; [discriminate|]. split; [|discriminate].
      intros p [= <-]. exists c'. auto.
  - cbn [fst snd]. exists q. split; [reflexivity|]. split; [tauto|]. split; [discriminate|]. split; [|discriminate]. intros p ->. destruct C; discriminate.
  - cbn [fst snd]. exists q. split; [reflexivity|]. split; [tauto|]. split; [discriminate|]. split; [|discriminate]. intros p ->. destruct C; discriminate.
Qed.
End Props.
Print Assumptions C126_questions.
Print Assumptions C126_safety.
Print Assumptions C126_monotone.
Print Assumptions C126_other_chain.
Print Assumptions C126_advance.

(** The chain of LightClient_Props, over the network and with a provider: two periods are caught up, then the client advances. *)
Definition toy_source (network : bool) (f : fetched) : source :=
  {| portal := network; slot_now := fun _ => f_now f; on_chain := fun _ => true; on_bootstrap := fun _ _ => f_bootstrap f;
     on_updates := fun _ p n => if n =? 1 then f_updates f p else fetch_all (f_updates f) [p; p + 1];
     on_finality := fun _ => f_finality f; on_optimistic := fun _ => f_optimistic f |}.
Lemma toy_source_in network f now u : answered (toy_source network f) now u -> fetched_in f now u.
Proof.
  intros (h & [(p & n & l & E & I)|[E|E]]); cbn -[fetch_all] in E; [|right; now left | right; now right]. destruct (n =? 1); [left; eauto|]. left. exact (fetch_all_in _ _ _ _ _ E I).
Qed.
Lemma toy_sources network : source_typed (toy_source network toy_fetch) /\ source_typed (toy_source network toy_next).
Proof.
  destruct toy_inputs as (A & B). split; split.
  - intros now u X. apply (A now u). left. exact (toy_source_in _ _ _ _ X).
  - intros r b (h & now & E). apply B. exists now. exact E.
  - intros now u X. apply (A now u). right. exists toy_next. split; [now left | exact (toy_source_in _ _ _ _ X)].
  - intros r b (h & now & E). cbn in E. discriminate.
Qed.
Example C126_case : forall network, let s := toy_source network toy_fetch in
  let r := node_sync toy_sha toy_parse toy_verify toy_config s [] toy_client in
  fst r = AChain :: ABootstrap (initial_checkpoint toy_client) :: (if network then [AUpdates 0 1; AUpdates 1 1] else [AUpdates 0 128]) ++ [AFinality; AOptimistic] /\
  exists c1, snd r = (c1, Ok tt) /\
  (let c2 := snd (advances toy_sha toy_parse toy_verify toy_config [toy_source network toy_next] (fst r) c1) in
   b_slot (finalized (lc_store c2)) = 19968 /\
   (canonical toy_chain (finalized (lc_store c2)) \/
    (exists s' now u, In s' [s; toy_source network toy_next] /\ answered s' now u /\ broken_by toy_sha toy_chain u) \/
    (exists b, booted s (initial_checkpoint toy_client) b /\ broken_by_bootstrap toy_sha toy_chain (hdr 6400) b))).
Proof.
  intros network s r.
  assert (Q : snd (snd r) = Ok tt) by (destruct network; vm_compute; reflexivity).
  split; [destruct network; vm_compute; reflexivity|]. exists (fst (snd r)). split; [destruct (snd r); cbn in *; congruence|]. split; [destruct network; vm_compute; reflexivity|].
  destruct (toy_sources network) as (T1 & T2).
  apply (C126_safety toy_sha toy_len toy_parse toy_verify toy_chain toy_config toy_client (hdr 6400) s [] (fst r) (fst (snd r)) [toy_source network toy_next]).
  - exact toy_ok.
  - exact toy_honest.
  - exact toy_typed.
  - exact toy_descending.
  - exact T1.
  - constructor; [exact T2|constructor].
  - split; [apply hdr_typed; reflexivity|reflexivity].
  - symmetry. apply toy_header.
  - change (r = (fst r, (fst (snd r), Ok tt))). destruct r as [x [y z]]. cbn in *. congruence.
Qed.
