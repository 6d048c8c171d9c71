(** C125: where the light client gets its data. *)
From Coq Require Import String Ascii.
From Verif Require Import Base Hex_Model Hex_Proofs Args_Model Args_Spec Args_Proofs Header_Model LegacyHistory_Model Providers_Model Providers_Spec Providers_Proofs Providers_Props LcRpc_Model LcRpc_Spec.

Lemma only_member_iff {T} k (dec : json -> option T) j v : only_member k dec j = Some v <-> has_member k dec j v.
Proof.
  split.
  - destruct j as [| | | |l|l]; cbn; try discriminate.
    + destruct l as [|d [|e l]]; try discriminate. intros E. constructor. exact E.
    + destruct (named (lit k) l) as [|d [|e t]] eqn:E; try discriminate. intros D. econstructor; [apply named_one; exact E | exact D].
  - intros [l d w M D|d w D]; cbn; [|exact D]. apply named_one in M. rewrite M. exact D.
Qed.
Lemma each_iff {S T} (f : S -> option T) (P : S -> T -> Prop) : (forall x y, f x = Some y <-> P x y) -> forall l r, each f l = Some r <-> Forall2 P l r.
Proof.
  intros H. induction l as [|x l IH]; intros r; cbn.
  - split; [intros [= <-]; constructor | intros F; inversion F; reflexivity].
  - split.
    + destruct (f x) as [y|] eqn:E; [|discriminate]. destruct (each f l) as [t|]; [|discriminate]. intros [= <-]. constructor; [apply H; exact E | apply IH; reflexivity].
    + intros F. inversion F as [|a y b t A B]; subst. apply H in A. apply IH in B. rewrite A, B. reflexivity.
Qed.
Lemma read_updates_iff {T} (dec : json -> option T) j vs : read_updates dec j = Some vs <-> data_list dec j vs.
Proof.
  unfold data_list. split.
  - destruct j; cbn; try discriminate. intros E. eexists. split; [reflexivity|]. eapply each_iff; [|exact E]. intros. apply only_member_iff.
  - intros (l & -> & F). cbn. eapply each_iff; [|exact F]. intros. apply only_member_iff.
Qed.
Lemma inner_iff j n : only_member "DEPOSIT_NETWORK_ID" u64_deserialize j = Some n <->
  exists l s, (j = JObj l /\ the_member "DEPOSIT_NETWORK_ID" l (JStr s) \/ j = JArr [JStr s]) /\ number_text s n.
Proof.
  rewrite only_member_iff. split.
  - intros [l d v M D|d v D]; destruct d; cbn in D; try discriminate; apply parse_u64_iff in D; [exists l, s | exists [], s]; auto.
  - intros (l & s & [[-> M]| ->] & D); apply parse_u64_iff in D; [econstructor; [exact M|exact D] | constructor; exact D].
Qed.
Lemma read_spec_iff j n : read_spec j = Some n <-> says_chain j n.
Proof.
  unfold read_spec. rewrite only_member_iff. split.
  - intros [l d v M D|d v D]; apply inner_iff in D as (l' & s & C & D); [eapply says_in; eauto | eapply says_alone; eauto].
  - intros [l d l' s m M C D|d l' s m C D]; [econstructor; [exact M|] | constructor]; apply inner_iff; eauto.
Qed.
Lemma nimbus_once {T} ask parse (read : json -> option T) R rpc q : (forall j v, read j = Some v <-> R j v) ->
  asks_once ask (rpc ++ nimbus_path q) (replies_with parse R) (nimbus ask parse read rpc q).
Proof.
  intros H h. unfold nimbus, replies_with. cbn [fst snd]. split; [reflexivity|].
  destruct (ask h (rpc ++ nimbus_path q)) as [r|]; [|split; [discriminate|]; intros v; split; [discriminate|]; intros (a & b & j & E & _); discriminate].
  destruct (reply_body r) as [b|] eqn:B; [|split; [discriminate|]; intros v; split; [discriminate|]; intros (a & b & j & [= <-] & E & _); congruence].
  destruct (parse b) as [j|] eqn:J; [|split; [discriminate|]; intros v; split; [discriminate|]; intros (a & b' & j & [= <-] & E & E' & _); congruence].
  split; [destruct (read j); discriminate|]. intros v. split.
  - destruct (read j) as [w|] eqn:W; cbn; [|discriminate]. intros [= <-]. exists r, b, j. rewrite <- H. auto.
  - intros (a & b' & j' & [= <-] & E & E' & W). assert (b' = b) by congruence. subst b'. assert (j' = j) by congruence. subst j'. apply H in W. rewrite W. reflexivity.
Qed.
Lemma path_ok q : query_ok q -> path_of (allowed q) (nimbus_path q).
Proof.
  destruct q as [r|p n| | |]; cbn [query_ok allowed nimbus_path]; intros Q.
  - apply (path_bootstrap r (hex_encode r)). apply hex_round_trip. exact Q.
  - apply (path_updates p (N.min n 128) (decimal p) (decimal (N.min n max_updates))); apply decimal_reads; [tauto|]. unfold max_updates. lia.
  - constructor.
  - constructor.
  - constructor.
Qed.

(** C125: every question is one request, at the configured address and the place the beacon API has for it, with at most 128 updates at a time.  What is answered is taken exactly if it
    is JSON with the data; the updates are taken in their order. *)
Theorem C125_provider : forall ask parse rpc,
  (forall T (dec : json -> option T) root, bytes_ok root -> exists p, path_of (QBootstrap root) p /\
    asks_once ask (rpc ++ p) (replies_with parse (has_member "data" dec)) (nimbus_bootstrap ask parse dec rpc root)) /\
  (forall T (dec : json -> option T) start n, start < 2 ^ 64 -> n < 256 -> exists p, path_of (QUpdates start (N.min n 128)) p /\
    asks_once ask (rpc ++ p) (replies_with parse (data_list dec)) (nimbus_updates ask parse dec rpc start n)) /\
  (forall T (dec : json -> option T), exists p, path_of QFinality p /\
    asks_once ask (rpc ++ p) (replies_with parse (has_member "data" dec)) (nimbus_finality ask parse dec rpc)) /\
  (forall T (dec : json -> option T), exists p, path_of QOptimistic p /\
    asks_once ask (rpc ++ p) (replies_with parse (has_member "data" dec)) (nimbus_optimistic ask parse dec rpc)).
Proof.
  intros ask parse rpc. split; [|split; [|split]].
  - intros T dec root B. eexists. split; [exact (path_ok (QBootstrap root) B)|]. apply nimbus_once. intros. apply only_member_iff.
  - intros T dec start n S L. eexists. split; [apply (path_ok (QUpdates start n)); split; [exact S|lia]|]. apply nimbus_once. intros. apply read_updates_iff.
  - intros T dec. eexists. split; [exact (path_ok QFinality I)|]. apply nimbus_once. intros. apply only_member_iff.
  - intros T dec. eexists. split; [exact (path_ok QOptimistic I)|]. apply nimbus_once. intros. apply only_member_iff.
Qed.
Print Assumptions C125_provider.

(** One place is for one question: what is asked can be told from the path. *)
Theorem C125_paths : forall q q' p, query_ok q -> query_ok q' -> nimbus_path q = p -> nimbus_path q' = p -> allowed q = allowed q'.
Proof.
  intros q q' p V V' <-. destruct q as [r|a b| | |], q' as [r'|a' b'| | |];
    try (cbn; intros E; discriminate E); try reflexivity; unfold nimbus_path; cbn [allowed]; intros E; symmetry in E.
  - apply app_inv_head in E. f_equal. cbn [query_ok] in V, V'. apply (f_equal hex_decode) in E. destruct (hex_round_trip r V) as [E1 _], (hex_round_trip r' V') as [E2 _]. congruence.
  - apply app_inv_head in E. destruct V as [A B], V' as [A' B'].
    assert (N : forall x, Forall (fun d => d <> 38) (decimal x)).
    { intros x. eapply Forall_impl; [|apply (decimal_digits 64 x)]. cbn. lia. }
    change (lit "&count=") with (38 :: lit "count=") in E. cbn [app] in E. apply split_unique in E as [E1 E2]; try apply N.
    apply app_inv_head in E2. unfold max_updates in E2. f_equal.
    + apply (reads_inj 10 hex_val (decimal a)); [apply decimal_reads; exact A | rewrite E1; apply decimal_reads; exact A'].
    + apply (reads_inj 10 hex_val (decimal (N.min b 128))); [apply decimal_reads; lia | rewrite E2; apply decimal_reads; lia].
Qed.
Print Assumptions C125_paths.

(** The client goes on with a provider exactly if it says, as text, that it is of the chain of the configuration. *)
Theorem C125_chain : forall ask parse rpc chain,
  asks_once ask (rpc ++ lit "/eth/v1/config/spec") (fun r (_ : unit) => replies_with parse says_chain r chain) (nimbus_check ask parse rpc chain).
Proof.
  intros ask parse rpc chain h. destruct (nimbus_once ask parse read_spec says_chain rpc QSpec read_spec_iff h) as (E & NP & I).
  unfold nimbus_check, nimbus_chain_id. destruct (nimbus ask parse read_spec rpc QSpec h) as [h' o]. cbn [fst snd] in *. split; [exact E|].
  split; [destruct o as [n| |]; cbn; [destruct (n =? chain); discriminate|discriminate|congruence]|].
  change (rpc ++ nimbus_path QSpec) with (rpc ++ lit "/eth/v1/config/spec") in I. intros []. rewrite <- I. destruct o as [n| |]; cbn.
  - destruct (N.eqb_spec n chain) as [->|D]; cbn; split; try congruence; auto.
  - split; discriminate.
  - split; discriminate.
Qed.
Print Assumptions C125_chain.

(** On the portal network: one search for each question, under the key for it, and what is found is taken exactly if it is a content of that kind of the fork Electra.  A finality update
    is asked for from slot 0 on, an optimistic update for the slot of the clock, which is to be after the genesis.  Nothing is asked about the chain: it is the main network. *)
Theorem C125_portal : forall {B U F O} find (decode : lc_key -> bytes -> option (content_value B U F O)),
  (forall root, asks_once find (KBootstrap root) (found decode (KBootstrap root) (fun v b => v = VBootstrap (Some b))) (portal_bootstrap find decode root)) /\
  (forall start n, asks_once find (KUpdates start n) (found decode (KUpdates start n) (fun v l => v = VUpdates (map Some l))) (portal_updates find decode start n)) /\
  asks_once find (KFinality 0) (found decode (KFinality 0) (fun v f => v = VFinality (Some f))) (portal_finality find decode) /\
  (forall now, 1606824023 <= now -> let k := KOptimistic ((now - 1606824023) / 12) in
    asks_once find k (found decode k (fun v o => v = VOptimistic (Some o))) (portal_optimistic find decode now)) /\
  (forall chain, portal_check chain = Ok tt <-> chain = 1).
Proof.
  intros B U F O find decode.
  assert (G : forall T k (P : content_value B U F O -> T -> Prop) (c : content_value B U F O -> outcome T),
    (forall x v, c x = Ok v <-> P x v) -> (forall x, c x <> Panic) ->
    asks_once find k (found decode k P) (fun h => let (h, o) := send_find_content find decode k h in (h, obind o c))).
  { intros T k P c H NP h. unfold send_find_content, found. cbn [fst snd]. split; [reflexivity|].
    destruct (find h k) as [b|]; [|split; [discriminate|]; intros v; split; [discriminate|]; intros (b & x & E & _); discriminate].
    destruct (decode k b) as [x|] eqn:D; [|split; [discriminate|]; intros v; split; [discriminate|]; intros (b' & x & [= <-] & E & _); congruence].
    cbn [of_option obind]. split; [apply NP|]. intros v. rewrite H. split; [eauto|]. intros (b' & x' & [= <-] & E & Q). congruence. }
  split; [|split; [|split; [|split]]].
  - intros root. apply G.
    + intros x v. destruct x as [[b|]| | | |]; split; congruence.
    + intros x. destruct x as [[b|]| | | |]; discriminate.
  - intros start n. apply G.
    + intros x v. destruct x as [|l| | |]; try (split; congruence).
      assert (E : each (fun x => x) l = Some v <-> l = map Some v).
      { rewrite (each_iff (fun x : option U => x) (fun x y => x = Some y)) by (intros; reflexivity). split.
        - induction 1 as [|x y l v E _ IH]; cbn; congruence.
        - intros ->. induction v; cbn; constructor; auto. }
      destruct (each (fun x => x) l) as [w|]; cbn.
      * split; [intros [= ->]; f_equal; apply E; reflexivity|]. intros [= Q]. apply E in Q. congruence.
      * split; [discriminate|]. intros [= Q]. apply E in Q. discriminate.
    + intros x. destruct x as [|l| | |]; try discriminate. destruct (each _ l); discriminate.
  - apply G.
    + intros x v. destruct x as [| |[b|]| |]; split; congruence.
    + intros x. destruct x as [| |[b|]| |]; discriminate.
  - intros now L k. unfold portal_optimistic, expected_slot, genesis. rewrite (proj2 (N.ltb_ge _ _) L). apply G.
    + intros x v. destruct x as [| | |[b|]|]; split; congruence.
    + intros x. destruct x as [| | |[b|]|]; discriminate.
  - intros chain. unfold portal_check. destruct (N.eqb_spec 1 chain); cbn; split; congruence.
Qed.
Print Assumptions C125_portal.
(** With a clock before the genesis of the beacon chain nothing is asked: the task ends in a panic. *)
Theorem C125_clock_refuted : forall {B U F O} find (decode : lc_key -> bytes -> option (content_value B U F O)) now h,
  now < 1606824023 -> portal_optimistic find decode now h = (h, Panic).
Proof. intros B U F O find decode now h L. unfold portal_optimistic, expected_slot, genesis. rewrite (proj2 (N.ltb_lt _ _) L). reflexivity. Qed.
Print Assumptions C125_clock_refuted.

(** Refuted: "an answer with the status of an error is no answer": whatever the status, the data is taken. *)
Theorem C125_status_refuted : forall ask parse T (dec : json -> option T) rpc h s s' b,
  let u := rpc ++ lit "/eth/v1/beacon/light_client/finality_update" in
  let with_status := fun s h' x => if (length h' =? length h)%nat && beqb x u then Some {| reply_status := s; reply_body := b |} else ask h' x in
  nimbus_finality (with_status s) parse dec rpc h = nimbus_finality (with_status s') parse dec rpc h.
Proof. intros. unfold nimbus_finality, nimbus, with_status. change (rpc ++ nimbus_path QFinality) with u. rewrite Nat.eqb_refl, beqb_refl. reflexivity. Qed.
Print Assumptions C125_status_refuted.
(** Refuted: "at most as many updates as were asked for are taken": a provider can answer with a list of any length. *)
Theorem C125_count_refuted : forall T (dec : json -> option T) parse rpc start n h b (ds : list json) (vs : list T),
  Forall2 (fun d v => dec d = Some v) ds vs -> parse b = Some (JArr (map (fun d => JObj [(lit "data", d)]) ds)) ->
  snd (nimbus_updates (fun _ _ => Some {| reply_status := 200; reply_body := Some b |}) parse dec rpc start n h) = Ok vs.
Proof.
  intros T dec parse rpc start n h b ds vs F P. unfold nimbus_updates, nimbus. cbn [snd reply_body]. rewrite P.
  assert (E : read_updates dec (JArr (map (fun d => JObj [(lit "data", d)]) ds)) = Some vs).
  { apply read_updates_iff. eexists. split; [reflexivity|]. clear P. induction F as [|d v ds vs D F IH]; cbn [map]; constructor; [|exact IH].
    econstructor; [|exact D]. exists [], []. split; [reflexivity|]. cbn. tauto. }
  rewrite E. reflexivity.
Qed.
Print Assumptions C125_count_refuted.

(** What the server of the light client says of its chain reads as its number: in base sixteen after 0x, and in base ten. *)
Theorem C125_says : forall chain, chain < 2 ^ 64 ->
  (exists s, eth_chain_id chain = lit "0x" ++ s /\ reads 16 hex_val s chain) /\ reads 10 hex_val (net_version chain) chain.
Proof.
  intros chain L. split; [|apply decimal_reads; exact L]. eexists. split; [reflexivity|]. apply reads_radix; [lia| | |reflexivity|exact L].
  - intros d Ld. unfold hex_digit, hex_val. destruct (N.ltb_spec d 10).
    + replace ((48 <=? 48 + d) && (48 + d <=? 57)) with true by lia. f_equal. lia.
    + replace ((48 <=? 87 + d) && (87 + d <=? 57)) with false by lia. replace ((97 <=? 87 + d) && (87 + d <=? 102)) with true by lia. f_equal. lia.
  - intros d Ld. unfold hex_digit. destruct (N.ltb_spec d 10); lia.
Qed.
Print Assumptions C125_says.

(** A provider of the main network, and one that counts wrong *)
Example C125_example :
  let parse := fun b : bytes => match b with
    | [1] => Some (JObj [(lit "version", JStr (lit "electra")); (lit "data", JNum 7)])
    | [2] => Some (JArr [JObj [(lit "data", JNum 5)]; JArr [JNum 6]])
    | [3] => Some (JObj [(lit "data", JObj [(lit "PRESET_BASE", JStr (lit "mainnet")); (lit "DEPOSIT_NETWORK_ID", JStr (lit "1"))])])
    | [4] => Some (JObj [(lit "data", JNum 7); (lit "data", JNum 7)])
    | _ => None end in
  let dec := fun j => match j with JNum n => Some n | _ => None end in
  let say := fun b (_ : list bytes) (_ : bytes) => Some {| reply_status := 500; reply_body := Some b |} in
  let rpc := lit "http://node" in
  nimbus_finality (say [1]) parse dec rpc [] = ([lit "http://node/eth/v1/beacon/light_client/finality_update"], Ok 7) /\
  nimbus_finality (say [4]) parse dec rpc [] = ([lit "http://node/eth/v1/beacon/light_client/finality_update"], Err) /\
  nimbus_updates (say [2]) parse dec rpc 1300 200 [] = ([lit "http://node/eth/v1/beacon/light_client/updates?start_period=1300&count=128"], Ok [5; 6]) /\
  snd (nimbus_check (say [3]) parse rpc 1 []) = Ok tt /\ snd (nimbus_check (say [3]) parse rpc 17000 []) = Err /\
  eth_chain_id 17000 = lit "0x4268" /\ net_version 17000 = lit "17000".
Proof. vm_compute. repeat split; reflexivity. Qed.
