(** C108: requests and events reach the subnetworks they are for. *)
From Coq Require Import String Ascii.
From Verif Require Import Base Hex_Model Hex_Proofs Capacity_Model Wire_Spec Wire_Model Args_Model Dispatch_Model Dispatch_Spec.

Lemma hex_upper_inj a b : bytes_ok a -> bytes_ok b -> hex_encode_upper a = hex_encode_upper b -> a = b.
Proof. intros A B E. pose proof (proj2 (hex_round_trip a A)) as X. pose proof (proj2 (hex_round_trip b B)) as Y. rewrite E in X. congruence. Qed.
Lemma sub_eqb a b : subnetwork_eqb a b = true <-> a = b.
Proof. destruct a, b; cbn; split; congruence. Qed.
Lemma sub_eqb_refl a : subnetwork_eqb a a = true. Proof. apply sub_eqb. reflexivity. Qed.
Lemma contains_in l s : contains l s = true <-> In s l.
Proof. unfold contains. rewrite existsb_exists. split; [intros (x & H & E); apply sub_eqb in E; subst; exact H|]. intros H. exists s. split; [exact H|apply sub_eqb_refl]. Qed.

Lemma lookup_right n hex s : get_subnetwork_from_protocol_identifier n hex = Some s <-> In (s, hex) (portal_subnetworks n).
Proof.
  unfold get_subnetwork_from_protocol_identifier. split.
  - destruct (find _ _) as [[a b]|] eqn:F; [|discriminate]. cbn. intros [= ->]. apply find_some in F as [I E]. apply beqb_spec in E. cbn in E. subst. exact I.
  - intros H.
    assert (G : forall l, NoDup (map snd l) -> In (s, hex) l -> option_map fst (find (fun p : subnetwork * bytes => beqb (snd p) hex) l) = Some s).
    { induction l as [|[a b] l IH]; intros ND I0; [destruct I0|]. destruct I0 as [E | I].
      - injection E as -> ->. cbn. rewrite beqb_refl. reflexivity.
      - cbn. inversion ND as [|? ? Nin ND']; subst. destruct (beqb b hex) eqn:Eb; [|apply IH; assumption]. apply beqb_spec in Eb. subst. exfalso. apply Nin. apply (in_map snd) in I. exact I. }
    apply G; [|exact H]. destruct n; cbn [portal_subnetworks map snd]; repeat (constructor; [vm_compute; intuition discriminate|]); constructor.
Qed.
Lemma lookup_left n s : get_protocol_identifier_from_subnetwork n s =
  match s, n with
  | History, Mainnet => Some (lit "0x5000") | History, _ => None
  | State, Mainnet => Some (lit "0x500A") | LegacyHistory, Mainnet => Some (lit "0x500B") | Beacon, Mainnet => Some (lit "0x500C")
  | CanonicalIndices, Mainnet => Some (lit "0x500D") | VerkleState, Mainnet => Some (lit "0x500E") | TransactionGossip, Mainnet => Some (lit "0x500F")
  | State, _ => Some (lit "0x504A") | LegacyHistory, _ => Some (lit "0x504B") | Beacon, _ => Some (lit "0x504C")
  | CanonicalIndices, _ => Some (lit "0x504D") | VerkleState, _ => Some (lit "0x504E") | TransactionGossip, _ => Some (lit "0x504F")
  | Utp, _ => Some (lit "0x757470")
  end.
Proof. destruct s, n; reflexivity. Qed.

(** *** Requests *)
(** A request goes to the subnetwork whose identifier it carries, if that runs; all others go to nobody. *)
Theorem C108_talk : forall n on t s, bytes_ok (protocol t) ->
  dispatch_discv5_talk_req n on t = Some s <-> identifier n s = Some (protocol t) /\ on s = true.
Proof.
  intros n on t s B. unfold dispatch_discv5_talk_req.
  assert (K : forall x id, bytes_ok id -> In (x, hex_encode_upper id) (portal_subnetworks n) ->
    get_subnetwork_from_protocol_identifier n (hex_encode_upper (protocol t)) = Some x -> protocol t = id).
  { intros x id Bi I G. apply lookup_right in G. apply hex_upper_inj; [exact B|exact Bi|].
    assert (U : forall a b, In (x, a) (portal_subnetworks n) -> In (x, b) (portal_subnetworks n) -> a = b).
    { intros a b. destruct n; cbn [portal_subnetworks In]; intros Ha Hb;
        repeat match goal with H : _ \/ _ |- _ => destruct H as [H|H] end; try contradiction;
        injection Ha as <- <-; (discriminate Hb || (injection Hb as <-; reflexivity)). }
    exact (U _ _ G I). }
  assert (R : forall x id, identifier n x = Some id -> bytes_ok id /\ In (x, hex_encode_upper id) (portal_subnetworks n)).
  { intros x id H. destruct x; try discriminate H; injection H as <-; (split; [destruct n; repeat constructor|]); destruct n; cbn; auto 10. }
  split.
  - destruct (get_subnetwork_from_protocol_identifier n (hex_encode_upper (protocol t))) as [x|] eqn:G; [|discriminate].
    destruct x; try discriminate; (match goal with |- (if on ?y then _ else _) = _ -> _ => destruct (on y) eqn:O; [|discriminate]; intros [= <-]; destruct (R y _ eq_refl) as [Ri Ii]; rewrite (K y _ Ri Ii eq_refl) end; auto).
  - intros [H O]. destruct (R s _ H) as [_ I]. apply lookup_right in I. rewrite I. destruct s; try discriminate H; rewrite O; reflexivity.
Qed.

(** Between nodes of one network a request arrives at the subnetwork that sent it. *)
Theorem C108_sent : forall n on s b, served s \/ s = Utp -> on s = true ->
  exists p, send_talk_req n s = Ok p /\ bytes_ok p /\ dispatch_discv5_talk_req n on {| protocol := p; body := b |} = Some s.
Proof.
  intros n on s b H O.
  assert (X : exists p, send_talk_req n s = Ok p /\ bytes_ok p /\ identifier n s = Some p).
  { destruct H as [[-> | [-> | ->]] | ->]; destruct n; eexists; (split; [vm_compute; reflexivity|split; [repeat constructor|reflexivity]]). }
  destruct X as (p & E & B & I). exists p. split; [exact E|]. split; [exact B|]. apply C108_talk; auto.
Qed.
(** A request of the main network never arrives at a subnetwork of another one, nor the other way round; *)
Theorem C108_networks : forall n n' on s b p, served s -> (n = Mainnet <-> n' <> Mainnet) -> send_talk_req n s = Ok p ->
  dispatch_discv5_talk_req n' on {| protocol := p; body := b |} = None.
Proof.
  intros n n' on s b p H N E. destruct (dispatch_discv5_talk_req n' on _) as [s'|] eqn:D; [|reflexivity]. exfalso.
  assert (X : bytes_ok p /\ identifier n s = Some p).
  { destruct H as [-> | [-> | ->]]; destruct n; vm_compute in E; injection E as <-; (split; [repeat constructor|reflexivity]). }
  destruct X as [B I]. apply C108_talk in D as [D _]; [|exact B]. cbn [protocol] in D.
  destruct H as [-> | [-> | ->]]; destruct n, n'; cbn in I, D; injection I as <-; destruct s'; try discriminate D; destruct N as [N1 N2]; first [apply (N1 eq_refl); reflexivity | discriminate (N2 ltac:(discriminate))].
Qed.
(** but Angelfood and Sepolia have the same identifiers: the requests of one are served by the nodes of the other. *)
Theorem C108_testnets_refuted : forall s on b, served s -> on s = true ->
  exists p, send_talk_req Angelfood s = Ok p /\ send_talk_req Sepolia s = Ok p /\
    dispatch_discv5_talk_req Sepolia on {| protocol := p; body := b |} = Some s /\ dispatch_discv5_talk_req Angelfood on {| protocol := p; body := b |} = Some s.
Proof.
  intros s on b H O. destruct (C108_sent Sepolia on s b (or_introl H) O) as (p & E & B & D). exists p.
  assert (E' : send_talk_req Angelfood s = Ok p). { rewrite <- E. destruct H as [-> | [-> | ->]]; reflexivity. }
  split; [exact E'|]. split; [exact E|]. split; [exact D|]. destruct (C108_sent Angelfood on s b (or_introl H) O) as (p' & A & _ & D'). rewrite E' in A. injection A as <-. exact D'.
Qed.
(** The history subnetwork can only be asked on the main network: elsewhere the attempt panics. *)
Theorem C108_panic : forall n s, send_talk_req n s = Panic <-> s = History /\ n <> Mainnet.
Proof.
  intros n s. split.
  - destruct s, n; intros E; vm_compute in E; try discriminate E; split; congruence.
  - intros [-> H]. destruct n; [congruence| |]; reflexivity.
Qed.

(** *** Events *)
(** An event goes to the subnetworks that it names, or to all, but never to the one it is from; at most once. *)
Theorem C108_events : forall on e,
  NoDup (dispatch_overlay_event on e) /\
  forall s, In s (dispatch_overlay_event on e) <->
    served s /\ on s = true /\ s <> from e /\ match destination e with Some l => In s l | None => True end.
Proof.
  intros on e. unfold dispatch_overlay_event. set (r := filter _ _).
  assert (Hr : forall s, served s -> (contains r s = true <-> s <> from e /\ match destination e with Some l => In s l | None => True end)).
  { intros s H. rewrite contains_in. unfold r. rewrite filter_In.
    assert (X : negb (subnetwork_eqb s (from e)) = true <-> s <> from e) by (rewrite Bool.negb_true_iff; split; [intros A ->; rewrite sub_eqb_refl in A; discriminate|intros A; destruct (subnetwork_eqb s (from e)) eqn:Q; [apply sub_eqb in Q; contradiction|reflexivity]]).
    rewrite X. destruct (destination e) as [l|]; [tauto|]. split; [tauto|]. intros [A _]. split; [|exact A]. destruct H as [-> | [-> | ->]]; cbn; auto. }
  pose proof (Hr Beacon ltac:(unfold served; auto)) as HB. pose proof (Hr State ltac:(unfold served; auto)) as HS. pose proof (Hr LegacyHistory ltac:(unfold served; auto)) as HL.
  split.
  - destruct (contains r Beacon), (contains r State), (contains r LegacyHistory), (on Beacon), (on State), (on LegacyHistory); cbn; repeat (constructor; [cbn; intuition discriminate|]); constructor.
  - intros s. rewrite !in_app_iff.
    assert (One : forall x, In s (if contains r x then if on x then [x] else [] else []) <-> s = x /\ contains r x = true /\ on x = true).
    { intros x. destruct (contains r x), (on x); cbn; split; intros H; try tauto; try (destruct H as [H|[]]; auto); destruct H as (A & B & C); try discriminate; auto. }
    rewrite !One, HB, HS, HL. unfold served. split.
    + intros [(-> & A & B) | [(-> & A & B) | (-> & A & B)]]; tauto.
    + intros ([-> | [-> | ->]] & A & B); tauto.
Qed.

(** *** The queues *)
(** Each subnetwork finds in its queue what is for it, in the order of arrival, each once, and nothing else. *)
Definition is_for (n : network) (on : subnetwork -> bool) (s : subnetwork) (a : arrival) : Prop :=
  match a with
  | Arrived (Talk t) => identifier n s = Some (protocol t) /\ on s = true
  | Arrived (Event e) => served s /\ on s = true /\ s <> from e /\ match destination e with Some l => In s l | None => True end
  | Lagged => False
  end.
Definition well_formed (a : arrival) : Prop := match a with Arrived (Talk t) => bytes_ok (protocol t) | _ => True end.
Inductive picked (P : arrival -> Prop) : list arrival -> list message_in -> Prop :=
| picked_nil : picked P [] []
| picked_yes m l q : P (Arrived m) -> picked P l q -> picked P (Arrived m :: l) (m :: q)
| picked_no a l q : ~ P a -> picked P l q -> picked P (a :: l) q.

Lemma queue_app s a b : queue s (a ++ b) = queue s a ++ queue s b.
Proof. unfold queue. rewrite filter_app, map_app. reflexivity. Qed.
Lemma queue_event on s e : queue s (map (fun x => (x, Event e)) (dispatch_overlay_event on e)) = if contains (dispatch_overlay_event on e) s then [Event e] else [].
Proof.
  destruct (C108_events on e) as [ND _]. induction (dispatch_overlay_event on e) as [|x l IH]; [reflexivity|]. inversion ND as [|? ? Nin ND']; subst.
  unfold queue in *. cbn [map filter fst]. unfold contains in *. cbn [existsb].
  destruct (subnetwork_eqb x s) eqn:E.
  - apply sub_eqb in E. subst x. rewrite sub_eqb_refl. cbn. rewrite IH by assumption. destruct (existsb (subnetwork_eqb s) l) eqn:F; [|reflexivity].
    exfalso. apply Nin. apply (proj1 (contains_in l s)). exact F.
  - destruct (subnetwork_eqb s x) eqn:E'; [apply sub_eqb in E'; subst; rewrite sub_eqb_refl in E; discriminate|]. cbn. apply IH. exact ND'.
Qed.
Lemma turn_queue n on s a : well_formed a -> (is_for n on s a /\ exists m, a = Arrived m /\ queue s (turn n on a) = [m]) \/ (~ is_for n on s a /\ queue s (turn n on a) = []).
Proof.
  intros W. destruct a as [[t|e]|]; cbn [turn is_for].
  - cbn in W. pose proof (C108_talk n on t) as T. destruct (dispatch_discv5_talk_req n on t) as [x|] eqn:D.
    + unfold queue. cbn [filter fst]. destruct (subnetwork_eqb x s) eqn:E.
      * apply sub_eqb in E. subst x. left. split; [apply T; auto|]. exists (Talk t). auto.
      * right. split; [|reflexivity]. intros H. apply (T s W) in H. injection H as ->. rewrite sub_eqb_refl in E. discriminate.
    + right. split; [|reflexivity]. intros H. apply (T s W) in H. discriminate.
  - rewrite queue_event. pose proof (proj2 (C108_events on e) s) as T. rewrite <- contains_in in T. destruct (contains (dispatch_overlay_event on e) s).
    + left. split; [apply T; reflexivity|]. exists (Event e). auto.
    + right. split; [|reflexivity]. intros H. apply T in H. discriminate.
  - right. auto.
Qed.
Theorem C108_queues : forall n on l q, Forall well_formed l -> start n on l = Some q -> forall s, picked (is_for n on s) l (queue s q).
Proof.
  intros n on l q W E s. unfold start in E. destruct (_ || _ || _); [|discriminate E]. injection E as <-.
  induction W as [|a l Wa _ IH]; [constructor|]. cbn [flat_map]. rewrite queue_app. destruct (turn_queue n on s a Wa) as [(H & m & -> & ->) | (H & ->)]; cbn [app]; constructor; assumption.
Qed.
Theorem C108_start : forall n on l, start n on l = None <-> forall s, served s -> on s = false.
Proof.
  intros n on l. unfold start, served. split.
  - destruct (on LegacyHistory) eqn:A; [discriminate|]. destruct (on State) eqn:B; [discriminate|]. destruct (on Beacon) eqn:C; [discriminate|].
    intros _ s [-> | [-> | ->]]; assumption.
  - intros H. rewrite !H by auto. reflexivity.
Qed.

(** *** Answers *)
Section Answers.
Context {E : Type} (enr_rlp : E -> bytes) (dec_nodes dec_content : bytes -> outcome E).
Notation answer := (answer enr_rlp dec_nodes dec_content).
(** A request is answered by the subnetwork that it is for, with an answer to what was asked; everything else is answered with
    nothing, which is no message. *)
Theorem C108_answer : forall n on serve t m, bytes_ok (protocol t) ->
  answer n on serve t <> [] /\ answer n on serve t = encode_message enr_rlp m <->
  exists s r m', served s /\ on s = true /\ identifier n s = Some (protocol t) /\ decode_message dec_nodes dec_content (body t) = Ok r /\ is_request r = true /\
    serve s r = Ok m' /\ encode_message enr_rlp m' = encode_message enr_rlp m.
Proof.
  intros n on serve t m B. unfold Dispatch_Model.answer, handle_talk_request, process_one_request. split.
  - intros [Ne Ea]. destruct (dispatch_discv5_talk_req n on t) as [s|] eqn:D; [|congruence]. apply C108_talk in D as [I O]; [|exact B].
    assert (Sv : s = Utp \/ served s) by (destruct s; try discriminate I; unfold served; auto).
    destruct Sv as [-> | Sv]; [congruence|]. exists s.
    assert (Es : match s with Utp => [] | _ => match obind (decode_message dec_nodes dec_content (body t)) (fun m => if is_request m then serve s m else Err) with Ok m => encode_message enr_rlp m | _ => [] end end
      = match obind (decode_message dec_nodes dec_content (body t)) (fun m => if is_request m then serve s m else Err) with Ok m => encode_message enr_rlp m | _ => [] end) by (destruct Sv as [-> | [-> | ->]]; reflexivity).
    rewrite Es in *. clear Es. destruct (decode_message dec_nodes dec_content (body t)) as [r| |]; cbn [obind] in *; try congruence.
    destruct (is_request r) eqn:Q; [|congruence]. destruct (serve s r) as [m'| |] eqn:Sr; try congruence. exists r, m'. auto 10.
  - intros (s & r & m' & Sv & O & I & Dr & Q & Sr & Em). assert (D : dispatch_discv5_talk_req n on t = Some s) by (apply C108_talk; auto).
    rewrite D, Dr. cbn [obind]. rewrite Q. assert (X : (match s with Utp => [] | _ => match serve s r with Ok m => encode_message enr_rlp m | _ => [] end end) = encode_message enr_rlp m') by (destruct Sv as [-> | [-> | ->]]; rewrite Sr; reflexivity).
    rewrite X, Em. split; [unfold encode_message; discriminate|reflexivity].
Qed.
Theorem C108_empty : forall m : message E, encode_message enr_rlp m <> [] /\ decode_message dec_nodes dec_content [] <> Ok m.
Proof. intros m. split; [unfold encode_message; discriminate|]. cbn. discriminate. Qed.
End Answers.

(** *** Examples *)
Definition both (s : subnetwork) : bool := match s with Beacon | LegacyHistory | Utp => true | _ => false end.
Definition talk_to (p : bytes) : arrival := Arrived (Talk {| protocol := p; body := [] |}).
Definition update (d : option (list subnetwork)) : event := {| payload := 1; from := Beacon; destination := d |}.
Example C108_example :
  option_map (fun q => map (fun s => queue s q) [Beacon; LegacyHistory; State; Utp])
    (start Mainnet both [talk_to [80; 12]; Arrived (Event (update None)); talk_to [80; 11]; talk_to [80; 10]; Lagged; talk_to [80; 76]; Arrived (Event (update (Some [Beacon; State; LegacyHistory; LegacyHistory]))); talk_to [117; 116; 112]; talk_to []])
  = Some [[Talk {| protocol := [80; 12]; body := [] |}];
          [Event (update None); Talk {| protocol := [80; 11]; body := [] |}; Event (update (Some [Beacon; State; LegacyHistory; LegacyHistory]))];
          [];
          [Talk {| protocol := [117; 116; 112]; body := [] |}]].
Proof. vm_compute. reflexivity. Qed.
Example C108_none_example : start Mainnet (fun s => subnetwork_eqb s Utp) [] = None. Proof. reflexivity. Qed.
Example C108_sent_example : map (fun s => send_talk_req Sepolia s) [State; LegacyHistory; Beacon; Utp; History] = [Ok [80; 74]; Ok [80; 75]; Ok [80; 76]; Ok [117; 116; 112]; Panic].
Proof. vm_compute. reflexivity. Qed.
(** A ping is answered, a pong is not *)
Example C108_answer_example :
  let serve (_ : subnetwork) (m : message bytes) := match m with FindContent k => Ok (FindContent (k ++ [9])) | _ => Err end in
  map (fun p => answer id Ok Ok Mainnet both serve {| protocol := p; body := encode_message id (FindContent [7]) |}) [[80; 12]; [80; 10]; [117; 116; 112]]
  = [encode_message id (FindContent [7; 9]); []; []].
Proof. vm_compute. reflexivity. Qed.

Print Assumptions C108_talk.
Print Assumptions C108_sent.
Print Assumptions C108_networks.
Print Assumptions C108_testnets_refuted.
Print Assumptions C108_panic.
Print Assumptions C108_events.
Print Assumptions C108_queues.
Print Assumptions C108_start.
Print Assumptions C108_answer.
Print Assumptions C108_empty.
