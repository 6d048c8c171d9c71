(** Properties C78 and C79: the payloads of pings and the exchange of pings and pongs. *)
From Verif Require Import Base.
From Verif Require Import Wire_Model Wire_Spec Wire_Props Keys_Model Keys_Props StateContent_Model KBucket_Model KBucket_Spec KBucket_Proofs.
From Verif Require Import Ping_Model Ping_Spec Ping_Proofs.

(** ** C78 *)
(** Every value that fits the wire types is read back from its payload, whole. *)
Theorem C78_round_trip : forall v, value_ok v ->
  decode_extension (extension_type v) (payload_of v) = Ok v /\ blen (payload_of v) <= 1040.
Proof.
  intros v H. rewrite (payload_whole v H). split; [apply decode_encode, H|apply extension_len, H].
Qed.
(** What is read was written: a payload that is accepted is the only payload of its value, and
    the value is of the announced type. *)
Theorem C78_only_own_bytes : forall t b v, bytes_ok b -> blen b <= 1100 -> decode_extension t b = Ok v ->
  extension_type v = t /\ payload_of v = b /\ value_ok v.
Proof.
  intros t b v Hb _ D. apply decode_canonical in D as (T & Ee & V); [|exact Hb]. rewrite (payload_whole v V). auto.
Qed.
Theorem C78_no_panic : forall t b, decode_extension t b <> Panic.
Proof. exact no_panic. Qed.
(** The description of a client: a text is accepted exactly if it is the text of some description
    with clear separators and has at most 200 bytes, and then that description is the result. *)
Theorem C78_client_info : forall s i, utf8 s = true ->
  (parse_info s = Ok i <-> (s = print_info i /\ readable i /\ short i)).
Proof.
  intros s i U. split.
  - intros P. apply parse_inv in P as (-> & L & C). split; [reflexivity|]. split; [apply readable_iff; split; assumption|exact L].
  - intros (-> & R & S). apply parse_print; assumption.
Qed.
(** A description of more than 200 bytes is cut without an error and not read back. *)
Theorem C78_long_info_refuted : forall i r c, ~ short i ->
  decode_extension Capabilities (payload_of (ECapabilities (Some i) r c)) <> Ok (ECapabilities (Some i) r c).
Proof.
  intros i r c L D. apply L. cbn [decode_extension] in D. unfold decode_capabilities in D.
  apply obind_ok in D as ([[s r'] c'] & _ & D). cbn [fst snd] in D. apply obind_ok in D as (s' & _ & D). apply obind_ok in D as (r1 & _ & D).
  apply obind_ok in D as (c1 & _ & D). destruct (utf8 s'); cbn [obind] in D; [|discriminate]. apply obind_ok in D as (i' & P & D).
  injection D as -> _ _. destruct s' as [|x s']; [discriminate|]. apply omap_ok in P as (i'' & P & [= ->]).
  apply parse_inv in P as (P & Ls & _). unfold short. rewrite <- P. exact Ls.
Qed.
(** A description whose system or architecture contains a dash is not read back either: the whole
    ping is unreadable. *)
Theorem C78_dash_refuted : forall i r c,
  (forall part, In part [ci_name i; ci_version i; ci_commit i; ci_os i; ci_arch i; ci_lang i] -> ~ In slash part /\ utf8 part = true) ->
  short i -> In dash (ci_os i) \/ In dash (ci_arch i) -> r < 2 ^ 256 -> blen c <= 400 -> Forall ext_ok c ->
  decode_extension Capabilities (payload_of (ECapabilities (Some i) r c)) = Err.
Proof.
  intros i r c P S Q R Lc F.
  assert (L : parse_info (print_info i) = Err).
  { destruct (parse_info (print_info i)) as [i'| |] eqn:X; [|reflexivity|].
    - exfalso. assert (X' := X). unfold parse_info in X'. unfold short in S. apply N.ltb_ge in S. rewrite S in X'.
      assert (Pn := P (ci_name i) ltac:(cbn; tauto)). assert (Pv := P (ci_version i) ltac:(cbn; tauto)). assert (Pc := P (ci_commit i) ltac:(cbn; tauto)).
      assert (Po := P (ci_os i) ltac:(cbn; tauto)). assert (Pa := P (ci_arch i) ltac:(cbn; tauto)). assert (Pl := P (ci_lang i) ltac:(cbn; tauto)).
      assert (Sp : split slash (print_info i) = [ci_name i; ci_version i ++ dash :: ci_commit i; ci_os i ++ dash :: ci_arch i; ci_lang i]).
      { unfold print_info. rewrite split_app by apply Pn.
        replace (ci_version i ++ dash :: ci_commit i ++ slash :: ci_os i ++ dash :: ci_arch i ++ slash :: ci_lang i)
          with ((ci_version i ++ dash :: ci_commit i) ++ slash :: (ci_os i ++ dash :: ci_arch i) ++ slash :: ci_lang i)
          by (rewrite <- !app_assoc; cbn [app]; rewrite <- ?app_assoc; reflexivity).
        rewrite split_app.
        2:{ rewrite in_app_cons. intros [H|[H|H]]; [exact (proj1 Pv H)|discriminate H|exact (proj1 Pc H)]. }
        rewrite split_app.
        2:{ rewrite in_app_cons. intros [H|[H|H]]; [exact (proj1 Po H)|discriminate H|exact (proj1 Pa H)]. }
        rewrite split_none by apply Pl. reflexivity. }
      rewrite Sp in X'. destruct (rsplit_once dash _) as [[? ?]|]; [|discriminate].
      destruct (split dash (ci_os i ++ dash :: ci_arch i)) as [|os [|arch [|]]] eqn:D; try discriminate.
      destruct (split_join dash (ci_os i ++ dash :: ci_arch i)) as [J G]. rewrite D in J, G. cbn [join] in J.
      inversion G as [|? ? G1 G']. subst. inversion G' as [|? ? G2 _]. subst.
      assert (U := split_once_app dash os arch G1). rewrite <- J in U.
      assert (K : ci_os i = os /\ ci_arch i = arch).
      { destruct (in_dec N.eq_dec dash (ci_os i)) as [I|I].
        - exfalso. apply in_split in I as (u & v & Ev). rewrite Ev in J. rewrite <- app_assoc in J. cbn [app] in J.
          assert (Le : length (filter (N.eqb dash) (u ++ dash :: v ++ dash :: ci_arch i)) = length (filter (N.eqb dash) (os ++ dash :: arch))) by (rewrite J; reflexivity).
          assert (Z : forall l, ~ In dash l -> filter (N.eqb dash) l = []).
          { induction l as [|a l IH]; intros H; [reflexivity|]. cbn [filter]. destruct (dash =? a) eqn:Ea; [apply N.eqb_eq in Ea; exfalso; apply H; left; congruence|].
            apply IH. intros Hl. apply H. right. exact Hl. }
          rewrite !filter_app in Le. cbn [filter] in Le. rewrite !filter_app in Le. cbn [filter] in Le. rewrite !N.eqb_refl, (Z os G1), (Z arch G2) in Le.
          rewrite !app_length in Le. cbn [length app] in Le. rewrite ?app_length in Le. cbn [length] in Le. lia.
        - rewrite split_once_app in U by exact I. injection U as -> ->. split; reflexivity. }
      destruct K as [K1 K2]. rewrite K1, K2 in Q. destruct Q; contradiction.
    - exfalso. unfold parse_info in X. destruct (_ <? _); [discriminate|]. destruct (split slash (print_info i)) as [|p0 [|p1 [|p2 [|p3 [|]]]]]; try discriminate.
      destruct (rsplit_once dash p1) as [[]|]; [|discriminate]. destruct (split dash p2) as [|? [|? [|]]]; discriminate. }
  unfold payload_of. set (v := ECapabilities (Some i) r c). assert (S' : firstn 200 (print_info i) = print_info i) by (apply firstn_all2; unfold short, blen in S; lia).
  assert (Len : blen (encode_extension v) <= 1040).
  { unfold v. cbn [encode_extension]. rewrite container3_len by apply le32. rewrite ext_list_len. unfold blen at 1. rewrite firstn_length. lia. }
  unfold decode_custom_payload. rewrite firstn_all2 by (unfold blen in Len; lia). unfold v in *. cbn [encode_extension info_string decode_extension] in *. rewrite S' in *.
  unfold decode_capabilities.
  change (Ssz_Model.encode_container [Ssz_Model.PVar (print_info i); Ssz_Model.PFix (le_bytes 32 r); Ssz_Model.PVar (concat (map (fun t => le_bytes 2 (ext_u16 t)) c))])
    with (Ssz_Model.encode_container [Keys_Proofs.part_of None (print_info i); Keys_Proofs.part_of (Some 32) (le_bytes 32 r); Keys_Proofs.part_of None (concat (map (fun t => le_bytes 2 (ext_u16 t)) c))]).
  rewrite Keys_Proofs.container3_ok; [|exact Logic.I|apply le32|exact Logic.I|].
  2:{ cbn [Keys_Proofs.part_of]. eapply N.le_lt_trans; [exact Len|reflexivity]. }
  cbn [obind fst snd]. unfold decode_bytelist. unfold short in S. apply N.ltb_ge in S. rewrite S. cbn [obind]. rewrite Keys_Proofs.uint_ok by exact R. cbn [obind].
  rewrite caps_ok by assumption. cbn [obind]. assert (U : utf8 (print_info i) = true) by (apply print_utf8; intros part J; apply (P part J)).
  rewrite U. cbn [obind]. pose proof (print_ne i) as Ne. destruct (print_info i) as [|x s]; [congruence|]. rewrite L. reflexivity.
Qed.
Print Assumptions C78_round_trip.
Print Assumptions C78_only_own_bytes.
Print Assumptions C78_no_panic.
Print Assumptions C78_client_info.
Print Assumptions C78_long_info_refuted.
Print Assumptions C78_dash_refuted.

(** ** C79 *)
Lemma own_ok me : sound me -> value_ok (create_capabilities me).
Proof.
  intros (R & S & Ra & _). cbn [create_capabilities value_ok]. split; [intros i' [= <-]; split; assumption|]. split; [exact Ra|].
  split; [destruct (me_net me); vm_compute; discriminate|]. destruct (me_net me); cbn; repeat (apply Forall_cons || apply Forall_nil); exact Logic.I.
Qed.
Lemma choose_ok me k : sound me -> value_ok (choose_ping me k) /\ is_supported (me_net me) (extension_type (choose_ping me k)) = true /\
  extension_type (choose_ping me k) <> ErrorExt.
Proof.
  intros S. pose proof (own_ok me S) as O. destruct S as (_ & _ & Ra & _). unfold choose_ping.
  assert (C : is_supported (me_net me) (extension_type (create_capabilities me)) = true) by (destruct (me_net me); reflexivity).
  assert (C' : extension_type (create_capabilities me) <> ErrorExt) by discriminate.
  destruct k as [l|]; cbn [option_map]; [|split; [exact O|split; assumption]].
  unfold latest_base. destruct (me_net me) eqn:Nt; cbn [base_extensions find]; (destruct (existsb _ l); [|split; [exact O|split; [exact C|exact C']]]);
    cbn [handle_base_extension extension_type]; (split; [cbn; try split; (exact Ra || lia)|split; [reflexivity|discriminate]]).
Qed.
Lemma lookup_replace id s s' t : lookup id t = Some s -> s_id s' = id -> lookup id (replace id s' t) = Some s'.
Proof.
  intros L Es. unfold lookup, replace in *. induction t as [|a t IH]; cbn [map find] in *; [discriminate|].
  destruct (s_id a =? id) eqn:X.
  - rewrite Es, N.eqb_refl. reflexivity.
  - rewrite X. apply IH, L.
Qed.
Lemma lookup_remove id t : lookup id (remove id t) = None.
Proof. apply lookup_none. intros H. apply remove_ids in H. tauto. Qed.
Lemma process_known local st source seq x f : source <> local ->
  present_or_pending source (tbl (fst (process_ping local st source seq x f))) =
  match present_or_pending source (tbl st), x with
  | None, _ => None
  | Some n, None => Some n
  | Some n, Some x =>
      match handle_extension x n with
      | None => Some n
      | Some n' => match f with Refused => None | _ => Some n' end
      end
  end.
Proof.
  intros Ne. unfold process_ping. destruct (present_or_pending source (tbl st)) as [n|] eqn:P; [|exact P].
  destruct x as [x|]; [|exact P]. destruct (handle_extension x n) as [n'|] eqn:H; [|exact P]. cbn [fst tbl].
  apply handle_enr in H as [He _]. unfold present_or_pending in P. destruct (lookup source (tbl st)) as [s|] eqn:L; [|discriminate]. injection P as P.
  destruct (lookup_some _ _ _ L) as [_ Id]. assert (Id' : enr_id (n_enr n') = source) by (rewrite He, <- P; exact Id).
  unfold update_node. rewrite Id'. apply N.eqb_neq in Ne. rewrite Ne, L.
  unfold present_or_pending. destruct f; cbn [fst].
  - rewrite (lookup_replace source s); [reflexivity|exact L|exact Id'].
  - rewrite (lookup_replace source s); [reflexivity|exact L|exact Id'].
  - rewrite lookup_remove. reflexivity.
Qed.
(** What the table says after a usable extension. *)
Lemma process_radius local st source seq x f n : source <> local ->
  known (tbl (fst (process_ping local st source seq (Some x) f))) source n -> n_radius n = radius_in x.
Proof.
  intros Ne. unfold known. rewrite process_known by exact Ne. destruct (present_or_pending source (tbl st)) as [m|]; [|discriminate].
  destruct (handle_extension x m) as [n'|] eqn:H.
  - apply handle_enr in H as [_ H]. destruct f; intros [= <-]; exact H.
  - apply handle_none in H. intros [= <-]. exact H.
Qed.
Lemma beqb_true a b : beqb a b = true -> a = b.
Proof. apply beqb_spec. Qed.
Lemma process_caps local st source seq r c f n : source <> local ->
  known (tbl (fst (process_ping local st source seq (Some (XCapabilities r c)) f))) source n -> n_capabilities n = Some c.
Proof.
  intros Ne. unfold known. rewrite process_known by exact Ne. destruct (present_or_pending source (tbl st)) as [m|]; [|discriminate].
  cbn [handle_extension]. destruct (negb (n_radius m =? r) || _) eqn:X.
  - destruct f; intros [= <-]; reflexivity.
  - intros [= <-]. apply orb_false_iff in X as [_ X]. destruct (n_capabilities m) as [c'|]; [|discriminate].
    apply negb_false_iff, beqb_true in X. congruence.
Qed.
Lemma process_kept local st source seq x f : source <> local -> f <> Refused ->
  present_or_pending source (tbl st) <> None -> present_or_pending source (tbl (fst (process_ping local st source seq x f))) <> None.
Proof.
  intros Ne F. rewrite process_known by exact Ne. destruct (present_or_pending source (tbl st)) as [m|]; [|congruence]. intros _.
  destruct x as [x|]; [|discriminate]. destruct (handle_extension x m); [|discriminate]. destruct f; congruence.
Qed.
Lemma insert_kept local t n c i f : enr_id (n_enr n) <> local -> f <> Refused ->
  present_or_pending (enr_id (n_enr n)) (fst (insert_or_update local t n c i f)) <> None.
Proof.
  intros Ne F. unfold insert_or_update. apply N.eqb_neq in Ne. rewrite Ne. unfold present_or_pending.
  destruct (lookup (enr_id (n_enr n)) t) as [s|] eqn:L.
  - destruct f; cbn [fst]; try congruence; rewrite (lookup_replace _ s) by (exact L || reflexivity); discriminate.
  - assert (Z : forall b, lookup (enr_id (n_enr n)) (t ++ [{| s_node := n; s_connected := c; s_incoming := i; s_pending := b |}]) <> None).
    { intros b H. apply lookup_none in H. apply H. rewrite map_app, in_app_iff. right. left. reflexivity. }
    destruct f; cbn [fst]; try congruence; (match goal with |- match ?l with _ => _ end <> None => destruct l eqn:X end; [discriminate|exfalso; exact (Z _ X)]).
Qed.
Lemma status_kept local t id c f : id <> local -> f <> Refused -> present_or_pending id t <> None ->
  present_or_pending id (fst (update_status local t id c f)) <> None.
Proof.
  intros Ne F P. unfold update_status. apply N.eqb_neq in Ne. rewrite Ne. unfold present_or_pending in *. destruct (lookup id t) as [s|] eqn:L; [|congruence].
  destruct (lookup_some _ _ _ L) as [_ Id]. destruct f; cbn [fst]; try congruence; rewrite (lookup_replace _ s) by (exact L || exact Id); discriminate.
Qed.
Lemma activity_kept local st source cached f : source <> local -> f <> Refused ->
  (present_or_pending source (tbl st) <> None \/ exists e, cached = Some e /\ enr_id e = source) ->
  present_or_pending source (tbl (fst (register_activity local st source cached f))) <> None.
Proof.
  intros Ne F H. unfold register_activity. destruct (present_or_pending source (tbl st)) as [n|] eqn:P.
  - assert (K : present_or_pending source (fst (update_status local (tbl st) source true f)) <> None) by (apply status_kept; congruence).
    destruct (update_status local (tbl st) source true f) as [t ok]. exact K.
  - destruct H as [H|(e & -> & He)]; [congruence|]. rewrite He, N.eqb_refl. rewrite connect_tbl.
    rewrite <- He. apply (insert_kept local (tbl st) (new_node e)); [cbn; congruence|exact F].
Qed.
Lemma response_kept local st e f : enr_id e <> local -> f <> Refused ->
  present_or_pending (enr_id e) (tbl (fst (process_response local st e f))) <> None.
Proof.
  intros Ne F. unfold process_response. destruct (lookup (enr_id e) (tbl st)) as [s|] eqn:L.
  - destruct (lookup_some _ _ _ L) as [_ Id]. destruct (s_connected s).
    + assert (K : present_or_pending (enr_id e) (fst (update_status local (tbl st) (enr_id e) true f)) <> None)
        by (apply status_kept; try congruence; unfold present_or_pending; rewrite L; discriminate).
      destruct (update_status local (tbl st) (enr_id e) true f) as [t ok]. exact K.
    + rewrite connect_tbl. unfold s_id in Id. rewrite <- Id. apply insert_kept; congruence.
  - rewrite connect_tbl. apply (insert_kept local (tbl st) (new_node e)); [exact Ne|exact F].
Qed.
(** What the receiver of a well-formed payload uses. *)
Lemma usable_of me v : value_ok v -> is_supported (me_net me) (extension_type v) = true -> extension_type v <> ErrorExt ->
  exists x, usable me (extension_type v) (payload_of v) = Ok (Some x) /\
    match v with
    | ECapabilities _ r c => x = XCapabilities r (map ext_u16 c)
    | EBasicRadius r => x = XBasicRadius r
    | EHistoryRadius r n => x = XHistoryRadius r n
    | EError _ _ => False
    end.
Proof.
  intros V S Ne. unfold usable. rewrite (proj1 (C78_round_trip v V)), S. cbn [negb].
  destruct v; try (eexists; split; reflexivity). exfalso. apply Ne. reflexivity.
Qed.
Lemma message_len {E} (rlp : E -> bytes) k s t p : (k = @Ping E \/ k = @Pong E) -> blen p <= 1040 -> blen (encode_message rlp (k s t p)) <= packet_room.
Proof.
  intros K L. unfold encode_message. rewrite blen_cons.
  assert (X : blen (encode_body rlp (k s t p)) = 14 + blen p).
  { destruct K as [-> | ->]; cbn [encode_body]; rewrite Ssz_Proofs.encode_container_len; cbn [Ssz_Model.heads_len Ssz_Model.part_head_len Ssz_Model.tails];
      rewrite app_nil_r; unfold blen at 1 2; rewrite !le_bytes_length; lia. }
  rewrite X. unfold packet_room. lia.
Qed.
Lemma value_room {E} (rlp : E -> bytes) k s v : (k = @Ping E \/ k = @Pong E) -> value_ok v -> blen (encode_message rlp (k s (extension_type v) (payload_of v))) <= packet_room.
Proof. intros K V. apply message_len; [exact K|apply C78_round_trip, V]. Qed.
Lemma ext_type_ok v : ext_ok (extension_type v).
Proof. destruct v; exact Logic.I. Qed.
Lemma read_message {E} (rlp : E -> bytes) dn dc k s v : (k = @Ping E \/ k = @Pong E) -> s < 2 ^ 64 -> value_ok v ->
  decode_message dn dc (encode_message rlp (k s (extension_type v) (payload_of v))) = Ok (k s (extension_type v) (payload_of v)).
Proof.
  intros K S V. pose proof (value_room rlp k s v K V) as R. destruct (C78_round_trip v V) as [_ L]. apply C07_message_round_trip.
  - destruct K as [-> | ->]; cbn [message_ok]; (split; [exact S|split; [apply ext_type_ok|lia]]).
  - eapply N.le_lt_trans; [exact R|reflexivity].
  - destruct K as [-> | ->]; intros e [].
Qed.
(** The reply to a ping of a supported type. *)
Lemma reply_of {E} me t : sound me -> is_supported (me_net me) t = true -> t <> ErrorExt ->
  exists v, handle_ping (E := E) me t = Ok (Pong (me_seq me) (extension_type v) (payload_of v)) /\ value_ok v /\ extension_type v = t /\
    match v with
    | ECapabilities _ r c => r = me_radius me /\ c = supported (me_net me)
    | EBasicRadius r => r = me_radius me
    | EHistoryRadius r n => r = me_radius me
    | EError _ _ => False
    end.
Proof.
  intros S Su Ne. pose proof (own_ok me S) as O. destruct S as (_ & _ & Ra & _). unfold handle_ping. rewrite Su. cbn [negb].
  destruct t as [| | | |n].
  - exists (create_capabilities me). split; [reflexivity|]. split; [exact O|]. split; [reflexivity|]. cbn. split; [reflexivity|destruct (me_net me); reflexivity].
  - exists (EBasicRadius (me_radius me)). split; [reflexivity|]. split; [exact Ra|]. split; reflexivity.
  - exists (EHistoryRadius (me_radius me) 0). split; [reflexivity|]. split; [split; [exact Ra|lia]|]. split; reflexivity.
  - congruence.
  - exfalso. unfold is_supported in Su. destruct (me_net me); discriminate Su.
Qed.
Lemma choose_radius me k : match choose_ping me k with ECapabilities _ r _ | EBasicRadius r | EHistoryRadius r _ => r = me_radius me | EError _ _ => False end.
Proof.
  unfold choose_ping. destruct (option_map _ k) as [[t|]|]; [|reflexivity|reflexivity]. destruct t; reflexivity.
Qed.

Section Exchange.
Context {E : Type} (enr_rlp : E -> bytes) (dec_nodes dec_content : bytes -> outcome E).

(** One node pings another of the same network, whatever both know of each other and whatever
    their tables look like.  The ping is read and answered, the answer is read, and from then on
    each has the radius of the other, unless it has no entry for it.  If the first node did not
    know what the other supports, now both know. *)
Theorem C79_exchange : forall A B stA stB eB nB cached f1 f2 f3 f4,
  sound A -> sound B -> me_net A = me_net B -> me_id A <> me_id B -> enr_id eB = me_id B ->
  exists stB' reply stA',
    on_request B enr_rlp dec_nodes dec_content stB (me_id A) (encode_message enr_rlp (ping_node A nB)) cached f1 f2 = Ok (stB', reply) /\
    on_response A dec_nodes dec_content stA eB reply f3 f4 = Ok stA' /\
    (forall n, known (tbl stB') (me_id A) n -> n_radius n = me_radius A) /\
    (forall n, known (tbl stA') (me_id B) n -> n_radius n = me_radius B) /\
    (n_capabilities nB = None ->
       (forall n, known (tbl stB') (me_id A) n -> n_capabilities n = Some (map ext_u16 (supported (me_net A)))) /\
       (forall n, known (tbl stA') (me_id B) n -> n_capabilities n = Some (map ext_u16 (supported (me_net B))))) /\
    (* nobody is forgotten unless the table refuses *)
    (f1 <> Refused -> f2 <> Refused ->
       (present_or_pending (me_id A) (tbl stB) <> None \/ exists e, cached = Some e /\ enr_id e = me_id A) ->
       exists n, known (tbl stB') (me_id A) n) /\
    (f3 <> Refused -> f4 <> Refused -> exists n, known (tbl stA') (me_id B) n).
Proof using.
  intros A B stA stB eB nB cached f1 f2 f3 f4 SA SB Nt Ne Id.
  set (k := option_map (map ext_of_u16) (n_capabilities nB)).
  destruct (choose_ok A k SA) as (V & Su & Nerr). set (v := choose_ping A k) in *.
  assert (SuB := Su). rewrite Nt in SuB.
  destruct (reply_of (E := E) B (extension_type v) SB SuB Nerr) as (w & Hp & W & Tw & Rw).
  destruct (usable_of B v V SuB Nerr) as (x & Ux & Xv).
  assert (SuA := Su). rewrite <- Tw in SuA. assert (NerrA := Nerr). rewrite <- Tw in NerrA.
  destruct (usable_of A w W SuA NerrA) as (y & Uy & Yw).
  assert (Rx : radius_in x = me_radius A).
  { pose proof (choose_radius A k) as C. fold v in C. destruct v; try contradiction; subst x; exact C. }
  assert (Ry : radius_in y = me_radius B) by (destruct w as [i r c|r|r c|]; [destruct Rw as [Rw _]| | |contradiction]; subst y; exact Rw).
  set (st1 := fst (register_activity (me_id B) stB (me_id A) cached f1)).
  set (st2 := fst (process_response (me_id A) stA eB f3)).
  exists (fst (process_ping (me_id B) st1 (me_id A) (me_seq A) (Some x) f2)).
  exists (encode_message enr_rlp (Pong (me_seq B) (extension_type w) (payload_of w))).
  exists (fst (process_ping (me_id A) st2 (enr_id eB) (me_seq B) (Some y) f4)).
  destruct SA as (_ & _ & _ & SqA), SB as (_ & _ & _ & SqB).
  split; [|split; [|split; [|split; [|split; [|split]]]]].
  - unfold on_request, ping_node, ping_of. fold k. fold v. rewrite read_message by (auto || exact SqA). cbn [obind].
    unfold receive_ping. fold st1. rewrite Hp. cbn [obind]. rewrite Ux. cbn [obind fst snd]. reflexivity.
  - unfold on_response. rewrite read_message by (auto || exact SqB). cbn [obind]. unfold receive_pong. fold st2. rewrite Uy. cbn [obind]. reflexivity.
  - intros n H. rewrite <- Rx. exact (process_radius _ _ _ _ _ _ _ Ne H).
  - intros n H. rewrite <- Ry. rewrite <- Id in H. refine (process_radius _ _ _ _ _ _ _ _ H). congruence.
  - intros Kn. assert (Kv : v = create_capabilities A) by (unfold v, k; rewrite Kn; reflexivity).
    assert (Kw : extension_type w = Capabilities) by (rewrite Tw, Kv; reflexivity). split.
    + intros n H. rewrite Kv in Xv. cbn [create_capabilities] in Xv. subst x. apply process_caps in H; [|exact Ne]. rewrite H. destruct (me_net A); reflexivity.
    + intros n H. destruct w as [i r c| | |]; try discriminate Kw. destruct Rw as [-> ->]. subst y. rewrite <- Id in H. apply process_caps in H; [exact H|congruence].
  - intros F1 F2 P. pose proof (activity_kept (me_id B) stB (me_id A) cached f1 Ne F1 P) as K. fold st1 in K.
    pose proof (process_kept (me_id B) st1 (me_id A) (me_seq A) (Some x) f2 Ne F2 K) as K2. unfold known.
    clear - K2. destruct (present_or_pending (me_id A) _) as [n|]; [exists n; reflexivity|congruence].
  - intros F3 F4. assert (Ne' : enr_id eB <> me_id A) by congruence. pose proof (response_kept (me_id A) stA eB f3 Ne' F3) as K. fold st2 in K.
    pose proof (process_kept (me_id A) st2 (enr_id eB) (me_seq B) (Some y) f4 Ne' F4 K) as K2. unfold known. rewrite <- Id.
    clear - K2. destruct (present_or_pending (enr_id eB) _) as [n|]; [exists n; reflexivity|congruence].
Qed.

(** Every ping and every reply fits into one packet. *)
Theorem C79_fits : forall me n t m, sound me ->
  blen (encode_message enr_rlp (ping_node me n)) <= packet_room /\
  (handle_ping (E := E) me t = Ok m -> blen (encode_message enr_rlp m) <= packet_room).
Proof using.
  intros me n t m S. split.
  - unfold ping_node, ping_of. apply value_room; [left; reflexivity|]. apply choose_ok, S.
  - intros H. pose proof (own_ok me S) as O. destruct S as (_ & _ & Ra & _). unfold handle_ping, create_pong in H.
    assert (Z : forall k, value_ok (EError k []) \/ 65536 <= k) by (intros k; destruct (N.lt_ge_cases k 65536); [left; split; [assumption|rewrite blen_nil; lia]|right; assumption]).
    destruct (negb (is_supported (me_net me) t)).
    + injection H as <-. apply (value_room enr_rlp (@Pong E) (me_seq me) (EError 0 [])); [right; reflexivity|]. destruct (Z 0); [assumption|lia].
    + destruct t as [| | | |u]; [| | | |discriminate]; injection H as <-.
      * apply (value_room enr_rlp (@Pong E) (me_seq me) (create_capabilities me)); [right; reflexivity|exact O].
      * apply (value_room enr_rlp (@Pong E) (me_seq me) (EBasicRadius (me_radius me))); [right; reflexivity|exact Ra].
      * apply (value_room enr_rlp (@Pong E) (me_seq me) (EHistoryRadius (me_radius me) 0)); [right; reflexivity|split; [exact Ra|lia]].
      * apply (value_room enr_rlp (@Pong E) (me_seq me) (EError 3 [])); [right; reflexivity|]. destruct (Z 3); [assumption|lia].
Qed.
End Exchange.

(** A ping is of a type the receiver has listed, or of the type every node understands. *)
Theorem C79_listed : forall (E : Type) me n, sound me ->
  exists v, ping_node (E := E) me n = Ping (me_seq me) (extension_type v) (payload_of v) /\
    (extension_type v = Capabilities \/
     exists listed, n_capabilities n = Some listed /\ In (extension_type v) (map ext_of_u16 listed)).
Proof.
  intros E me n S. unfold ping_node, ping_of. eexists. split; [reflexivity|].
  unfold choose_ping. destruct (n_capabilities n) as [l|]; cbn [option_map]; [|left; reflexivity].
  unfold latest_base. destruct (me_net me); cbn [base_extensions find];
    (destruct (existsb _ (map ext_of_u16 l)) eqn:X; [|left; reflexivity]); cbn [handle_base_extension extension_type]; right; exists l; (split; [reflexivity|]);
    apply existsb_exists in X as (t & Ht & Hs); destruct t; try discriminate Hs; exact Ht.
Qed.
(** Once the capabilities are known, pings carry only what the network needs. *)
Theorem C79_next_ping : forall (E : Type) me n, n_capabilities n = Some (map ext_u16 (supported (me_net me))) ->
  exists p, ping_node (E := E) me n = Ping (me_seq me) (match me_net me with LegacyHistory => HistoryRadius | _ => BasicRadius end) p.
Proof.
  intros E me n H. unfold ping_node, ping_of, choose_ping. rewrite H. destruct (me_net me) eqn:Nt; cbn; unfold latest_base; rewrite ?Nt; eexists; reflexivity.
Qed.
(** The kind of every reply: the same type if the network supports it, otherwise the error
    "extension not supported"; a ping that carries an error gets "system error".  No ping
    crashes the node. *)
Theorem C79_reply : forall (E : Type) me t, sound me ->
  exists v, handle_ping (E := E) me t = Ok (Pong (me_seq me) (extension_type v) (payload_of v)) /\
    decode_extension (extension_type v) (payload_of v) = Ok v /\
    (if existsb (same_ext t) (supported (me_net me)) then
       extension_type v = t /\ (t = ErrorExt -> v = EError 3 []) /\
       (forall x, usable me t (payload_of v) = Ok (Some x) -> radius_in x = me_radius me) /\
       (t <> ErrorExt -> exists x, usable me t (payload_of v) = Ok (Some x))
     else v = EError 0 []).
Proof.
  intros E me t S. destruct (existsb (same_ext t) (supported (me_net me))) eqn:X.
  - destruct (same_ext t ErrorExt) eqn:T.
    + destruct t; try discriminate T. exists (EError 3 []). unfold handle_ping, is_supported. rewrite X. cbn [negb]. split; [reflexivity|].
      split; [reflexivity|]. split; [reflexivity|]. split; [reflexivity|]. split; [|congruence].
      intros x U. unfold usable in U. pose proof (proj1 (C78_round_trip (EError 3 []) ltac:(split; [reflexivity|discriminate]))) as RT. cbn [extension_type] in RT. rewrite RT in U.
      cbn [extension_type] in U. unfold is_supported in U. rewrite X in U. discriminate U.
    + assert (Ne : t <> ErrorExt) by (intros ->; discriminate T). destruct (reply_of (E := E) me t S X Ne) as (v & H & V & Tv & R).
      exists v. split; [exact H|]. split; [apply C78_round_trip, V|]. split; [exact Tv|]. split; [congruence|].
      destruct (usable_of me v V ltac:(rewrite Tv; exact X) ltac:(congruence)) as (x & U & Xv). rewrite <- Tv. split.
      * intros x' U'. assert (x' = x) by congruence. subst x'. destruct v as [i r c|r|r c|]; [destruct R as [R _]| | |contradiction]; subst x; exact R.
      * intros _. exists x. exact U.
  - exists (EError 0 []). unfold handle_ping, is_supported. rewrite X. cbn [negb]. split; [reflexivity|]. split; [reflexivity|reflexivity].
Qed.
(** No bytes from a peer crash the node. *)
Theorem C79_no_panic : forall (E : Type) (rlp : E -> bytes) dn dc me st source b cached f1 f2,
  (forall x, dn x <> Panic) -> (forall x, dc x <> Panic) ->
  on_request me rlp dn dc st source b cached f1 f2 <> Panic /\
  forall e g1 g2, on_response me dn dc st e b g1 g2 <> Panic.
Proof.
  intros E rlp dn dc me st source b cached f1 f2 Hn Hc. pose proof (C08_decode_total E dn dc b Hn Hc) as D.
  assert (U : forall t p, usable me t p <> Panic).
  { intros t p. unfold usable. pose proof (no_panic t p) as P. destruct (decode_extension t p) as [v| |]; try congruence. destruct (negb _); [discriminate|]. destruct v; discriminate. }
  assert (H : forall t, handle_ping (E := E) me t <> Panic).
  { intros t. unfold handle_ping. destruct (is_supported (me_net me) t) eqn:X; cbn [negb]; [|discriminate]. destruct t; try discriminate.
    unfold is_supported in X. destruct (me_net me); discriminate X. }
  unfold on_request, on_response. split.
  - destruct (decode_message dn dc b) as [[seq t p| | | | | | |]| |]; cbn [obind]; try congruence. unfold receive_ping. specialize (H t). destruct (handle_ping me t); cbn [obind]; try congruence.
    specialize (U t p). destruct (usable me t p); cbn [obind]; congruence.
  - intros e g1 g2. destruct (decode_message dn dc b) as [[|seq t p| | | | | |]| |]; cbn [obind]; try congruence. unfold receive_pong.
    specialize (U t p). destruct (usable me t p); cbn [obind]; congruence.
Qed.
(** A payload that is an error, of an unsupported type or unreadable changes nothing that is
    known of anyone. *)
Theorem C79_ignored : forall me st source seq t p f,
  (t = ErrorExt \/ is_supported (me_net me) t = false \/ decode_extension t p = Err) -> bytes_ok p ->
  usable me t p = Ok None /\ fst (process_ping (me_id me) st source seq None f) = st.
Proof.
  intros me st source seq t p f H Hp. split.
  - unfold usable. pose proof (no_panic t p) as P. destruct (decode_extension t p) as [v| |] eqn:D; [|reflexivity|congruence].
    apply decode_canonical in D as (T & _); [|exact Hp]. rewrite T.
    destruct H as [->|[H|H]]; [|rewrite H; reflexivity|discriminate]. destruct (negb _); [reflexivity|]. destruct v; try discriminate T. reflexivity.
  - unfold process_ping. destruct (present_or_pending source (tbl st)); reflexivity.
Qed.
(** The payload of a ping is not looked at before the reply: a ping that cannot be read is answered
    as if it could, not with the error "failed to decode payload". *)
Theorem C79_unreadable_refuted : forall me t p, sound me -> is_supported (me_net me) t = true -> t <> ErrorExt -> decode_extension t p = Err ->
  exists (m : message bytes) st', receive_ping me {| tbl := []; queue := [] |} 1 1 t p None Accepted Accepted = Ok (st', m) /\ ~ says_error bytes m.
Proof.
  intros me t p S Su Ne D. destruct (reply_of (E := bytes) me t S Su Ne) as (v & H & V & Tv & R). unfold receive_ping. rewrite H. cbn [obind].
  unfold usable. rewrite D. cbn [obind]. eexists. eexists. split; [reflexivity|]. cbn [says_error]. congruence.
Qed.
Print Assumptions C79_exchange.
Print Assumptions C79_fits.
Print Assumptions C79_listed.
Print Assumptions C79_next_ping.
Print Assumptions C79_reply.
Print Assumptions C79_no_panic.
Print Assumptions C79_ignored.
Print Assumptions C79_unreadable_refuted.

(** ** Examples *)
Definition toy_info : client_info :=
  {| ci_name := [116; 114; 105; 110]; ci_version := [118; 48; 46; 49]; ci_commit := [98; 54; 49]; ci_os := [108; 105]; ci_arch := [120; 56; 54]; ci_lang := [114; 49] |}.
Definition toy (id : N) (net : network) (r : N) : self := {| me_id := id; me_net := net; me_info := toy_info; me_radius := r; me_seq := 7 |}.
Lemma toy_readable : readable toy_info /\ short toy_info.
Proof.
  split; [|vm_compute; discriminate]. split; [|cbn; intuition discriminate].
  cbn [In ci_name ci_version ci_commit ci_os ci_arch ci_lang toy_info]. intros part H.
  repeat (destruct H as [<-|H]; [split; [cbn; intuition discriminate|reflexivity]|]). destruct H.
Qed.
Lemma toy_sound id net r : r < 2 ^ 256 -> sound (toy id net r).
Proof. intros R. split; [apply toy_readable|]. split; [apply toy_readable|]. split; [exact R|reflexivity]. Qed.
Example C78_example : value_ok (ECapabilities (Some toy_info) 42 [Capabilities; BasicRadius; NonSupported 9]) /\
  exists i, ~ short i /\ exists j, short j /\ In dash (ci_os j).
Proof.
  split.
  - cbn [value_ok]. split; [intros i' [= <-]; apply toy_readable|]. split; [reflexivity|]. split; [vm_compute; discriminate|].
    repeat (apply Forall_cons || apply Forall_nil); cbn; try exact Logic.I. repeat split; (reflexivity || discriminate).
  - exists {| ci_name := repeat 65 201; ci_version := []; ci_commit := []; ci_os := []; ci_arch := []; ci_lang := [] |}. split.
    + unfold short. intros H. vm_compute in H. apply H. reflexivity.
    + exists {| ci_name := []; ci_version := []; ci_commit := []; ci_os := [45]; ci_arch := []; ci_lang := [] |}. split; [vm_compute; discriminate|left; reflexivity].
Qed.
(** Node 1 pings node 2 of the state network; both end up with an entry for the other. *)
Example C79_example :
  match on_request (toy 2 State 5) (fun b : bytes => b) Ok Ok {| tbl := []; queue := [] |} 1
          (encode_message (fun b : bytes => b) (ping_node (toy 1 State 9) (new_node {| enr_id := 2; enr_seq := 1; enr_rest := [] |})))
          (Some {| enr_id := 1; enr_seq := 1; enr_rest := [] |}) Accepted Accepted with
  | Ok (st, reply) =>
      match present_or_pending 1 (tbl st), on_response (toy 1 State 9) Ok Ok {| tbl := []; queue := [] |} {| enr_id := 2; enr_seq := 1; enr_rest := [] |} reply Accepted Accepted with
      | Some n, Ok st' =>
          (n_radius n, n_capabilities n) = (9, Some [0; 1; 65535]) /\
          match present_or_pending 2 (tbl st') with Some n' => (n_radius n', n_capabilities n') = (5, Some [0; 1; 65535]) | None => False end
      | _, _ => False
      end
  | _ => False
  end.
Proof. vm_compute. split; reflexivity. Qed.
