(** C113: what users get over JSON-RPC. *)
From Coq Require Import ZArith String Ascii.
From Verif Require Import Base.
From Verif Require Import Hex_Model Hex_Proofs Wire_Model KBucket_Model AcceptCodes_Model Ping_Model Args_Model Trie_Model StateContent_Proofs Builders_Props UserApi_Model UserApi_Spec.
Import Ping_Model.

Lemma starts_with_spec p : forall s, starts_with p s = true <-> exists b, s = p ++ b.
Proof.
  induction p as [|x p IH]; intros s; cbn [starts_with app]; [split; [intros _; now exists s|reflexivity]|].
  destruct s as [|y s]; [split; [discriminate|intros (b & B); discriminate]|]. rewrite andb_true_iff, N.eqb_eq, IH. split.
  - intros [-> (b & ->)]. now exists b.
  - intros (b & [= -> ->]). split; [reflexivity|now exists b].
Qed.
Lemma contains_spec p : forall s, contains p s = true <-> exists a b, s = a ++ p ++ b.
Proof.
  induction s as [|y s IH]; cbn [contains]; rewrite orb_true_iff, starts_with_spec.
  - split; [intros [(b & B)|]; [now exists [], b|discriminate]|]. intros (a & b & E). left. destruct a; [|discriminate]. now exists b.
  - rewrite IH. split.
    + intros [(b & B)|(a & b & ->)]; [now exists [], b|now exists (y :: a), b].
    + intros (a & b & E). destruct a as [|z a]; [left; now exists b|right]. injection E as -> ->. now exists a, b.
Qed.
Lemma contains_mid p a s b : contains p s = true -> contains p (a ++ s ++ b) = true.
Proof. rewrite !contains_spec. intros (x & y & ->). exists (a ++ x), (y ++ b). now rewrite !app_assoc. Qed.
Lemma escape_phrase s : contains phrase s = true -> contains phrase (flat_map escape_char s) = true.
Proof.
  rewrite !contains_spec. intros (a & b & ->). exists (flat_map escape_char a), (flat_map escape_char b).
  rewrite !flat_map_app. reflexivity.
Qed.
Lemma field_here n v l : field n ((lit n, v) :: l) = Some v.
Proof. unfold field. cbn [find fst]. now rewrite beqb_refl. Qed.

Section Api.
Context {Tr : Type} (parse_error : bytes -> option (bytes * option Tr)) (complaint : json -> bytes) (debug : overlay_error Tr -> bytes)
  (trace_text : option Tr -> bytes) (write_trace : Tr -> json) (read_trace : json -> option Tr).
Context (HJ : json_errors parse_error trace_text) (HT : forall t, read_trace (write_trace t) = Some t).

Lemma read_write b : bytes_ok b -> read_bytes (write_bytes b) = Some b.
Proof.
  intros B. destruct (hex_round_trip b B) as [H _]. unfold write_bytes, read_bytes, hex_encode in *. cbn [app] in *.
  change (hex_decode_raw (hex_chars hex_digit b) = Ok b) in H. now rewrite H.
Qed.
Lemma message_error {A} (read : json -> option A) c r : ~ In c [9; 10; 13; 32; 91; 123] ->
  proxy_to_subnet parse_error complaint read (Some (RErr (c :: r))) = Error (EMessage (c :: r)).
Proof.
  intros H. cbn [proxy_to_subnet]. destruct (contains phrase (c :: r)); [|reflexivity].
  destruct (parse_error (c :: r)) as [[m t]|] eqn:E; [|reflexivity]. destruct H. apply (proj2 HJ c r). congruence.
Qed.
Lemma display_error {A} (read : json -> option A) (e : overlay_error Tr) :
  proxy_to_subnet parse_error complaint read (Some (RErr (display e))) = Error (EMessage (display e)).
Proof.
  assert (P : exists c r, display e = c :: r /\ ~ In c [9; 10; 13; 32; 91; 123])
    by (destruct e; cbn [display]; eexists _, _; split; try reflexivity; cbn; intuition discriminate).
  destruct P as (c & r & -> & P). now apply message_error.
Qed.
Lemma not_found_error {A} (read : json -> option A) m utp t : contains phrase m = true -> utf8 (not_found_message m utp) = true ->
  proxy_to_subnet parse_error complaint read (Some (RErr (not_found_text trace_text (not_found_message m utp) t))) = Error (EContentNotFound (not_found_message m utp) t).
Proof.
  intros C U. cbn [proxy_to_subnet].
  assert (C' : contains phrase (not_found_text trace_text (not_found_message m utp) t) = true).
  { unfold not_found_text, quote at 2. set (h := lit "{" ++ quote (lit "message") ++ lit ":").
    set (s := flat_map escape_char (not_found_message m utp)).
    match goal with |- contains _ (?x ++ ?y ++ ?z ++ ?q ++ ?w) = true => replace (x ++ y ++ z ++ q ++ w) with ((h ++ [34]) ++ s ++ [34] ++ w) end.
    - apply contains_mid, escape_phrase. unfold not_found_message. change m with ([] ++ m) at 1. apply (contains_mid phrase [] m). exact C.
    - unfold h. rewrite <- !app_assoc. cbn [app]. rewrite <- !app_assoc. reflexivity. }
  rewrite C'. rewrite (proj1 HJ _ t U). reflexivity.
Qed.
Lemma search_phrase m utp : search_message m -> contains phrase m = true /\ utf8 (not_found_message m utp) = true.
Proof. intros [-> | ->]; destruct utp; split; vm_compute; reflexivity. Qed.

(** Getting content: the user gets what the search found; the error -39001, with the trace of the search, exactly if the search ended without
    content; and the error -32099 in all other cases. *)
Theorem C113_get : forall up r, (forall c u t, r = Found c u t -> bytes_ok c) -> (forall m u t, r = NotFound (ContentNotFound m u t) -> search_message m) ->
  let reply := user_get_content parse_error complaint trace_text write_trace up r in
  (forall c u, reply = Answer (c, u) <-> up = true /\ exists t, r = Found c u t) /\
  (forall text t, fails reply (-39001) text (DTrace t) <->
     up = true /\ exists m u, r = NotFound (ContentNotFound m u t) /\ text = m ++ lit (if u then ": utp: true" else ": utp: false")) /\
  (fails_with reply (-39001) \/ fails_with reply (-32099) \/ exists a, reply = Answer a).
Proof.
  intros up r B S reply.
  assert (E : reply = match up, r with
        | true, Found c u _ => Answer (c, u)
        | true, NotFound (ContentNotFound m u t) => Error (EContentNotFound (not_found_message m u) t)
        | true, NotFound e | true, Unanswered e => Error (EMessage (display e))
        | false, _ => Error (EMessage (lit "Internal error: No response from subnetwork"))
        end).
  { unfold reply, user_get_content. destruct up; [|destruct r; reflexivity]. cbn [via]. destruct r as [e|c u t|e]; cbn [get_content].
    - apply display_error.
    - cbn [proxy_to_subnet read_content_info]. rewrite field_here. change (field "utpTransfer" _) with (Some (JBool u)). cbn [read_bool].
      now rewrite (read_write c (B _ _ _ eq_refl)).
    - destruct e; try apply display_error. destruct (search_phrase m utp (S _ _ _ eq_refl)). now apply not_found_error. }
  clearbody reply. subst reply. destruct up; [|split; [|split]].
  - destruct r as [e|c u t|e].
    + split; [|split]; [intros c u; split; [discriminate|intros (_ & t & X); discriminate]| |right; left; eexists; split; reflexivity].
      intros text t. split; [intros (x & [= <-] & X); discriminate|intros (_ & m & u & X & _); discriminate].
    + split; [|split]; [| |right; right; eauto].
      * intros c' u'. split; [intros [= <- <-]; eauto|intros (_ & t' & [= <- <- <-]); reflexivity].
      * intros text t'. split; [intros (x & X & _); discriminate|intros (_ & m & u' & X & _); discriminate].
    + assert (N : forall (x : reply Tr (bytes * bool)), x = match e with ContentNotFound m u t => Error (EContentNotFound (not_found_message m u) t) | _ => Error (EMessage (display e)) end ->
        (forall c u, x <> Answer (c, u)) /\ (fails_with x (-39001) \/ fails_with x (-32099)) /\
        forall text t, fails x (-39001) text (DTrace t) <-> exists m u, e = ContentNotFound m u t /\ text = not_found_message m u).
      { intros x ->. destruct e; (split; [discriminate|]); (split; [try (right; eexists; split; reflexivity); left; eexists; split; reflexivity|]);
          intros text tt; (split; [intros (y & [= <-] & Y); try discriminate Y|intros (m' & u' & Y & Z); try discriminate Y]).
        - cbn in Y. injection Y as <- <-. eauto.
        - injection Y as <- <- <-. subst text. eexists. split; reflexivity. }
      destruct (N _ eq_refl) as (N1 & N2 & N3). split; [|split].
      * intros c u. split; [intros X; destruct (N1 c u X)|intros (_ & t & X); discriminate].
      * intros text t. rewrite N3. unfold not_found_message, bool_text. split.
        -- intros (m & u & -> & ->). split; [reflexivity|]. exists m, u. split; [reflexivity|]. f_equal. now destruct u.
        -- intros (_ & m & u & [= ->] & ->). exists m, u. split; [reflexivity|]. f_equal. now destruct u.
      * destruct N2; auto.
  - intros c u. split; [discriminate|intros [X _]; discriminate].
  - intros text t. split; [intros (x & [= <-] & X); discriminate|intros [X _]; discriminate].
  - right. left. eexists. split; reflexivity.
Qed.
(** With a trace: the same, and the trace of the search. *)
Theorem C113_trace_get : forall up r, (forall c u t, r = Found c u t -> bytes_ok c) -> forall c u t,
  user_trace_get_content parse_error complaint trace_text write_trace read_trace up r = Answer (c, u, t) <-> up = true /\ r = Found c u (Some t).
Proof.
  intros up r B c u t. unfold user_trace_get_content. destruct up; [|split; [discriminate|intros [X _]; discriminate]]. cbn [via]. destruct r as [e|c' u' [t'|]|e]; cbn [get_content].
  - rewrite display_error. split; [discriminate|intros [_ X]; discriminate].
  - cbn [proxy_to_subnet read_trace_info read_content_info]. rewrite field_here. change (field "utpTransfer" _) with (Some (JBool u')).
    change (field "trace" _) with (Some (write_trace t')). cbn [read_bool]. rewrite (read_write c' (B _ _ _ eq_refl)), HT. cbn [option_map].
    split; [intros [= <- <- <-]; auto|intros (_ & [= <- <- <-]); reflexivity].
  - cbn [proxy_to_subnet]. change (contains phrase _) with false. cbn [proxy_to_subnet]. split; [discriminate|intros [_ X]; discriminate].
  - assert (P : forall r, exists e, proxy_to_subnet parse_error complaint (read_trace_info read_trace) (Some (RErr r)) = Error e).
    { intros r. cbn [proxy_to_subnet]. destruct (contains _ _); [destruct (parse_error r) as [[? ?]|]|]; eauto. }
    destruct e; cbn [get_content]; match goal with |- context [RErr ?r] => destruct (P r) as (x & ->) end; (split; [discriminate|intros [_ X]; discriminate]).
Qed.
(** Content of the local store is given as it is; nothing is given that is not in the store. *)
Theorem C113_local : forall n up s, (forall b, s = SFound b -> bytes_ok b) ->
  (forall b, user_local_content parse_error complaint n up s = Answer b <-> up = true /\ s = SFound b) /\
  ((exists b, s = SFound b) \/ fails_with (user_local_content parse_error complaint n up s) (-32099)).
Proof.
  intros n up s B. unfold user_local_content. destruct up; [|split; [intros b; split; [discriminate|intros [X _]; discriminate]|right; eexists; split; reflexivity]]. cbn [via].
  destruct s as [b'| |m]; cbn [local_content].
  - cbn [proxy_to_subnet]. rewrite (read_write b' (B _ eq_refl)). split; [|eauto]. intros b. split; [intros [= <-]; auto|intros [_ [= <-]]; reflexivity].
  - assert (P : exists m, (exists e, proxy_to_subnet parse_error complaint read_bytes (Some (local_content n SMissing)) = Error e /\ e = EMessage m)).
    { destruct n; cbn [local_content proxy_to_subnet]; match goal with |- context [contains ?p ?s] => change (contains p s) with false end; eauto. }
    destruct P as (m & e & P & ->). cbn [local_content] in P. rewrite P. split; [intros b; split; [discriminate|intros [_ X]; discriminate]|].
    right. eexists. split; reflexivity.
  - assert (P : exists e, proxy_to_subnet parse_error complaint read_bytes (Some (local_content n (SFailed m))) = Error (EMessage e)).
    { destruct n; cbn [local_content]; eexists; apply message_error; cbn; intuition discriminate. }
    destruct P as (e & P). cbn [local_content] in P. rewrite P. split; [intros b; split; [discriminate|intros [_ X]; discriminate]|].
    right. eexists. split; reflexivity.
Qed.
(** That content is not in the local store is not said with the code for it, on any network; the code is that of a broken database. *)
Theorem C113_local_code_refuted : forall n m,
  ~ fails_with (user_local_content parse_error complaint n true SMissing) (-39001) /\
  fails_with (user_local_content parse_error complaint n true SMissing) (-32099) /\
  fails_with (user_local_content parse_error complaint n true (SFailed m)) (-32099).
Proof.
  intros n m. destruct (C113_local n true SMissing ltac:(discriminate)) as [_ [(b & X)|L]]; [discriminate|].
  destruct (C113_local n true (SFailed m) ltac:(discriminate)) as [_ [(b & X)|L']]; [discriminate|].
  split; [|auto]. intros (e & E & C). destruct L as (e' & E' & C'). rewrite E in E'. injection E' as <-. rewrite C in C'. discriminate.
Qed.

Section Values.
Context {K V : Type} (key_bytes : K -> bytes) (decode : K -> bytes -> option V) (encode : V -> bytes).
(** Storing: the user is told [true] exactly if content that was well-formed was stored, never [false], and an error otherwise; what reaches
    the store is the encoding of the content that was understood. *)
Theorem C113_store : forall n up put k raw,
  let (reply, stored) := user_store parse_error complaint decode encode n up put k raw in
  (reply = Answer true <-> up = true /\ exists v, decode k raw = Some v /\ put k (encode v) = None) /\
  (reply = Answer true \/ fails_with reply (-32099)) /\
  (forall k' b, stored = Some (k', b) <-> up = true /\ k' = k /\ exists v, decode k raw = Some v /\ b = encode v).
Proof.
  intros n up put k raw. unfold user_store. destruct (decode k raw) as [v|] eqn:D.
  - split; [|split]; [| |destruct up; (split; [intros [= <- <-]; eauto|intros (X & -> & v' & [= <-] & ->); congruence])].
    + destruct up; [|split; [discriminate|intros [X _]; discriminate]]. cbn [via]. destruct (put k (encode v)) as [m|] eqn:P; cbn [store_reply].
      * split; [|intros (_ & v' & [= <-] & X); congruence]. destruct n; try discriminate.
        change (lit "Store failed: " ++ m) with (83 :: (lit "tore failed: " ++ m)). rewrite (message_error read_bool 83) by (cbn; intuition discriminate). discriminate.
      * cbn. split; [eauto|reflexivity].
    + destruct up; [|right; eexists; split; reflexivity]. cbn [via]. destruct (put k (encode v)) as [m|]; cbn [store_reply]; [|now left].
      right. destruct n; try (eexists; split; reflexivity). eexists. split; [apply message_error; cbn; intuition discriminate|reflexivity].
  - split; [|split]; [split; [discriminate|intros (_ & v & X & _); discriminate]|right; eexists; split; reflexivity|].
    intros k' b. split; [discriminate|intros (_ & _ & v & X & _); discriminate].
Qed.
(** Offering: one to 64 items, all of them well-formed, are offered in their order; otherwise nothing is offered and there is an error. *)
Theorem C113_offer : forall items,
  (forall l, user_offer (Tr := Tr) key_bytes decode encode items = Answer l <->
     1 <= blen items <= 64 /\ Forall2 (fun i o => exists v, decode (fst i) (snd i) = Some v /\ o = (key_bytes (fst i), encode v)) items l) /\
  ((exists l, user_offer (Tr := Tr) key_bytes decode encode items = Answer l) \/ fails_with (user_offer (Tr := Tr) key_bytes decode encode items) (-32099)).
Proof.
  intros items. unfold user_offer, max_keys_per_offer. destruct ((1 <=? blen items) && (blen items <=? 64)) eqn:C.
  - apply andb_true_iff in C. rewrite !N.leb_le in C.
    set (f := fun p => match decode (fst p) (snd p) with Some v => Ok (key_bytes (fst p), encode v) | None => Err end).
    assert (G : forall l, all_ok (map f items) = Ok l <-> Forall2 (fun i o => exists v, decode (fst i) (snd i) = Some v /\ o = (key_bytes (fst i), encode v)) items l).
    { clear C. induction items as [|p items IH]; intros l; cbn [map all_ok].
      - split; [intros [= <-]; constructor|intros F; inversion F; reflexivity].
      - unfold f at 1. destruct (decode (fst p) (snd p)) as [v|] eqn:D; cbn [obind].
        + destruct (all_ok (map f items)) as [l'| |] eqn:A; cbn [omap obind]; (split; [|intros F; inversion F as [|? o ? l2 (v' & D' & O) F']; subst]);
            try discriminate; try (apply IH in F'; congruence).
          intros [= <-]. constructor; [eauto|now apply IH].
        + split; [discriminate|]. intros F. inversion F as [|? o ? l2 (v' & D' & O) F']; subst. congruence. }
    split.
    + intros l. rewrite <- G. destruct (all_ok (map f items)); (split; [intros X; try discriminate X; injection X as <-; auto|intros [_ X]; try discriminate X; injection X as <-; reflexivity]).
    + destruct (all_ok (map f items)); [left; eauto|right; eexists; split; reflexivity..].
  - assert (~ 1 <= blen items <= 64). { rewrite <- !N.leb_le, <- andb_true_iff. congruence. }
    split; [intros l; split; [discriminate|intros [X _]; contradiction]|right; eexists; split; reflexivity].
Qed.
(** If every well-formed content is its own encoding then what is offered and stored is what the user gave. *)
Theorem C113_unchanged : (forall k b v, decode k b = Some v -> encode v = b) ->
  (forall items l, user_offer (Tr := Tr) key_bytes decode encode items = Answer l -> l = map (fun i => (key_bytes (fst i), snd i)) items) /\
  (forall n up put k raw s, snd (user_store parse_error complaint decode encode n up put k raw) = Some s -> s = (k, raw)).
Proof.
  intros R. split.
  - intros items l H. apply C113_offer in H. destruct H as [_ F]. induction F as [|i o items l (v & D & ->) _ IH]; [reflexivity|]. cbn [map]. now rewrite IH, (R _ _ _ D).
  - intros n up put k raw [k' b] H. pose proof (C113_store n up put k raw) as S. destruct (user_store _ _ _ _ n up put k raw) as [rep st]. cbn [snd] in H.
    destruct S as (_ & _ & S). apply S in H. destruct H as (_ & -> & v & D & ->). now rewrite (R _ _ _ D).
Qed.
End Values.

(** Asking one peer for content: the user gets the content or the records that the peer sent; every failure is -32099. *)
Theorem C113_find : forall (enr_text : enr -> bytes) (enr_read : bytes -> option enr), (forall e, enr_read (enr_text e) = Some e) ->
  forall n up r, (forall b u, r = FOk (FContent b) u -> bytes_ok b) ->
  let reply := user_find_content parse_error complaint debug enr_text enr_read n up r in
  (forall b u, reply = Answer (inl (b, u)) <-> up = true /\ r = FOk (FContent b) u) /\
  (forall l, reply = Answer (inr l) <-> up = true /\ exists u, r = FOk (FEnrs l) u) /\
  ((exists a, reply = Answer a) \/ fails_with reply (-32099)).
Proof.
  intros et er HE n up r B reply.
  assert (E : exists m, reply = match up, r with
    | true, FOk (FContent b) u => Answer (inl (b, u))
    | true, FOk (FEnrs l) _ => Answer (inr l)
    | _, _ => Error (EMessage m)
    end).
  { unfold reply, user_find_content. destruct up; [|eexists; destruct r as [[| |] ?|]; reflexivity]. cbn [via]. destruct r as [[id|b|l] u|e]; cbn [find_content].
    - destruct n; cbn [app]; eexists; apply message_error; cbn; intuition discriminate.
    - exists []. unfold proxy_to_subnet, read_find_info. cbn [read_content_info]. rewrite field_here. change (field "utpTransfer" _) with (Some (JBool u)). cbn [read_bool].
      now rewrite (read_write b (B _ _ eq_refl)).
    - exists []. unfold proxy_to_subnet, read_find_info. cbn [read_content_info]. change (field "content" _) with (@None json). cbv iota.
      rewrite field_here. cbn [read_enrs].
      assert (L : fold_right (fun v acc => match v, acc with JStr s, Some r => option_map (fun e => e :: r) (er s) | _, _ => None end) (Some []) (map (fun e => JStr (et e)) l) = Some l).
      { clear - HE. induction l as [|e l IH]; [reflexivity|]. cbn [map fold_right]. rewrite IH, HE. reflexivity. }
      now rewrite L.
    - destruct n; eexists; apply message_error; cbn; intuition discriminate. }
  destruct E as (m & E). clearbody reply. subst reply. destruct up; [destruct r as [[id|b|l] u|e]|];
    (split; [intros b' u'|split; [intros l'|]]; [split; [intros X; try discriminate X|intros [X Y]; try discriminate X; try discriminate Y]
                                                |split; [intros X; try discriminate X|intros (X & u' & Y); try discriminate X; try discriminate Y]|]).
  all: try (injection X as <-; eauto; fail). all: try (injection Y as <-; reflexivity).
  all: try (right; eexists; split; reflexivity). all: try (left; eauto; fail).
  - injection X as <- <-. auto.
  - injection Y as <- <-. reflexivity.
Qed.
End Api.

Section Pings.
Context {Tr : Type} (read_capabilities : json -> option (option client_info * N * list ext_type)) (read_radius : json -> option N)
        (read_history_radius : json -> option (N * N)) (read_ping_error : json -> option (N * bytes)).
Let parse := parse_ping_payload (Tr := Tr) read_capabilities read_radius read_history_radius read_ping_error.
Let decoded := decode_json read_capabilities read_radius read_history_radius read_ping_error.
(** Pings: the type, if given, is one of the network, and the payload, if given, is of that type; every other request has the error for its fault. *)
Theorem C113_ping : forall n t p,
  (forall t' x, parse n t p = Answer (t', x) -> t' = t /\ (forall ty, t = Some ty -> is_supported n ty = true) /\
     match x with Some x => exists ty v, t = Some ty /\ p = Some v /\ decoded ty v = Some x /\ extension_type x = ty | None => p = None end) /\
  (fails_with (parse n t p) (-39004) <-> exists ty, t = Some ty /\ is_supported n ty = false) /\
  (fails_with (parse n t p) (-39005) <-> exists ty v, t = Some ty /\ is_supported n ty = true /\ p = Some v /\ decoded ty v = None) /\
  (fails_with (parse n t p) (-39006) <-> t = None /\ p <> None).
Proof.
  intros n t p.
  assert (T : forall ty v x, decoded ty v = Some x -> extension_type x = ty).
  { intros ty v x. unfold decoded. destruct ty; cbn [decode_json]; intros H;
      [destruct (read_capabilities v) as [a|]|destruct (read_radius v) as [a|]|destruct (read_history_radius v) as [a|]|destruct (read_ping_error v) as [a|]|];
      try discriminate H; cbn [option_map] in H; injection H as <-; reflexivity. }
  assert (E : parse n t p = match t with
     | Some ty => if is_supported n ty then match p with Some v => match decoded ty v with Some x => Answer (Some ty, Some x) | None => Error (EPayload (lit "Failed to decode payload")) end | None => Answer (t, None) end
                  else Error (EPayloadTypeNotSupported (lit "Payload type not supported") (match ty with NonSupported _ => true | _ => false end))
     | None => match p with Some _ => Error (EPayloadTypeRequired (lit "If the 'payload' is specified the 'payloadType' must be as well")) | None => Answer (None, None) end
     end).
  { unfold parse, parse_ping_payload. fold decoded. destruct t as [ty|]; [|destruct p; reflexivity].
    assert (NS : forall m, is_supported n (NonSupported m) = false) by (intros m; destruct n; reflexivity).
    destruct ty; try (rewrite NS; reflexivity); destruct (is_supported n _); reflexivity. }
  rewrite E. clear E. unfold fails_with.
  destruct t as [ty|]; [destruct (is_supported n ty) eqn:S; [destruct p as [v|]; [destruct (decoded ty v) as [x0|] eqn:D|]|]|destruct p as [v|]].
  all: split; [intros t' x X; try discriminate X; injection X as <- <-|].
  all: try (split; [reflexivity|]; split; [intros ty' [= <-]; exact S|]; eauto 10; fail).
  all: try (split; [reflexivity|]; split; [discriminate|reflexivity]).
  all: split; [|split]; (split; [intros (e & X & C); try discriminate X; injection X as <-; try discriminate C; eauto 10; try (split; [reflexivity|discriminate])|]).
  all: try (intros (ty' & X & Y); try discriminate X; injection X as <-; try congruence; eexists; split; reflexivity).
  all: try (intros (ty' & v' & X & Y & Z & W); try discriminate X; try discriminate Z; injection X as <-; try injection Z as <-; try congruence; eexists; split; reflexivity).
  all: try (intros [X Y]; try discriminate X; try congruence; eexists; split; reflexivity).
Qed.
End Pings.
Print Assumptions C113_get.
Print Assumptions C113_trace_get.
Print Assumptions C113_local.
Print Assumptions C113_local_code_refuted.
Print Assumptions C113_store.
Print Assumptions C113_offer.
Print Assumptions C113_unchanged.
Print Assumptions C113_find.
Print Assumptions C113_ping.

(** A reader of errors as it is asked for (with trivial traces), and a user who looks for content: it is found, it is not found, it is not in the store. *)
Lemma json_rest_quote m r : json_rest (flat_map escape_char m ++ 34 :: r) = Some (m, r).
Proof.
  induction m as [|c m IH]; [reflexivity|]. cbn [flat_map]. rewrite <- app_assoc. set (s := flat_map escape_char m ++ 34 :: r) in *.
  destruct (N.ltb_spec c 32) as [L|L].
  - assert (C : In c (map N.of_nat (List.seq 0 32))) by (apply in_map_iff; exists (N.to_nat c); split; [lia|apply in_seq; lia]).
    assert (G : json_rest (escape_char c ++ s) = option_map (fun p => (c :: fst p, snd p)) (json_rest s)).
    { vm_compute in C. repeat (destruct C as [<-|C]; [reflexivity|]). destruct C. }
    rewrite G, IH. reflexivity.
  - assert (G : json_rest (escape_char c ++ s) = option_map (fun p => (c :: fst p, snd p)) (json_rest s)).
    { destruct (N.eqb_spec c 34) as [->|N1]; [reflexivity|]. destruct (N.eqb_spec c 92) as [->|N2]; [reflexivity|].
      assert (E : escape_char c = [c]).
      { unfold escape_char. repeat match goal with |- context [c =? ?k] => destruct (N.eqb_spec c k); [lia|] end. destruct (N.ltb_spec c 32); [lia|reflexivity]. }
      rewrite E. cbn [app json_rest]. destruct (N.eqb_spec c 34); [lia|]. destruct (N.ltb_spec c 32); [lia|]. destruct (N.eqb_spec c 92); [lia|reflexivity]. }
    rewrite G, IH. reflexivity.
Qed.
Definition toy_trace_text (t : option unit) : bytes := lit (match t with Some _ => "{}" | None => "null" end).
Definition toy_head : bytes := lit "{" ++ quote (lit "message") ++ lit ":" ++ [34].
Definition toy_tail (t : option unit) : bytes := lit "," ++ quote (lit "trace") ++ lit ":" ++ toy_trace_text t ++ lit "}".
Definition toy_parse (s : bytes) : option (bytes * option unit) :=
  if starts_with toy_head s then
    match json_rest (skipn (length toy_head) s) with
    | Some (m, r) => if beqb r (toy_tail None) then Some (m, None) else if beqb r (toy_tail (Some tt)) then Some (m, Some tt) else None
    | None => None
    end
  else None.
Lemma toy_json : json_errors toy_parse toy_trace_text.
Proof.
  split.
  - intros m t _. assert (E : not_found_text toy_trace_text m t = toy_head ++ flat_map escape_char m ++ 34 :: toy_tail t).
    { unfold not_found_text, toy_head, toy_tail. unfold quote at 2. rewrite <- !app_assoc. cbn [app]. rewrite <- !app_assoc. reflexivity. }
    rewrite E. unfold toy_parse. rewrite (proj2 (starts_with_spec toy_head _)) by eauto. rewrite skipn_app, skipn_all, Nat.sub_diag. cbn [app skipn].
    rewrite json_rest_quote. destruct t as [[]|]; reflexivity.
  - intros c r. unfold toy_parse. destruct (starts_with toy_head (c :: r)) eqn:S; [|congruence]. apply starts_with_spec in S. destruct S as (b & S). intros _.
    injection S as -> _. cbn. tauto.
Qed.
Example C113_example :
  let write := fun _ : unit => JNull in
  json_errors toy_parse toy_trace_text /\
  user_get_content toy_parse (fun _ => []) toy_trace_text write true (Found [1; 255] true (Some tt)) = Answer ([1; 255], true) /\
  (let m := lit "Unable to locate content on the network before timeout" in
   search_message m /\ fails (user_get_content toy_parse (fun _ => []) toy_trace_text write true (NotFound (ContentNotFound m false (Some tt))))
     (-39001) (lit "Unable to locate content on the network before timeout: utp: false") (DTrace (Some tt))) /\
  fails (user_local_content toy_parse (fun _ => []) State true SMissing) (-32099) (lit "{""message"":""Content not found in local storage""}") NoData /\
  user_offer (Tr := unit) (fun k : N => [k]) (fun k b => if k =? 1 then Some b else None) (fun b => b) [(1, [7]); (1, [])] = Answer [([1], [7]); ([1], [])] /\
  fails_with (parse_ping_payload (Tr := unit) (fun _ => None) (fun _ => Some 5) (fun _ => None) (fun _ => None) LegacyHistory (Some BasicRadius) None) (-39004).
Proof.
  split; [exact toy_json|]. split; [vm_compute; reflexivity|]. split; [|split; [|split]].
  - split; [now left|]. eexists. split; vm_compute; reflexivity.
  - eexists. split; vm_compute; reflexivity.
  - vm_compute. reflexivity.
  - eexists. split; vm_compute; reflexivity.
Qed.

(** Two errors have the same code only if they say the same kind of thing; a code that JSON-RPC keeps for itself is used for what JSON-RPC says. *)
Theorem C113_codes : forall {Tr} (e f : serve_error Tr),
  (fst (fst (error_object e)) = fst (fst (error_object f)) ->
   match e, f with
   | EMessage _, EMessage _ | EMethodNotFound _, EMethodNotFound _ | EContentNotFound _ _, EContentNotFound _ _
   | EPayloadTypeNotSupported _ _, EPayloadTypeNotSupported _ _ | EPayload _, EPayload _ | EPayloadTypeRequired _, EPayloadTypeRequired _ => True
   | _, _ => False
   end) /\
  (reserved_code (fst (fst (error_object e))) ->
   (exists m, e = EMethodNotFound m /\ fst (fst (error_object e)) = no_method_code) \/
   (exists m, e = EMessage m /\ server_code (fst (fst (error_object e))))).
Proof.
  intros Tr e f. split.
  - destruct e, f; cbn; (exact (fun _ => I) || discriminate).
  - unfold reserved_code, server_code, no_method_code. destruct e; cbn; intros [H1 H2]; try (exfalso; Lia.lia).
    + right. eexists. split; [reflexivity|]. Lia.lia.
    + left. eexists. split; reflexivity.
Qed.
Print Assumptions C113_codes.
Example C113_codes_example : reserved_code (fst (fst (error_object (Tr := unit) (EMethodNotFound (lit "m"))))).
Proof. unfold reserved_code. cbn. Lia.lia. Qed.

(** What is written as a string of JSON is read as one, as the same text, whatever follows. *)
Theorem C113_strings : forall m r, json_string (quote m ++ r) = Some (m, r).
Proof. intros m r. unfold quote, json_string. cbn [app]. rewrite <- app_assoc. cbn [app]. apply json_rest_quote. Qed.
Print Assumptions C113_strings.
(** The text of an error says of which kind it is, and ends with the reason that was given. *)
Theorem C113_reasons : forall {Tr} (e f : overlay_error Tr),
  (exists a, display e = a ++ reason e) /\ (display e = display f -> reason e = reason f -> same_kind e f).
Proof.
  intros Tr e f. split.
  - destruct e; cbn [display reason]; eexists; try reflexivity; rewrite app_nil_r; reflexivity.
  - destruct e, f; cbn [display reason same_kind]; intros D R; try exact I; subst; exfalso;
      first [apply app_inv_tail in D; discriminate D | discriminate D].
Qed.
Print Assumptions C113_reasons.
