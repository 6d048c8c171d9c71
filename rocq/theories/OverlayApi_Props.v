(** C82, C83: the calls of an overlay network. *)
From Verif Require Import Base.
From Verif Require Import Payload_Model AcceptCodes_Model Wire_Model Wire_Spec KBucket_Model OfferAccept_Model Ping_Model Ping_Spec.
From Verif Require Import KBucket_Proofs Wire_Props Ping_Props OverlayApi_Model OverlayApi_Spec OverlayApi_Proofs.
From Verif Require Payload_Spec Payload_Proofs OfferAccept_Proofs OfferAccept_Props.

(** ** C82: records of nodes *)
Section Records.
Context (own : enr).

(** A record that was added without an error is there, for good or waiting for a place; nothing
    else changes.  One's own record cannot be added. *)
Theorem C82_add : forall t e f t' ok, NoDup (map s_id t) -> api_add_enr own t e f = (t', ok) ->
  (forall id, id <> enr_id e -> get_enr own t' id = get_enr own t id) /\
  (ok = true -> enr_id e <> enr_id own /\ exists s, In s t' /\ n_enr (s_node s) = e /\ (s_pending s = false -> get_enr own t' (enr_id e) = Ok e)) /\
  (ok = true -> f = Accepted -> (forall s, In s t -> s_id s = enr_id e -> s_pending s = false) -> get_enr own t' (enr_id e) = Ok e) /\
  (ok = false -> f = Refused \/ (enr_id e = enr_id own /\ t' = t)).
Proof.
  intros t e f t' ok Nd A. unfold api_add_enr, insert_or_update in A. cbn [n_enr new_node] in A.
  assert (Pa : forall x id, s_id x <> id -> present id (t ++ [x]) = present id t).
  { intros x id Q. unfold present, lookup. clear - Q. induction t as [|a t IH]; cbn [app find].
    - apply N.eqb_neq in Q. rewrite Q. reflexivity.
    - destruct (s_id a =? id); [reflexivity|exact IH]. }
  assert (Pn : forall x, lookup (s_id x) t = None -> lookup (s_id x) (t ++ [x]) = Some x).
  { intros x H. unfold lookup in *. clear - H. induction t as [|a t IH]; cbn [app find] in *; [now rewrite N.eqb_refl|].
    destruct (s_id a =? s_id x); [discriminate|exact (IH H)]. }
  assert (Pr : forall x id, s_id x <> id -> present id (replace (s_id x) x t) = present id t).
  { intros x id Q. unfold present, lookup, replace. clear - Q. induction t as [|a t IH]; cbn [map find]; [reflexivity|].
    destruct (N.eqb_spec (s_id a) (s_id x)) as [Q2|Q2].
    - apply N.eqb_neq in Q. rewrite Q, Q2, Q. exact IH.
    - destruct (s_id a =? id); [reflexivity|exact IH]. }
  assert (Pm : forall id id', id' <> id -> present id' (remove id t) = present id' t).
  { intros id id' Q. unfold present, lookup, remove. clear - Q. induction t as [|a t IH]; cbn [filter find]; [reflexivity|].
    destruct (N.eqb_spec (s_id a) id) as [Q2|Q2]; cbn [negb].
    - rewrite Q2. apply not_eq_sym, N.eqb_neq in Q. rewrite Q. exact IH.
    - cbn [find]. destruct (s_id a =? id'); [reflexivity|exact IH]. }
  assert (G : forall t1 id, present id t1 = present id t -> get_enr own t1 id = get_enr own t id).
  { intros t1 id H. unfold get_enr. now rewrite H. }
  destruct (N.eqb_spec (enr_id e) (enr_id own)) as [Q|Q].
  - injection A as <- <-. split; [reflexivity|]. split; [discriminate|]. split; [discriminate|]. intros _. right. auto.
  - assert (Q' : enr_id e =? enr_id own = false) by now apply N.eqb_neq.
    destruct (lookup (enr_id e) t) as [s|] eqn:L.
    + destruct (lookup_some _ _ _ L) as [Is Es].
      assert (Up : forall x, s_id x = enr_id e -> In x (replace (enr_id e) x t) /\ lookup (enr_id e) (replace (enr_id e) x t) = Some x).
      { intros x Ex. split.
        - unfold replace. apply in_map_iff. exists s. rewrite Es, N.eqb_refl. auto.
        - unfold lookup, replace. clear - Is Es Ex. induction t as [|a t IH]; [destruct Is|]. cbn [map find].
          destruct (N.eqb_spec (s_id a) (enr_id e)) as [H|H]; [now rewrite Ex, N.eqb_refl|].
          apply N.eqb_neq in H. rewrite H. destruct Is as [->|Is]; [apply N.eqb_neq in H; congruence|exact (IH Is)]. }
      destruct f as [|d|].
      * set (x := {| s_node := new_node e; s_connected := true; s_incoming := true; s_pending := s_pending s |}) in A.
        destruct (Up x eq_refl) as [U1 U2].
        assert (E1 : t' = replace (enr_id e) x t /\ ok = true) by (destruct (s_pending s); injection A as <- <-; auto). destruct E1 as [-> ->].
        assert (Ge : s_pending x = false -> get_enr own (replace (enr_id e) x t) (enr_id e) = Ok e).
        { intros Hp. unfold get_enr. rewrite Q'. unfold present. rewrite U2, Hp. reflexivity. }
        split; [intros id H; apply G; apply (Pr x); intros H'; apply H; symmetry; exact H'|]. split; [|split; [|discriminate]].
        { intros _. split; [exact Q|]. exists x. auto. }
        { intros _ _ H. apply Ge. exact (H s Is Es). }
      * set (x := {| s_node := new_node e; s_connected := true; s_incoming := true; s_pending := s_pending s |}) in A.
        destruct (Up x eq_refl) as [U1 U2].
        assert (E1 : t' = replace (enr_id e) x t /\ ok = true) by (destruct (s_pending s); injection A as <- <-; auto). destruct E1 as [-> ->].
        split; [intros id H; apply G; apply (Pr x); intros H'; apply H; symmetry; exact H'|]. split; [|split; [discriminate|discriminate]].
        intros _. split; [exact Q|]. exists x. split; [exact U1|]. split; [reflexivity|]. intros Hp. unfold get_enr. rewrite Q'. unfold present. rewrite U2, Hp. reflexivity.
      * injection A as <- <-. split; [intros id H; apply G, Pm; congruence|]. split; [discriminate|]. split; [discriminate|]. auto.
    + destruct f as [|d|]; injection A as <- <-.
      * set (x := {| s_node := new_node e; s_connected := true; s_incoming := true; s_pending := false |}).
        assert (Ge : get_enr own (t ++ [x]) (enr_id e) = Ok e).
        { unfold get_enr. rewrite Q'. unfold present. change (enr_id e) with (s_id x) in L |- *. rewrite (Pn x L). reflexivity. }
        split; [intros id H; apply G, (Pa x); intros H'; apply H; symmetry; exact H'|]. split; [|split; [auto|discriminate]].
        intros _. split; [exact Q|]. exists x. split; [apply in_or_app; right; now left|auto].
      * set (x := {| s_node := new_node e; s_connected := true; s_incoming := true; s_pending := true |}).
        split; [intros id H; apply G, (Pa x); intros H'; apply H; symmetry; exact H'|]. split; [|split; [discriminate|discriminate]].
        intros _. split; [exact Q|]. exists x. split; [apply in_or_app; right; now left|]. split; [reflexivity|discriminate].
      * split; [reflexivity|]. split; [discriminate|]. split; [discriminate|]. auto.
Qed.
(** The call succeeds but the record cannot be read back: every time the bucket of the node is full
    and it has to wait for a place. *)
Theorem C82_added_not_found_refuted : forall t e d, enr_id e <> enr_id own -> ~ In (enr_id e) (map s_id t) ->
  exists t', api_add_enr own t e (AsPending d) = (t', true) /\ get_enr own t' (enr_id e) = Err.
Proof.
  intros t e d Q Nt. unfold api_add_enr, insert_or_update. cbn [n_enr new_node]. apply N.eqb_neq in Q. rewrite Q.
  pose proof (proj2 (lookup_none (enr_id e) t) Nt) as L. rewrite L. eexists. split; [reflexivity|].
  unfold get_enr. rewrite Q. unfold present, lookup in *. clear - L. induction t as [|a t IH]; cbn [app find] in *.
  - cbn [s_id s_node new_node n_enr]. unfold s_id. cbn [s_node new_node n_enr]. rewrite N.eqb_refl. reflexivity.
  - destruct (s_id a =? enr_id e); [discriminate|exact (IH L)].
Qed.
(** Removing a record: it is gone, and only it. *)
Theorem C82_delete : forall t id t' ok, api_delete_enr t id = (t', ok) ->
  (id <> enr_id own -> get_enr own t' id = Err) /\
  (forall other, other <> id -> get_enr own t' other = get_enr own t other) /\
  (~ In id (map s_id t) -> ok = false /\ t' = t) /\
  (forall s, In s t -> s_id s = id -> ok = true).
Proof.
  intros t id t' ok [= <- <-]. split.
  { intros Q. unfold get_enr. apply N.eqb_neq in Q. rewrite Q. unfold present.
    rewrite (proj2 (lookup_none id (remove id t))); [reflexivity|]. rewrite remove_ids. tauto. }
  split.
  { intros other Q. unfold get_enr, present, lookup, remove. destruct (other =? enr_id own); [reflexivity|].
    enough (find (fun s => s_id s =? other) (filter (fun s => negb (s_id s =? id)) t) = find (fun s => s_id s =? other) t) as -> by reflexivity.
    clear - Q. induction t as [|a t IH]; cbn [filter find]; [reflexivity|].
    destruct (N.eqb_spec (s_id a) id) as [Q2|Q2]; cbn [negb].
    - rewrite Q2. apply not_eq_sym, N.eqb_neq in Q. rewrite Q. exact IH.
    - cbn [find]. destruct (s_id a =? other); [reflexivity|exact IH]. }
  split.
  { intros Nt. rewrite (proj2 (lookup_none id t) Nt). split; [reflexivity|]. unfold remove. apply filter_every.
    intros s Hs. apply Bool.negb_true_iff, N.eqb_neq. intros Q. apply Nt. rewrite <- Q. now apply in_map. }
  intros s Hs Q. destruct (lookup id t) as [x|] eqn:L; [reflexivity|]. exfalso. apply (proj1 (lookup_none id t) L). rewrite <- Q. now apply in_map.
Qed.

Context (cached : N -> option enr) (found : N -> list enr) (ask : enr -> list N -> outcome (list enr)).
(** Looking up oneself gives one's own record. *)
Theorem C82_own : forall t,
  get_enr own t (enr_id own) = Ok own /\ lookup_node own cached found t (enr_id own) = [own] /\ lookup_enr own cached found ask t (enr_id own) = Ok own.
Proof. intros t. unfold get_enr, lookup_node, lookup_enr. rewrite N.eqb_refl. auto. Qed.

(** Where the result of a lookup comes from, in this order: the newest record the node itself
    returns, the newest record found by the search if it is newer than the known one, the known
    one.  It fails only if the node is not known and nothing (or only records with sequence number
    0) was found. *)
Theorem C82_lookup : forall t id, id <> enr_id own ->
  (forall known es e, get_enr own t id = Ok known -> ask known [0] = Ok es -> es <> [] ->
     lookup_enr own cached found ask t id = Ok e -> newest e es) /\
  (forall known, get_enr own t id = Ok known -> enr_id known = id /\ exists e, lookup_enr own cached found ask t id = Ok e) /\
  (forall e, lookup_enr own cached found ask t id = Ok e ->
     (exists known es, get_enr own t id = Ok known /\ ask known [0] = Ok es /\ newest e es) \/
     (newest e (lookup_node own cached found t id) /\ (forall known, get_enr own t id = Ok known -> enr_seq known < enr_seq e)) \/
     (get_enr own t id = Ok e /\ forall x, In x (lookup_node own cached found t id) -> enr_seq x <= enr_seq e)) /\
  (lookup_enr own cached found ask t id = Err <-> get_enr own t id = Err /\ forall x, In x (lookup_node own cached found t id) -> enr_seq x = 0).
Proof.
  intros t id Q. assert (Q' := Q). apply N.eqb_neq in Q'.
  assert (K : forall k, get_enr own t id = Ok k -> enr_id k = id).
  { intros k. unfold get_enr. rewrite Q'. unfold present. destruct (lookup id t) as [s|] eqn:L; [|discriminate].
    destruct (s_pending s); [discriminate|]. intros [= <-]. exact (proj2 (lookup_some _ _ _ L)). }
  assert (NP : get_enr own t id <> Panic) by (unfold get_enr; destruct (_ =? _); [discriminate|]; destruct (present id t); discriminate).
  unfold lookup_enr. rewrite Q'.
  set (by_net := match max_seq (lookup_node own cached found t id) with
      | Some e => if (match get_enr own t id with Ok k => enr_seq k | _ => 0 end) <? enr_seq e then Ok e else get_enr own t id
      | None => get_enr own t id end).
  assert (B : forall e, by_net = Ok e ->
     (newest e (lookup_node own cached found t id) /\ (forall known, get_enr own t id = Ok known -> enr_seq known < enr_seq e)) \/
     (get_enr own t id = Ok e /\ forall x, In x (lookup_node own cached found t id) -> enr_seq x <= enr_seq e)).
  { intros e. unfold by_net. clear by_net. destruct (max_seq _) as [m|] eqn:M.
    - apply max_seq_newest in M. destruct (get_enr own t id) as [k| |] eqn:G; [| |congruence].
      + destruct (N.ltb_spec (enr_seq k) (enr_seq m)) as [H|H]; intros [= <-]; [left; split; [exact M|intros ? [= <-]; exact H]|].
        right. split; [reflexivity|]. intros x Hx. destruct M as [_ M]. specialize (M x Hx). lia.
      + destruct (0 <? enr_seq m); intros [= <-]. left. split; [exact M|discriminate].
    - apply max_seq_none in M. rewrite M. intros ->. right. split; [reflexivity|intros x []]. }
  assert (D : forall k, get_enr own t id = Ok k -> exists e, by_net = Ok e).
  { intros k G. unfold by_net. clear B by_net. rewrite G. destruct (max_seq _); [destruct (_ <? _)|]; eexists; reflexivity. }
  split; [|split; [|split]].
  - intros k es e G A Ne. rewrite G, A. destruct (max_seq es) as [m|] eqn:M; [|apply max_seq_none in M; contradiction].
    intros [= <-]. now apply max_seq_newest.
  - intros k G. split; [exact (K k G)|]. destruct (D k G) as [e He]. rewrite G.
    destruct (ask k [0]) as [es| |]; try (now exists e). destruct (max_seq es); [eexists; reflexivity|now exists e].
  - intros e. destruct (get_enr own t id) as [k| |] eqn:G.
    + destruct (ask k [0]) as [es| |] eqn:A; try (intros H; right; exact (B e H)).
      destruct (max_seq es) as [m|] eqn:M; [|intros H; right; exact (B e H)]. intros [= <-]. left. exists k, es. split; [reflexivity|]. split; [exact A|now apply max_seq_newest].
    + intros H. right. exact (B e H).
    + congruence.
  - split.
    + intros H. destruct (get_enr own t id) as [k| |] eqn:G; [|split; [reflexivity|]|congruence].
      * exfalso. destruct (D k eq_refl) as [e He]. rewrite He in H. destruct (ask k [0]) as [es| |]; try discriminate. destruct (max_seq es); discriminate.
      * unfold by_net in H. clear B D by_net. destruct (max_seq _) as [m|] eqn:M; [|apply max_seq_none in M; rewrite M; intros x []].
        destruct (N.ltb_spec 0 (enr_seq m)) as [X|X]; [discriminate|]. intros x Hx. apply max_seq_newest in M. destruct M as [_ M]. specialize (M x Hx). lia.
    + intros [G H]. rewrite G. unfold by_net. clear B D by_net. rewrite G. destruct (max_seq _) as [m|] eqn:M; [|reflexivity].
      apply max_seq_newest in M. destruct M as [I _]. rewrite (H m I). reflexivity.
Qed.
(** If the known node answers with its own records and the search returns records of the target
    only, the result is a record of the target. *)
Theorem C82_lookup_partial : forall t id e,
  (forall known es, get_enr own t id = Ok known -> ask known [0] = Ok es -> forall x, In x es -> enr_id x = id) ->
  (forall x, In x (found id) -> enr_id x = id) -> (forall x, cached id = Some x -> enr_id x = id) ->
  lookup_enr own cached found ask t id = Ok e -> enr_id e = id.
Proof.
  intros t id e Ha Hf Hc H. destruct (N.eq_dec id (enr_id own)) as [->|Q].
  - destruct (C82_own t) as (_ & _ & O). congruence.
  - destruct (C82_lookup t id Q) as (_ & K & W & _).
    destruct (W e H) as [(k & es & G & A & I & _)|[[[I _] _]|[G _]]]; [exact (Ha k es G A e I)| |exact (proj1 (K e G))].
    unfold lookup_node in I. apply N.eqb_neq in Q. rewrite Q in I. destruct (is_connected t id); [|exact (Hf e I)].
    destruct (cached id) as [x|] eqn:C; [|destruct I]. destruct I as [<-|[]]. exact (Hc x eq_refl).
Qed.
(** The record of another node is returned for every node that is not known and not found: the
    search returns the nodes it finds near the target, and the newest of their records is taken for
    the record of the target. *)
Theorem C82_other_node_refuted : forall t id, id <> enr_id own -> ~ In id (map s_id t) ->
  (exists x, In x (found id) /\ enr_seq x <> 0) -> (forall x, In x (found id) -> enr_id x <> id) ->
  exists e, lookup_enr own cached found ask t id = Ok e /\ enr_id e <> id.
Proof.
  intros t id Q Nt (x & Ix & Sx) O. assert (Q' := Q). apply N.eqb_neq in Q'.
  assert (L := proj2 (lookup_none id t) Nt).
  assert (G : get_enr own t id = Err) by (unfold get_enr, present; rewrite Q', L; reflexivity).
  assert (Ln : lookup_node own cached found t id = found id) by (unfold lookup_node, is_connected; rewrite Q', L; reflexivity).
  unfold lookup_enr. rewrite Q', G, Ln. destruct (max_seq (found id)) as [m|] eqn:M.
  - apply max_seq_newest in M. destruct M as [I M]. specialize (M x Ix). destruct (N.ltb_spec 0 (enr_seq m)) as [H|H]; [|lia].
    exists m. split; [reflexivity|exact (O m I)].
  - apply max_seq_none in M. rewrite M in Ix. destruct Ix.
Qed.
(** A node decides what is returned as its record: any record at all, also of another node and also
    an older one. *)
Theorem C82_answer_not_checked_refuted : forall t id known e, id <> enr_id own -> get_enr own t id = Ok known ->
  ask known [0] = Ok [e] -> lookup_enr own cached found ask t id = Ok e.
Proof. intros t id k e Q G A. apply N.eqb_neq in Q. unfold lookup_enr. rewrite Q, G, A. reflexivity. Qed.
(** A search for a connected node whose record is in the table returns nothing if the discovery
    layer does not know that record. *)
Theorem C82_search_connected_refuted : forall t id s, NoDup (map s_id t) -> id <> enr_id own -> In s t -> s_id s = id ->
  s_connected s = true -> s_pending s = false -> cached id = None ->
  get_enr own t id = Ok (n_enr (s_node s)) /\ lookup_node own cached found t id = [].
Proof.
  intros t id s Nd Q I <- C P H. apply N.eqb_neq in Q. unfold get_enr, lookup_node, is_connected, present.
  rewrite Q, (lookup_in t s Nd I), P, C, H. auto.
Qed.
End Records.
Print Assumptions C82_add.
Print Assumptions C82_added_not_found_refuted.
Print Assumptions C82_delete.
Print Assumptions C82_own.
Print Assumptions C82_lookup.
Print Assumptions C82_lookup_partial.
Print Assumptions C82_other_node_refuted.
Print Assumptions C82_answer_not_checked_refuted.
Print Assumptions C82_search_connected_refuted.

Definition rec (id seq : N) : enr := {| enr_id := id; enr_seq := seq; enr_rest := [] |}.
(** A table with one connected node, which has a newer record. *)
Example C82_example :
  let own := rec 1 1 in
  exists t, api_add_enr own [] (rec 7 3) Accepted = (t, true) /\ get_enr own t 7 = Ok (rec 7 3) /\
    lookup_enr own (fun _ => None) (fun _ => []) (fun _ _ => Ok [rec 7 4]) t 7 = Ok (rec 7 4) /\
    lookup_enr own (fun _ => Some (rec 7 5)) (fun _ => []) (fun _ _ => Err) t 7 = Ok (rec 7 5) /\
    lookup_enr own (fun _ => None) (fun _ => []) (fun _ _ => Err) t 7 = Ok (rec 7 3) /\
    lookup_enr own (fun _ => None) (fun _ => [rec 8 5; rec 9 2]) (fun _ _ => Err) t 6 = Ok (rec 8 5) /\
    api_delete_enr t 7 = ([], true).
Proof. eexists. repeat split; vm_compute; reflexivity. Qed.

(** ** C83: requests and their answers *)
Section Requests.
Context (enr_rlp : enr -> bytes) (dec_nodes dec_content : bytes -> outcome enr).

(** For every order in which requests are made and answers arrive: each request is either waiting
    for the answer of the node it was sent to, or over; when it is over, this has happened once,
    with the answer of that node to that request, and everything that happens is of this kind. *)
Theorem C83_answered_once : forall peer es st outs,
  (forall b, dec_nodes b <> Panic) -> (forall b, dec_content b <> Panic) ->
  NoDup (map a_id (submitted es)) ->
  run enr_rlp dec_nodes dec_content peer no_requests es = (st, outs) ->
  exists finished : list (active * list effect),
    Permutation (submitted es) (map fst finished ++ actives st) /\
    Permutation (talks st) (map (fun a => {| t_id := a_id a; t_dest := a_dest a; t_bytes := encode_message enr_rlp (request_message (a_request a)) |}) (actives st)) /\
    (forall a o, In (a, o) finished -> settles enr_rlp dec_nodes dec_content peer a o) /\
    outs = concat (map snd finished).
Proof.
  intros peer es st outs Hn Hc Nd R.
  destruct (run_settles enr_rlp dec_nodes dec_content peer Hn Hc es no_requests st outs Nd (Permutation_refl _) R) as (fin & P1 & P2 & P3 & P4).
  exists fin. split; [exact P1|]. split; [symmetry; exact P2|]. auto.
Qed.
(** In particular for one caller, who made one request: no answer while the request is under way,
    then exactly one, which is the answer to this request. *)
Theorem C83_own_answer : forall peer es st outs c id dest r,
  (forall b, dec_nodes b <> Panic) -> (forall b, dec_content b <> Panic) ->
  NoDup (map a_id (submitted es)) -> run enr_rlp dec_nodes dec_content peer no_requests es = (st, outs) ->
  In (Submit (Some c) id dest r) es -> (forall id' dest' r', In (Submit (Some c) id' dest' r') es -> id' = id) ->
  let answers := flat_map (fun e => match e with Answer c' x => if c' =? c then [x] else [] | _ => [] end) outs in
  (In {| t_id := id; t_dest := dest; t_bytes := encode_message enr_rlp (request_message r) |} (talks st) /\ answers = []) \/
  (exists x, answers = [x] /\
     match peer id dest (encode_message enr_rlp (request_message r)) with
     | Some b => forall m, x = Ok m <-> (decode_message dec_nodes dec_content b = Ok m /\ is_response m = true)
     | None => x = Err
     end).
Proof.
  intros peer es st outs c id dest r Hn Hc Nd R I U answers.
  destruct (C83_answered_once peer es st outs Hn Hc Nd R) as (fin & P1 & P2 & P3 & P4).
  set (a := {| a_id := id; a_dest := dest; a_caller := Some c; a_request := r |}).
  assert (Sub : forall es x, In x (submitted es) <-> In (Submit (a_caller x) (a_id x) (a_dest x) (a_request x)) es).
  { clear. induction es as [|e es IH]; intros x; cbn [submitted]; [reflexivity|]. destruct e as [c id dest r|i]; cbn [In]; rewrite IH; [|split; [auto|intros [H|H]; [discriminate|exact H]]].
    split; (intros [H|H]; [left|right; exact H]); [subst x; reflexivity|]. destruct x; cbn in H; congruence. }
  assert (Ia : In a (submitted es)) by (apply Sub; exact I).
  (* requests of other callers leave no answer for c *)
  assert (Single : forall x, In x (submitted es) -> a_caller x = Some c -> x = a).
  { intros x Hx Cx. assert (Ex : a_id x = id) by (apply Sub in Hx; rewrite Cx in Hx; exact (U _ _ _ Hx)).
    clear - Nd Hx Ia Ex. revert Nd Hx Ia. generalize (submitted es). intros l Nd Hx Ia. change id with (a_id a) in Ex.
    induction l as [|y l IH]; [destruct Hx|]. cbn [map] in Nd. inversion Nd as [|u v Hu Hv]; subst.
    destruct Hx as [->|Hx], Ia as [->|Ia]; [reflexivity| | |exact (IH Hv Hx Ia)];
      exfalso; apply Hu; [rewrite Ex|rewrite <- Ex]; now apply in_map. }
  set (pick := fun e => match e with Answer c' x => if c' =? c then [x] else [] | _ => [] end) in *.
  assert (Nf : NoDup (map a_id (map fst fin ++ actives st))) by (eapply Permutation_NoDup; [apply Permutation_map, P1|exact Nd]).
  assert (Other : forall x o, settles enr_rlp dec_nodes dec_content peer x o -> a_caller x <> Some c -> flat_map pick o = []).
  { intros x o S Cx. unfold settles in S. cbv zeta in S.
    assert (Z : forall r, flat_map pick (match a_caller x with Some c => [Answer c r] | None => [] end) = []).
    { intros r0. destruct (a_caller x) as [c'|]; [|reflexivity]. cbn. destruct (N.eqb_spec c' c) as [->|_]; [congruence|reflexivity]. }
    destruct S as [(b & m & _ & _ & ->)|[_ ->]]; rewrite flat_map_app, Z; reflexivity. }
  assert (Ans : answers = flat_map (fun p => flat_map pick (snd p)) fin).
  { unfold answers. rewrite P4. clear. induction fin as [|p fin IH]; [reflexivity|]. cbn [map concat flat_map]. rewrite flat_map_app, IH. reflexivity. }
  assert (Ia' : In a (map fst fin ++ actives st)) by (eapply Permutation_in; [exact P1|exact Ia]).
  assert (Sb : forall x, In x (map fst fin) -> In x (submitted es)).
  { intros x Hx. eapply Permutation_in; [symmetry; exact P1|]. apply in_or_app. now left. }
  apply in_app_or in Ia' as [Ia'|Ia'].
  - right. apply in_map_iff in Ia' as ([a' o] & Ea & If). cbn [fst] in Ea. subst a'.
    assert (X : answers = flat_map pick o).
    { rewrite Ans. apply in_split in If as (l1 & l2 & Ef).
      assert (Rest : forall p, In p (l1 ++ l2) -> flat_map pick (snd p) = []).
      { intros [x ox] Hp. apply (Other x).
        - apply P3. rewrite Ef. apply in_app_or in Hp. apply in_or_app. cbn [In]. tauto.
        - intros Cx. assert (x = a).
          { apply Single; [|exact Cx]. apply Sb, in_map_iff. exists (x, ox). split; [reflexivity|]. rewrite Ef. apply in_app_or in Hp. apply in_or_app. cbn [In]. tauto. }
          subst x. rewrite Ef in Nf. rewrite !map_app in Nf. cbn [map] in Nf. rewrite <- app_assoc in Nf. cbn [app] in Nf. apply NoDup_remove_2 in Nf. apply Nf.
          cbn [fst]. apply in_or_app. apply in_app_or in Hp as [Hp|Hp]; [left|right; apply in_or_app; left]; apply in_map_iff; exists a; (split; [reflexivity|]); apply in_map_iff; exists (a, ox); auto. }
      rewrite Ef, flat_map_app. cbn [flat_map snd].
      assert (Em : forall l, (forall p, In p l -> flat_map pick (snd p) = []) -> flat_map (fun p : active * list effect => flat_map pick (snd p)) l = []).
      { clear. induction l as [|p l IH]; intros H; [reflexivity|]. cbn [flat_map]. rewrite (H p (or_introl eq_refl)). apply IH. intros q Hq. apply H. now right. }
      rewrite (Em l1), (Em l2), app_nil_r; [reflexivity| |]; intros p Hp; apply Rest, in_or_app; [now right|now left]. }
    pose proof (P3 a o If) as S. unfold settles in S. cbn [a a_id a_dest a_request a_caller] in S. cbv zeta in S.
    destruct S as [(b & m & -> & [D Rm] & ->)|[Nr ->]]; cbn [app flat_map pick] in X; rewrite N.eqb_refl in X; cbn [app] in X.
    + exists (Ok m). split; [exact X|]. intros m'. split; [intros [= <-]; auto|]. intros [D' _]. congruence.
    + exists Err. split; [exact X|]. destruct (peer id dest _) as [b|]; [|reflexivity].
      intros m. split; [discriminate|]. intros Hm. exfalso. exact (Nr b m eq_refl Hm).
  - left. split.
    + eapply Permutation_in; [symmetry; exact P2|]. apply in_map_iff. exists a. auto.
    + rewrite Ans. assert (Em : forall l, (forall p, In p l -> flat_map pick (snd p) = []) -> flat_map (fun p : active * list effect => flat_map pick (snd p)) l = []).
      { clear. induction l as [|p l IH]; intros H; [reflexivity|]. cbn [flat_map]. rewrite (H p (or_introl eq_refl)). apply IH. intros q Hq. apply H. now right. }
      apply Em. intros [x ox] Hp. apply (Other x); [exact (P3 x ox Hp)|]. intros Cx.
      assert (x = a) by (apply Single; [apply Sb, in_map_iff; exists (x, ox); auto|exact Cx]). subst x.
      rewrite map_app in Nf. clear - Nf Ia' Hp.
      assert (I1 : In (a_id a) (map a_id (map fst fin))) by (apply in_map, in_map_iff; exists (a, ox); auto).
      assert (I2 : In (a_id a) (map a_id (actives st))) by now apply in_map.
      revert Nf I1 I2. generalize (map a_id (map fst fin)) (map a_id (actives st)). induction l as [|y l IH]; intros l2 Nf I1 I2; [destruct I1|].
      cbn [app] in Nf. inversion Nf as [|u v Hu Hv]; subst. destruct I1 as [->|I1]; [apply Hu, in_or_app; now right|exact (IH l2 Hv I1 I2)].
Qed.
(** When every task is over nobody waits, so everybody has been answered. *)
Theorem C83_all_answered : forall peer es st outs,
  (forall b, dec_nodes b <> Panic) -> (forall b, dec_content b <> Panic) ->
  NoDup (map a_id (submitted es)) -> run enr_rlp dec_nodes dec_content peer no_requests es = (st, outs) -> talks st = [] ->
  actives st = [] /\ forall c id dest r, In (Submit (Some c) id dest r) es -> exists x, In (Answer c x) outs.
Proof.
  intros peer es st outs Hn Hc Nd R T. destruct (C83_answered_once peer es st outs Hn Hc Nd R) as (fin & P1 & P2 & P3 & P4).
  assert (A : actives st = []) by (rewrite T in P2; apply Permutation_nil in P2; now apply map_eq_nil in P2).
  split; [exact A|]. intros c id dest r I. rewrite A, app_nil_r in P1.
  set (a := {| a_id := id; a_dest := dest; a_caller := Some c; a_request := r |}).
  assert (Ia : In a (submitted es)).
  { clear - I. induction es as [|e es IH]; [destruct I|]. destruct I as [->|I]; [left; reflexivity|]. destruct e; [right|]; exact (IH I). }
  apply (Permutation_in _ P1) in Ia. apply in_map_iff in Ia as ([a' o] & Ea & If). cbn [fst] in Ea. subst a'.
  pose proof (P3 a o If) as S. assert (X : exists x, In (Answer c x) o).
  { destruct S as [(b & m & _ & _ & ->)|[_ ->]]; eexists; left; reflexivity. }
  destruct X as [x X]. exists x. rewrite P4. apply in_concat. exists o. split; [|exact X]. apply in_map_iff. exists (a, o). auto.
Qed.

(** *** Which requests are sent *)
(** A request for nodes goes out, unchanged, exactly if the distances are in order. *)
Theorem C83_find_nodes : forall ask ds,
  (valid_distances ds -> forall es, send_find_nodes ask ds = Ok es <-> exists total, ask (RFindNodes ds) = Ok (Nodes total es)) /\
  (~ valid_distances ds -> send_find_nodes ask ds = Err) /\
  (valid_distances ds -> decode_message dec_nodes dec_content (encode_message enr_rlp (request_message (RFindNodes ds))) = Ok (FindNodes ds) /\
     blen (encode_message enr_rlp (request_message (RFindNodes ds))) <= packet_room).
Proof.
  intros ask ds. pose proof (distances_iff ds) as D. unfold send_find_nodes. split; [|split].
  - intros V es. apply D in V. rewrite V. destruct (ask (RFindNodes ds)) as [m| |]; cbn [obind].
    + destruct m; (split; [try discriminate|intros (t & H); try discriminate; congruence]). intros [= <-]. eexists. reflexivity.
    + split; [discriminate|intros (t & H); discriminate].
    + split; [discriminate|intros (t & H); discriminate].
  - intros V. destruct (validate_find_nodes_distances ds); [exfalso; apply V, D; reflexivity|reflexivity].
  - intros (_ & L & B & _). cbn [request_message].
    assert (X : blen (encode_message enr_rlp (FindNodes ds)) <= packet_room).
    { unfold encode_message. cbn [encode_body]. rewrite blen_cons, Ssz_Proofs.encode_container_len. cbn [Ssz_Model.heads_len Ssz_Model.part_head_len Ssz_Model.tails].
      rewrite app_nil_r. assert (Y : blen (concat (map (le_bytes 2) ds)) = 2 * blen ds).
      { clear. induction ds as [|d ds IH]; [reflexivity|]. cbn [map concat]. rewrite blen_app, IH, blen_cons. unfold blen at 1. rewrite le_bytes_length. lia. }
      rewrite Y. unfold packet_room. lia. }
    split; [|exact X]. apply C07_message_round_trip; [|unfold packet_room in X; lia|intros e []].
    cbn [message_ok]. apply Forall_forall. intros d Hd. specialize (B d Hd). lia.
Qed.
(** A ping carries a payload of the type asked for (capabilities if none is), the one given or the
    node's own; it can be read by the other side.  It is refused if a payload is given without or
    with another type, or if there is no default payload of the type. *)
Theorem C83_ping : forall ask me t x, sound me -> (forall v, x = Some v -> value_ok v) ->
  (~ ping_allowed t x -> send_ping ask me t x = Err) /\
  (ping_allowed t x -> exists v,
     extension_type v = match t with Some t' => t' | None => Capabilities end /\
     match x with
     | Some v' => v = v'
     | None => v = match t with
                   | Some BasicRadius => EBasicRadius (me_radius me)
                   | Some HistoryRadius => EHistoryRadius (me_radius me) 0
                   | _ => ECapabilities (Some (me_info me)) (me_radius me) (supported (me_net me)) end
     end /\
     let request := RPing (me_seq me) (extension_type v) (payload_of v) in
     decode_message dec_nodes dec_content (encode_message enr_rlp (request_message request)) = Ok (Ping (me_seq me) (extension_type v) (payload_of v)) /\
     decode_extension (extension_type v) (payload_of v) = Ok v /\
     forall m, send_ping ask me t x = Ok m <-> (ask request = Ok m /\ exists s t' p, m = Pong s t' p)).
Proof.
  intros ask me t x So Vx.
  assert (Eqv : forall a b, same_ext a b = true <-> a = b).
  { intros a b. destruct a, b; cbn; split; intros H; try discriminate; try reflexivity; [apply N.eqb_eq in H; now subst|injection H as ->; apply N.eqb_refl]. }
  split.
  - assert (Mis : forall t' v, extension_type v <> t' -> send_ping ask me (Some t') (Some v) = Err).
    { intros t' v H. unfold send_ping, ping_request. destruct (same_ext t' (extension_type v)) eqn:Q; [|reflexivity]. apply Eqv in Q. congruence. }
    destruct t as [[| | | |n]|], x as [v|]; cbn [ping_allowed]; intros H; try reflexivity; try (exfalso; exact (H Logic.I)); apply Mis; congruence.
  - intros Al.
    assert (Cap : create_capabilities me = ECapabilities (Some (me_info me)) (me_radius me) (supported (me_net me))).
    { unfold create_capabilities. rewrite firstn_all2; [reflexivity|]. destruct (me_net me); cbn; lia. }
    pose proof (own_ok me So) as Oc. rewrite Cap in Oc. destruct So as (_ & _ & Ra & Sq).
    assert (Fin : forall v, value_ok v -> ping_request me t x = Ok (RPing (me_seq me) (extension_type v) (payload_of v)) ->
      let request := RPing (me_seq me) (extension_type v) (payload_of v) in
      decode_message dec_nodes dec_content (encode_message enr_rlp (request_message request)) = Ok (Ping (me_seq me) (extension_type v) (payload_of v)) /\
      decode_extension (extension_type v) (payload_of v) = Ok v /\
      forall m, send_ping ask me t x = Ok m <-> (ask request = Ok m /\ exists s t' p, m = Pong s t' p)).
    { intros v Vv Pr request. split; [|split; [apply C78_round_trip, Vv|]].
      - apply (read_message enr_rlp dec_nodes dec_content (@Ping enr) (me_seq me) v (or_introl eq_refl) Sq Vv).
      - intros m. unfold send_ping. rewrite Pr. cbn [obind]. fold request. destruct (ask request) as [m'| |]; cbn [obind].
        + split; [intros H; destruct m'; try discriminate; injection H as <-; split; [reflexivity|]; do 3 eexists; reflexivity|].
          intros [[= ->] (s & t' & p & ->)]. reflexivity.
        + split; [discriminate|intros [H _]; discriminate].
        + split; [discriminate|intros [H _]; discriminate]. }
    destruct x as [w|].
    + assert (T : t = Some (extension_type w)) by (destruct t as [[| | | |n]|]; cbn [ping_allowed] in Al; congruence). subst t.
      exists w. split; [reflexivity|]. split; [reflexivity|]. apply Fin; [exact (Vx w eq_refl)|]. unfold ping_request.
      rewrite (proj2 (Eqv _ _) eq_refl). reflexivity.
    + destruct t as [[| | | |n]|]; cbn [ping_allowed] in Al; try (now destruct Al); eexists; (split; [|split; [reflexivity|apply Fin]]); try reflexivity;
        try exact Oc; try exact Ra; try (unfold ping_request; cbn [default_ping_extension omap]; rewrite ?Cap; reflexivity).
      split; [exact Ra|reflexivity].
Qed.
(** A ping with an error in it, which only an answer may carry, is sent if the user supplies it. *)
Theorem C83_error_ping_refuted : forall ask me c text, sound me ->
  send_ping ask me (Some ErrorExt) None = Err /\
  send_ping ask me (Some ErrorExt) (Some (EError c text))
    = obind (ask (RPing (me_seq me) ErrorExt (payload_of (EError c text)))) (fun m => match m with Pong _ _ _ => Ok m | _ => Err end).
Proof. intros. split; reflexivity. Qed.

(** *** Content *)
(** Content is returned only after it was found valid for the key that was asked for.  It is what the
    node sent along, or what it sent over a stream with the announced number; in the newer versions
    of the protocol the stream has exactly this one item. *)
Theorem C83_found_content_valid : forall ask version parse validate stream key c utp,
  (forall conn b, stream conn = Ok b -> bytes_ok b) ->
  send_find_content ask version parse validate stream key = Ok (ContentBytes c, utp) ->
  exists k v, version = Version v /\ parse key = Some k /\ validate k c = true /\
    if utp then
      exists id b, ask (RFindContent key) = Ok (Content (ConnectionId id)) /\
        stream {| c_send := ((id mod 256 * 256 + id / 256) + 1) mod 65536; c_recv := id mod 256 * 256 + id / 256 |} = Ok b /\
        (if is_v1_enabled v then Payload_Spec.payload_of [c] b else b = c)
    else ask (RFindContent key) = Ok (Content (ContentBytes c)).
Proof.
  intros ask version parse validate stream key c utp Hb H. unfold send_find_content in H.
  destruct version as [v| |]; try discriminate. destruct (parse key) as [k|] eqn:P; [|discriminate].
  apply Keys_Props.obind_ok in H as (m & A & H). exists k, v. split; [reflexivity|]. split; [reflexivity|].
  destruct m as [| | | | |[id|b|es]| |]; try discriminate.
  - apply Keys_Props.obind_ok in H as (b & Sb & H). apply Keys_Props.obind_ok in H as (c' & Dc & H).
    destruct (validate k c') eqn:V; [|discriminate]. assert (c' = c) by congruence. assert (utp = true) by congruence. subst c' utp. split; [exact V|].
    exists id, b. split; [exact A|]. split; [exact Sb|]. destruct (is_v1_enabled v); [|congruence].
    apply Payload_Proofs.decode_single_iff; [exact (Hb _ _ Sb)|exact Dc].
  - destruct (validate k b) eqn:V; [|discriminate]. assert (b = c) by congruence. assert (utp = false) by congruence. subst b utp. auto.
Qed.
(** And it arrives: whatever another node of the same version serves for the key is returned, if it
    is valid and the stream delivers what was written to it. *)
Theorem C83_found_content_arrives : forall ask v parse validate stream key k get content r,
  get k = Ok (Some content) -> bytes_ok content -> blen content < 2 ^ 32 -> r < 65536 -> parse key = Some k -> validate k content = true ->
  (forall reply, handle_find_content get true (Some (Version v)) r k = Ok reply ->
     match reply with
     | ReplyContent x => ask (RFindContent key) = Ok (Content (ContentBytes x))
     | ReplyConnection id cid payload =>
         ask (RFindContent key) = Ok (Content (ConnectionId id)) /\
         (forall conn, c_send conn = c_recv cid -> c_recv conn = c_send cid -> stream conn = Ok payload)
     | ReplyEnrs => True
     end) ->
  exists utp, send_find_content ask (Version v) parse validate stream key = Ok (ContentBytes content, utp) /\ (utp = true <-> 1165 < blen content).
Proof.
  intros ask v parse validate stream key k get content r G B L R P V H.
  destruct (OfferAccept_Props.C59_found_content_delivered get v r k content G B ltac:(unfold u32_max; lia) R) as (reply & Hr & Q).
  specialize (H reply Hr). unfold send_find_content. rewrite P. destruct reply as [x|id cid payload|]; [| |destruct Q].
  - destruct Q as [-> Ls]. rewrite H. cbn [obind]. rewrite V. eexists. split; [reflexivity|]. split; [discriminate|lia].
  - destruct Q as (Ls & D & S1 & S2). destruct H as [A St]. rewrite A. cbn [obind]. rewrite (St _ S1 S2). cbn [obind].
    unfold receive_found_content in D. rewrite D. cbn [obind]. rewrite V. eexists. split; [reflexivity|]. split; [auto|reflexivity].
Qed.
(** Nothing is asked of a node without a common version of the protocol, or for a key that is none. *)
Theorem C83_find_content_refused : forall ask version parse validate stream key,
  (forall v, version <> Version v) \/ parse key = None -> send_find_content ask version parse validate stream key = Err.
Proof.
  intros ask version parse validate stream key [H|H]; unfold send_find_content; destruct version as [v| |]; try reflexivity; [now destruct (H v)|now rewrite H].
Qed.

(** *** Offers *)
(** What is sent for a request for content or an offer, with or without the values: the key, or the
    keys of the items in their order, which the other node reads back. *)
Theorem C83_sent_keys : forall key keys items flag,
  (blen key < 2 ^ 31 -> decode_message dec_nodes dec_content (encode_message enr_rlp (request_message (RFindContent key))) = Ok (FindContent key)) /\
  (Wire_Spec.message_ok (Offer (E := enr) keys) -> blen (encode_message enr_rlp (Offer keys)) < 2 ^ 32 ->
     decode_message dec_nodes dec_content (encode_message enr_rlp (request_message (ROffer keys))) = Ok (Offer keys)) /\
  (forall ks vs, items = combine ks vs -> length ks = length vs ->
     encode_message enr_rlp (request_message (RPopulatedOffer items flag)) = encode_message enr_rlp (request_message (ROffer ks))).
Proof.
  intros key keys items flag. split; [|split].
  - intros L. apply C07_message_round_trip; [exact Logic.I| |intros e []]. unfold encode_message. cbn [request_message encode_body].
    rewrite blen_cons, Ssz_Proofs.encode_container_len. cbn [Ssz_Model.heads_len Ssz_Model.part_head_len Ssz_Model.tails]. rewrite ?app_nil_r. lia.
  - intros O L. apply C07_message_round_trip; [exact O|exact L|intros e []].
  - intros ks vs -> Lk. cbn [request_message]. f_equal. f_equal. revert vs Lk. induction ks as [|k ks IH]; intros [|v vs] Lk; try discriminate; [reflexivity|].
    cbn [combine map fst]. f_equal. apply IH. now injection Lk.
Qed.
(** An offer of one item: if the code "accepted" is reported then the value has been written, as the
    only item, to the stream the other node announced; "failed" is reported only after such a node
    accepted; any other code is what the other node answered, and nothing is sent. *)
Theorem C83_offer_trace : forall ask version transfer key value result,
  bytes_ok value ->
  send_offer_trace ask version transfer key value = Ok result ->
  exists v id raw, version = Version v /\ ask (RPopulatedOffer [(key, value)] true) = Ok (Accept id raw) /\
    match result with
    | Some c => accept_list_decode v raw = Ok [c] /\
        (c = AcceptCodes_Model.Accepted -> exists payload, Payload_Spec.payload_of [value] payload /\
           transfer {| c_send := ((id mod 256 * 256 + id / 256) + 1) mod 65536; c_recv := id mod 256 * 256 + id / 256 |} payload = true)
    | None => exists codes, accept_list_decode v raw = Ok codes /\ In AcceptCodes_Model.Accepted codes
    end.
Proof.
  intros ask version transfer key value result Bv H. unfold send_offer_trace in H. apply Keys_Props.obind_ok in H as (t & T & H).
  unfold send_offer_trace_items in T. apply Keys_Props.obind_ok in T as (m & A & T). destruct m as [| | | | | | |id raw]; try discriminate.
  unfold accept_result in T. destruct version as [v| |]; try discriminate. exists v, id, raw. split; [reflexivity|]. split; [exact A|].
  destruct (accept_list_decode v raw) as [codes| |] eqn:D; try discriminate.
  assert (Acc : all_declined codes = false -> In AcceptCodes_Model.Accepted codes).
  { unfold all_declined. rewrite Bool.negb_false_iff. intros X. apply existsb_exists in X as (c & I & Q). destruct c; try discriminate Q. exact I. }
  destruct (all_declined codes) eqn:Al.
  - injection T as <-. destruct codes as [|c [|c2 codes]]; try discriminate. injection H as <-. split; [reflexivity|].
    intros ->. unfold all_declined in Al. cbn in Al. discriminate.
  - destruct (encode_content_payload _) as [payload| |] eqn:En.
    + destruct (transfer _ payload) eqn:Tr; injection T as <-.
      * destruct codes as [|c [|c2 codes]]; try discriminate. injection H as <-. split; [reflexivity|]. intros ->.
        exists payload. split; [|exact Tr]. unfold accepted_items in En. cbn [combine filter fst snd map] in En. change (code_eqb AcceptCodes_Model.Accepted AcceptCodes_Model.Accepted) with true in En. cbn [map snd] in En.
        assert (Lv : blen value <= u32_max).
        { destruct (N.le_gt_cases (blen value) u32_max) as [X|X]; [exact X|]. destruct (Payload_Proofs.encode_payload_fails [value]) as [_ F].
          assert (encode_content_payload [value] = Err) by (apply F; left; exact X). congruence. }
        destruct (Payload_Proofs.payload_round_trip [value]) as (bs & E1 & B1 & D1).
        { repeat (apply Forall_cons || apply Forall_nil). split; assumption. }
        assert (bs = payload) by congruence. subst bs. apply Payload_Proofs.decode_payload_iff; assumption.
      * injection H as <-. exists codes. split; [reflexivity|exact (Acc eq_refl)].
    + injection T as <-. injection H as <-. exists codes. split; [reflexivity|exact (Acc eq_refl)].
    + injection T as <-. injection H as <-. exists codes. split; [reflexivity|exact (Acc eq_refl)].
Qed.
(** The codes returned for an offer of several items are those the other node sent, however many: the
    number of codes need not be the number of items. *)
Theorem C83_offer_codes_refuted : forall items codes, Forall (fun c => c < 256) codes -> blen codes <= 64 ->
  exists ask l, send_offer ask (Version V1) items = Ok l /\ length l = length codes /\
    send_offer_trace_items ask (Version V1) (fun _ _ => true) items <> Err.
Proof.
  intros items codes F L. exists (fun r => Ok (Accept 0 codes)), (map code_of_u8 codes).
  assert (D : accept_list_decode V1 codes = Ok (map code_of_u8 codes)).
  { unfold accept_list_decode. cbn. apply N.ltb_ge in L. rewrite L. reflexivity. }
  split; [cbn [send_offer obind]; exact D|]. split; [apply map_length|].
  unfold send_offer_trace_items. cbn [obind]. unfold accept_result. rewrite D. destruct (all_declined _); [discriminate|]. destruct (encode_content_payload _); discriminate.
Qed.
End Requests.
Print Assumptions C83_answered_once.
Print Assumptions C83_own_answer.
Print Assumptions C83_all_answered.
Print Assumptions C83_find_nodes.
Print Assumptions C83_ping.
Print Assumptions C83_error_ping_refuted.
Print Assumptions C83_found_content_valid.
Print Assumptions C83_found_content_arrives.
Print Assumptions C83_find_content_refused.
Print Assumptions C83_sent_keys.
Print Assumptions C83_offer_trace.
Print Assumptions C83_offer_codes_refuted.

(** Two requests to different nodes; the answer to the second arrives first.  The first node answers
    with a request, which counts as no answer. *)
Example C83_example :
  let peer := fun (id : N) (dest : enr) (b : bytes) =>
    if enr_id dest =? 7 then Some (encode_message (fun _ : enr => []) (FindContent [1])) else Some (encode_message (fun _ : enr => []) (Nodes 1 [])) in
  let es := [Submit (Some 1) 100 (rec 7 1) (RFindNodes [0]); Submit (Some 2) 200 (rec 8 1) (RFindNodes [256; 255]); Finish 1; Finish 0] in
  run (fun _ => []) (fun _ => Err) (fun _ => Err) peer no_requests es =
    (no_requests, [Answer 2 (Ok (Nodes 1 [])); Processed (rec 8 1) (RFindNodes [256; 255]) (Nodes 1 []); Answer 1 Err; Failed (rec 7 1)]) /\
  NoDup (map a_id (submitted es)).
Proof. split; [vm_compute; reflexivity|]. cbn. repeat constructor; cbn; intuition discriminate. Qed.
Example C83_distances_examples : valid_distances [256; 255; 0] /\ ~ valid_distances [] /\ ~ valid_distances [257] /\ ~ valid_distances [3; 3].
Proof.
  repeat split.
  - discriminate.
  - vm_compute. discriminate.
  - cbn. intros d. intuition (subst; lia).
  - repeat constructor; cbn; intuition discriminate.
  - intros (H & _). congruence.
  - intros (_ & _ & H & _). specialize (H 257 (or_introl eq_refl)). lia.
  - intros (_ & _ & _ & H). inversion H as [|x l Hx]; subst. apply Hx. now left.
Qed.
(** Content served over a stream in the newest version. *)
Example C83_content_example :
  encode_content_payload [[5; 6; 7]] = Ok [3; 5; 6; 7] /\
  send_find_content (fun _ => Ok (Content (ConnectionId 513))) (Version V1) Some (fun k c => beqb k [9])
    (fun c => if c_recv c =? 258 then Ok [3; 5; 6; 7] else Err) [9] = Ok (ContentBytes [5; 6; 7], true).
Proof. split; vm_compute; reflexivity. Qed.
