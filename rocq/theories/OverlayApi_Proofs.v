(** Lemmas about the calls of an overlay network. *)
From Verif Require Import Base.
From Verif Require Import Payload_Model AcceptCodes_Model Wire_Model KBucket_Model OfferAccept_Model Ping_Model OverlayApi_Model OverlayApi_Spec.
From Verif Require Import Wire_Props.

Lemma nodup_len (l : list N) : (length (nodup N.eq_dec l) <= length l)%nat.
Proof. induction l as [|x l IH]; cbn; [lia|]. destruct (in_dec _ _ _); cbn; lia. Qed.
Lemma nodup_len_iff (l : list N) : length (nodup N.eq_dec l) = length l <-> NoDup l.
Proof.
  split; [|intros H; now rewrite nodup_fixed_point].
  induction l as [|x l IH]; cbn; [constructor|]. pose proof (nodup_len l) as L.
  destruct (in_dec N.eq_dec x l) as [I|I]; cbn; intros H; [lia|]. constructor; [exact I|apply IH; lia].
Qed.
Lemma distances_iff ds : validate_find_nodes_distances ds = true <-> valid_distances ds.
Proof.
  unfold validate_find_nodes_distances, valid_distances. rewrite !Bool.andb_true_iff, !Bool.negb_true_iff, N.eqb_neq, N.leb_le, N.eqb_eq.
  assert (A : blen ds <> 0 <-> ds <> []) by (destruct ds; [rewrite blen_nil|rewrite blen_cons]; split; intros H; try easy; lia).
  assert (B : existsb (fun d => 256 <? d) ds = false <-> forall d, In d ds -> d <= 256).
  { split.
    - intros H d I. destruct (256 <? d) eqn:Q; [|apply N.ltb_ge in Q; exact Q].
      assert (X : existsb (fun d => 256 <? d) ds = true) by (apply existsb_exists; exists d; split; assumption). congruence.
    - intros H. destruct (existsb _ ds) eqn:Q; [|reflexivity]. apply existsb_exists in Q as (d & I & Q). apply N.ltb_lt in Q. specialize (H d I). lia. }
  assert (C : blen (nodup N.eq_dec ds) = blen ds <-> NoDup ds).
  { unfold blen. rewrite <- nodup_len_iff. split; intros H; [apply Nnat.Nat2N.inj, H|now rewrite H]. }
  rewrite A, B, C. tauto.
Qed.

Lemma filter_none {A} (p : A -> bool) l : (forall x, In x l -> p x = false) -> filter p l = [].
Proof. induction l as [|x l IH]; cbn; intros H; [reflexivity|]. rewrite (H x (or_introl eq_refl)). apply IH. intros y Hy. apply H. now right. Qed.
Lemma filter_every {A} (p : A -> bool) l : (forall x, In x l -> p x = true) -> filter p l = l.
Proof. induction l as [|x l IH]; cbn; intros H; [reflexivity|]. rewrite (H x (or_introl eq_refl)). f_equal. apply IH. intros y Hy. apply H. now right. Qed.
Lemma drop_one l a : NoDup (map a_id l) -> In a l ->
  find (fun x => a_id x =? a_id a) l = Some a /\ Permutation l (a :: filter (fun x => negb (a_id x =? a_id a)) l).
Proof.
  induction l as [|b l IH]; intros Nd I; [destruct I|]. cbn [map] in Nd. inversion Nd as [|x y Hx Hy]; subst. cbn [find filter].
  destruct I as [->|I].
  - rewrite N.eqb_refl. cbn [negb]. split; [reflexivity|]. rewrite filter_every; [apply Permutation_refl|].
    intros z Hz. apply Bool.negb_true_iff, N.eqb_neq. intros Q. apply Hx. rewrite <- Q. now apply in_map.
  - destruct (N.eqb_spec (a_id b) (a_id a)) as [Q|Q]; [exfalso; apply Hx; rewrite Q; now apply in_map|]. cbn [negb].
    destruct (IH Hy I) as [F P]. split; [exact F|]. etransitivity; [apply perm_skip, P|apply perm_swap].
Qed.
Lemma nth_split_perm {A} (l : list A) i x : nth_error l i = Some x -> Permutation l (x :: firstn i l ++ skipn (S i) l).
Proof.
  revert i; induction l as [|y l IH]; intros [|i] H; cbn in H; try discriminate.
  - injection H as ->. reflexivity.
  - cbn [firstn skipn app]. etransitivity; [apply perm_skip, (IH i H)|apply perm_swap].
Qed.

Lemma nodup_left {A} (l r : list A) : NoDup (l ++ r) -> NoDup l.
Proof.
  induction l as [|x l IH]; cbn; intros H; [constructor|]. inversion H as [|y z Hy Hz]; subst. constructor; [|apply IH, Hz].
  intros I. apply Hy, in_or_app. now left.
Qed.

Section Requests.
Context (enr_rlp : enr -> bytes) (dec_nodes dec_content : bytes -> outcome enr) (peer : N -> enr -> bytes -> option bytes).
Hypothesis dn_total : forall b, dec_nodes b <> Panic.
Hypothesis dc_total : forall b, dec_content b <> Panic.
Definition talk_of (a : active) : talk :=
  {| t_id := a_id a; t_dest := a_dest a; t_bytes := encode_message enr_rlp (request_message (a_request a)) |}.

Lemma settle_finish a st o : find (fun x => a_id x =? a_id a) (actives st) = Some a ->
  o = snd (finish dec_nodes dec_content st (talk_of a) (peer (t_id (talk_of a)) (t_dest (talk_of a)) (t_bytes (talk_of a)))) ->
  settles enr_rlp dec_nodes dec_content peer a o.
Proof.
  intros F ->. unfold finish. cbn [t_id t_dest t_bytes talk_of]. rewrite F. cbn [snd]. unfold settles. cbv zeta.
  destruct (peer (a_id a) (a_dest a) _) as [b|] eqn:P; cbn [response_of].
  - pose proof (C08_decode_total _ dec_nodes dec_content b dn_total dc_total) as T. unfold reads_as.
    destruct (decode_message dec_nodes dec_content b) as [m| |] eqn:D; cbn [obind]; [|right|congruence].
    + destruct (is_response m) eqn:R.
      * left. exists b, m. auto.
      * right. split; [|reflexivity]. intros b' m' [= <-] [D' R']. congruence.
    + split; [|reflexivity]. intros b' m' [= <-] [D' R']. congruence.
  - right. split; [discriminate|reflexivity].
Qed.

Lemma run_settles es : forall st st' outs,
  NoDup (map a_id (actives st ++ submitted es)) -> Permutation (map talk_of (actives st)) (talks st) ->
  run enr_rlp dec_nodes dec_content peer st es = (st', outs) ->
  exists finished : list (active * list effect),
    Permutation (actives st ++ submitted es) (map fst finished ++ actives st') /\
    Permutation (map talk_of (actives st')) (talks st') /\
    (forall a o, In (a, o) finished -> settles enr_rlp dec_nodes dec_content peer a o) /\
    outs = concat (map snd finished).
Proof.
  induction es as [|e es IH]; intros st st' outs Nd Pt R; cbn [run] in R.
  - injection R as <- <-. exists []. cbn. rewrite app_nil_r. repeat split; auto. intros a o [].
  - destruct (step _ _ _ peer st e) as [st1 o1] eqn:S1. destruct (run _ _ _ peer st1 es) as [st2 o2] eqn:R2. injection R as <- <-.
    destruct e as [c id dest r|i]; cbn [step] in S1.
    + unfold submit in S1. set (a := {| a_id := id; a_dest := dest; a_caller := c; a_request := r |}) in *.
      cbn [submitted] in Nd |- *. fold a in Nd |- *.
      assert (Fr : forall x, In x (actives st) -> a_id x <> id).
      { intros x Hx Q. rewrite map_app in Nd. cbn [map] in Nd. apply NoDup_remove_2 in Nd. apply Nd, in_or_app. left.
        change (a_id a) with id. rewrite <- Q. now apply in_map. }
      rewrite (filter_every (fun x => negb (a_id x =? id))) in S1 by (intros x Hx; apply Bool.negb_true_iff, N.eqb_neq, Fr, Hx).
      rewrite (filter_none (fun x => a_id x =? id)) in S1 by (intros x Hx; apply N.eqb_neq, Fr, Hx). cbn [flat_map] in S1.
      injection S1 as <- <-.
      assert (Q : Permutation (actives st ++ a :: submitted es) ((a :: actives st) ++ submitted es)) by (symmetry; apply Permutation_middle).
      assert (Nd' := Permutation_NoDup (Permutation_map a_id Q) Nd).
      match type of R2 with run _ _ _ _ ?s _ = _ => assert (Pt' : Permutation (map talk_of (actives s)) (talks s)) end.
      { cbn [actives talks map]. etransitivity; [apply perm_skip, Pt|apply Permutation_cons_append]. }
      match type of R2 with run _ _ _ _ ?s _ = _ => destruct (IH s _ _ Nd' Pt' R2) as (fin & P1 & P2 & P3 & P4) end. exists fin. split; [etransitivity; [exact Q|exact P1]|]. auto.
    + destruct (nth_error (talks st) i) as [t|] eqn:T.
      * assert (I : In t (map talk_of (actives st))) by (eapply Permutation_in; [symmetry; exact Pt|eapply nth_error_In, T]).
        apply in_map_iff in I as (a & <- & I).
        assert (Nd1 : NoDup (map a_id (actives st))) by (rewrite map_app in Nd; exact (nodup_left _ _ Nd)).
        destruct (drop_one _ _ Nd1 I) as [F P].
        pose proof (settle_finish a {| actives := actives st; talks := firstn i (talks st) ++ skipn (S i) (talks st) |} o1 F) as Se.
        rewrite S1 in Se. specialize (Se eq_refl). unfold finish in S1. cbn [t_id talk_of actives] in S1. rewrite F in S1. injection S1 as <- _.
        assert (Q : Permutation (actives st ++ submitted es) (a :: filter (fun x => negb (a_id x =? a_id a)) (actives st) ++ submitted es)).
        { exact (Permutation_app P (Permutation_refl _)). }
        cbn [submitted] in Nd |- *.
        assert (Nd2 := Permutation_NoDup (Permutation_map a_id Q) Nd). cbn [map] in Nd2. inversion Nd2 as [|x y _ Nd3]; subst.
        assert (Pt' : Permutation (map talk_of (filter (fun x => negb (a_id x =? a_id a)) (actives st))) (firstn i (talks st) ++ skipn (S i) (talks st))).
        { apply (Permutation_cons_inv (a := talk_of a)). etransitivity; [|apply nth_split_perm, T].
          etransitivity; [|exact Pt]. symmetry. exact (Permutation_map talk_of P). }
        match type of R2 with run _ _ _ _ ?s _ = _ => destruct (IH s _ _ Nd3 Pt' R2) as (fin & P1 & P2 & P3 & P4) end. exists ((a, o1) :: fin). cbn [map fst snd concat app].
        split; [etransitivity; [exact Q|apply perm_skip, P1]|]. split; [exact P2|]. split; [|now rewrite P4].
        intros x o [[= <- <-]|H]; [exact Se|exact (P3 x o H)].
      * injection S1 as <- <-. cbn [submitted] in Nd |- *. exact (IH _ _ _ Nd Pt R2).
Qed.
End Requests.

(** ** The newest of a list *)
Lemma max_from l : forall b, In (max_seq_from b l) (b :: l) /\ forall x, In x (b :: l) -> enr_seq x <= enr_seq (max_seq_from b l).
Proof.
  induction l as [|e l IH]; intros b; cbn [max_seq_from].
  - split; [now left|]. intros x [->|[]]. reflexivity.
  - destruct (enr_seq b <=? enr_seq e) eqn:Q.
    + destruct (IH e) as [I M]. split; [right; exact I|]. intros x [->|[->|H]]; [|apply M; now left|apply M; now right].
      apply N.leb_le in Q. specialize (M e (or_introl eq_refl)). lia.
    + destruct (IH b) as [I M]. apply N.leb_gt in Q. split; [destruct I as [I|I]; [now left|right; now right]|].
      intros x [->|[->|H]]; [apply M; now left| |apply M; now right]. specialize (M b (or_introl eq_refl)). lia.
Qed.
Lemma max_seq_newest l e : max_seq l = Some e -> newest e l.
Proof. destruct l as [|b l]; [discriminate|]. intros [= <-]. apply max_from. Qed.
Lemma max_seq_none l : max_seq l = None <-> l = [].
Proof. destruct l; cbn; split; congruence. Qed.
