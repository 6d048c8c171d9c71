(** Lemmas for the property about what the head of the chain learns from the light client. *)
From Verif Require Import Base Header_Model LightClient_Model LightClient_Spec LightClient_Proofs HeadFollow_Model HeadFollow_Spec.
From Verif Require ChainHead_Model.

Section Follow.
Context (sha : bytes -> bytes) {key : Type} (parse_key : bytes -> option key) (aggregate_verify : list key -> bytes -> bytes -> bool).
Context (rest : bheader -> bytes) (cf : config).
Notation process := (process sha parse_key aggregate_verify cf).
Notation verify := (verify sha parse_key aggregate_verify cf).
Notation arrive := (arrive sha parse_key aggregate_verify cf).
Notation step := (step sha parse_key aggregate_verify rest cf).
Notation run := (run sha parse_key aggregate_verify rest cf).
Notation tell := (tell rest).
Notation kept := (kept rest).
Notation apply := (apply_generic_update sha).

Lemma votes_bits u : get_bits (bits (to_generic u)) = votes u.
Proof. rewrite signers_bits. destruct u; reflexivity. Qed.
Lemma attests_slot u : b_slot (attested (to_generic u)) = attests u.
Proof. destruct u; reflexivity. Qed.
Lemma finalizes_slot u : (match final (to_generic u) with Some f => b_slot f | None => 0 end) = finalizes u.
Proof. destruct u; reflexivity. Qed.

(** What applying an update does to the two headers. *)
Definition applied (c c' : client) (g : generic) : Prop :=
  (optimistic (lc_store c') = optimistic (lc_store c)
   \/ optimistic (lc_store c') = attested g /\ b_slot (optimistic (lc_store c)) < b_slot (attested g))
  /\ (finalized (lc_store c') = finalized (lc_store c)
      \/ final g = Some (finalized (lc_store c')) /\ b_slot (finalized (lc_store c)) < b_slot (finalized (lc_store c'))
         /\ b_slot (attested g) <= b_slot (optimistic (lc_store c')))
  /\ counts c'.
Lemma apply_does c g : (match final g with Some f => b_slot f | None => 0 end) <= b_slot (attested g) ->
  counts c -> get_bits (bits g) <= 512 -> applied c (apply c g) g.
Proof.
  intros F [C1 C2] B. unfold apply_generic_update, applied, counts.
  set (n := get_bits (bits g)) in *. clearbody n.
  set (s := lc_store c) in *. clearbody s.
  set (t := safety_threshold _).
  assert (T : t <= N.max (N.max (current_max s) n) (previous_max s) / 2) by (unfold t, safety_threshold; cbn; lia).
  assert (T2 : t <= 256) by lia. clearbody t.
  cbn [optimistic finalized].
  destruct ((t <? n) && (b_slot (optimistic s) <? b_slot (attested g))) eqn:O.
  - apply andb_prop in O as [O1 O2]. apply N.ltb_lt in O1, O2. cbn.
    destruct ((512 * 2 <=? n * 3) && _) eqn:M.
    + destruct (next_known s) as [nc|] eqn:K; [destruct (_ =? period _ + 1) eqn:P|]; cbn;
        destruct (final g) as [f|] eqn:G; cbn; try (destruct (_ <? b_slot f) eqn:L; [apply N.ltb_lt in L|]); cbn;
        try (assert (X : b_slot (attested g) <? b_slot f = false) by (apply N.ltb_ge; lia); rewrite X);
        repeat split; first [lia | solve [auto] | right; repeat split; solve [auto|lia]].
    + cbn. repeat split; first [lia | solve [auto]].
  - cbn.
    destruct ((512 * 2 <=? n * 3) && _) eqn:M.
    + apply andb_prop in M as [M _]. apply N.leb_le in M.
      assert (O2 : b_slot (attested g) <= b_slot (optimistic s)).
      { apply Bool.andb_false_iff in O as [O|O]; apply N.ltb_ge in O; lia. }
      destruct (next_known s) as [nc|] eqn:K; [destruct (_ =? period _ + 1) eqn:P|]; cbn;
        destruct (final g) as [f|] eqn:G; cbn; try (destruct (_ <? b_slot f) eqn:L; [apply N.ltb_lt in L|]); cbn;
        try (assert (X : b_slot (optimistic s) <? b_slot f = false) by (apply N.ltb_ge; lia); rewrite X);
        repeat split; first [lia | solve [auto] | right; repeat split; solve [auto|lia]].
    + cbn. repeat split; first [lia | solve [auto]].
Qed.
Lemma verify_order s now u : verify s now u = Ok tt -> finalizes u <= attests u.
Proof.
  unfold LightClient_Model.verify, verify_generic_update. rewrite finalizes_slot, attests_slot.
  destruct (0 <? _); [|discriminate]. cbn [ensure]. destruct (_ && _ && _) eqn:E; [|discriminate].
  intros _. apply andb_prop in E as [_ E]. now apply N.leb_le in E.
Qed.

(** What an arrival does. *)
Lemma arrive_cases n x : counts (n_client n) -> sized (snd x) ->
  arrive n x = n
  \/ exists c, n_client (arrive n x) = c /\ applied (n_client n) c (to_generic (snd x)) /\ verify (lc_store (n_client n)) (fst x) (snd x) = Ok tt
     /\ n_head (arrive n x) = n_head n
     /\ (said (arrive n x) = said n /\ chan (arrive n x) = chan n /\ optimistic (lc_store c) = optimistic (lc_store (n_client n)) /\ finalized (lc_store c) = finalized (lc_store (n_client n))
         \/ said (arrive n x) = said n ++ [snd x] /\ chan (arrive n x) = set_chan (chan n) (kind_of (snd x)) {| value := Some (snd x); changed := true |}
            /\ (optimistic (lc_store c) <> optimistic (lc_store (n_client n)) \/ finalized (lc_store c) <> finalized (lc_store (n_client n)))
            /\ attests (snd x) <= b_slot (optimistic (lc_store c))).
Proof.
  intros C Z. unfold HeadFollow_Model.arrive, LightClient_Model.process.
  destruct (verify (lc_store (n_client n)) (fst x) (snd x)) as [[]| |] eqn:V; auto.
  right. exists (apply (n_client n) (to_generic (snd x))).
  assert (A : applied (n_client n) (apply (n_client n) (to_generic (snd x))) (to_generic (snd x))).
  { apply apply_does; auto. rewrite finalizes_slot, attests_slot. eapply verify_order; eauto. rewrite votes_bits. exact Z. }
  set (c := apply _ _) in *. clearbody c. pose proof A as (A1 & A2 & A3).
  rewrite attests_slot in A1, A2.
  destruct (moved _ _ _) eqn:M; cbn [n_client n_head said chan]; (split; [reflexivity|]); (split; [exact A|]); (split; [reflexivity|]); (split; [reflexivity|]).
  - right. split; [reflexivity|]. split; [reflexivity|].
    assert (D : b_slot (optimistic (lc_store (n_client n))) < b_slot (optimistic (lc_store c)) \/ b_slot (finalized (lc_store (n_client n))) < b_slot (finalized (lc_store c))).
    { unfold moved in M. destruct (kind_of (snd x)); [apply Bool.orb_true_iff in M as [M|M]|apply Bool.orb_true_iff in M as [M|M]|]; apply N.ltb_lt in M; auto. }
    split; [destruct D as [D|D]; [left|right]; intros E; rewrite E in D; lia|].
    destruct A1 as [A1|[A1 L]].
    + destruct A2 as [A2|(A2 & L2 & L3)]; [|lia].
      rewrite A1, A2 in D. lia.
    + rewrite A1, attests_slot. lia.
  - left. split; [reflexivity|]. split; [reflexivity|].
    assert (O : ~ b_slot (optimistic (lc_store (n_client n))) < b_slot (optimistic (lc_store c))).
    { unfold moved in M. destruct (kind_of (snd x)); [apply Bool.orb_false_iff in M as [M _]|apply Bool.orb_false_iff in M as [M _]|]; apply N.ltb_ge in M; lia. }
    split.
    + destruct A1 as [A1|[A1 L]]; [exact A1|]. rewrite A1, attests_slot in O. lia.
    + destruct A2 as [A2|(A2 & L2 & L3)]; [exact A2|].
      unfold moved in M. destruct (snd x) as [a c0 cb f fb bs sig slot|a f fb bs sig slot|a bs sig slot]; cbn in M, A2; try discriminate;
        apply Bool.orb_false_iff in M as [_ M]; apply N.ltb_ge in M; lia.
Qed.

(** What telling the head does. *)
Lemma latest_newer h x : ChainHead_Model.latest (ChainHead_Model.update_latest_if_newer h x)
  = if ChainHead_Model.hd_slot (ChainHead_Model.latest h) <? ChainHead_Model.hd_slot x then x else ChainHead_Model.latest h.
Proof. unfold ChainHead_Model.update_latest_if_newer. destruct (_ <? _); reflexivity. Qed.
Lemma tell_latest h u : exists a, attested_by a u /\ b_slot a = attests u /\
  ChainHead_Model.latest (tell h u) = if ChainHead_Model.hd_slot (ChainHead_Model.latest h) <? attests u then kept a else ChainHead_Model.latest h.
Proof.
  unfold HeadFollow_Model.tell, ChainHead_Model.head_step, ChainHead_Model.update_finalized_if_newer, ChainHead_Model.update_latest_if_newer.
  destruct u as [a c0 cb f fb bs sig slot|a f fb bs sig slot|a bs sig slot]; exists a; cbn; (split; [reflexivity|]); (split; [reflexivity|]);
    repeat (destruct (_ <? _); cbn); reflexivity.
Qed.
Lemma tell_finalized h u :
  ChainHead_Model.finalized (tell h u) = ChainHead_Model.finalized h /\ finalizes u <= ChainHead_Model.hd_slot (ChainHead_Model.finalized h)
  \/ exists f, final_by f u /\ b_slot f = finalizes u /\ ChainHead_Model.finalized (tell h u) = kept f /\ ChainHead_Model.hd_slot (ChainHead_Model.finalized h) < finalizes u.
Proof.
  unfold HeadFollow_Model.tell, ChainHead_Model.head_step, ChainHead_Model.update_finalized_if_newer, ChainHead_Model.update_latest_if_newer.
  destruct u as [a c0 cb f fb bs sig slot|a f fb bs sig slot|a bs sig slot]; cbn.
  1,2: destruct (ChainHead_Model.hd_slot (ChainHead_Model.latest h) <? b_slot a); cbn;
    (destruct (ChainHead_Model.hd_slot (ChainHead_Model.finalized h) <? b_slot f) eqn:E; cbn;
     [apply N.ltb_lt in E; right; exists f; auto | apply N.ltb_ge in E; left; split; [reflexivity|lia]]).
  left. destruct (_ <? _); cbn; split; solve [reflexivity|lia].
Qed.
Lemma summaries_head h l : ChainHead_Model.latest (ChainHead_Model.head_step h (ChainHead_Model.UpdateSummaries l)) = ChainHead_Model.latest h
  /\ ChainHead_Model.finalized (ChainHead_Model.head_step h (ChainHead_Model.UpdateSummaries l)) = ChainHead_Model.finalized h.
Proof. cbn. unfold ChainHead_Model.update_summaries_if_newer. destruct (_ <? _); auto. Qed.

Lemma run_app n l1 l2 : run n (l1 ++ l2) = obind (run n l1) (fun n => run n l2).
Proof. revert n. induction l1 as [|o r IH]; intros n; cbn; [reflexivity|]. destruct (step n o); cbn; auto. Qed.
Lemma run_snoc n l o : run n (l ++ [o]) = obind (run n l) (fun n => step n o).
Proof. rewrite run_app. destruct (run n l) as [m| |]; cbn; auto. destruct (step m o); reflexivity. Qed.
Lemma kind_eqb_spec a b : kind_eqb a b = true <-> a = b.
Proof. destruct a, b; cbn; split; congruence. Qed.

Context (n0 : node).
Definition sized_op (o : op) : Prop := match o with Arrive x => sized (snd x) | _ => True end.
(** What holds at every moment. *)
Record inv (n : node) : Prop := {
  inv_counts : counts (n_client n);
  inv_value : forall k, changed (chan n k) = true -> exists u, value (chan n k) = Some u /\ In u (said n) /\ kind_of u = k;
  inv_said : forall u, In u (said n) -> attests u <= b_slot (optimistic (lc_store (n_client n)));
  inv_optimistic : optimistic (lc_store (n_client n)) = optimistic (lc_store (n_client n0))
     \/ exists u, In u (said n) /\ attested_by (optimistic (lc_store (n_client n))) u;
  inv_finalized : finalized (lc_store (n_client n)) = finalized (lc_store (n_client n0))
     \/ exists u, In u (said n) /\ final_by (finalized (lc_store (n_client n))) u;
  inv_latest : ChainHead_Model.latest (n_head n) = ChainHead_Model.latest (n_head n0)
     \/ exists u h, In u (said n) /\ attested_by h u /\ ChainHead_Model.latest (n_head n) = kept h;
  inv_head_final : ChainHead_Model.finalized (n_head n) = ChainHead_Model.finalized (n_head n0)
     \/ exists u h, In u (said n) /\ final_by h u /\ ChainHead_Model.finalized (n_head n) = kept h;
}.
Lemma attested_by_slot h u : attested_by h u -> b_slot h = attests u.
Proof. destruct u; cbn; now intros ->. Qed.
Lemma final_by_slot h u : final_by h u -> b_slot h = finalizes u.
Proof. destruct u; cbn; [intros ->; reflexivity|intros ->; reflexivity|intros []]. Qed.
Lemma attested_of u : attested_by (attested (to_generic u)) u.
Proof. destruct u; reflexivity. Qed.
Lemma final_of u f : final (to_generic u) = Some f -> final_by f u.
Proof. destruct u; cbn; congruence. Qed.
Lemma optimistic_grows c c' g : applied c c' g -> b_slot (optimistic (lc_store c)) <= b_slot (optimistic (lc_store c')).
Proof. intros ([->|[-> L]] & _); lia. Qed.

Lemma step_inv n o : inv n -> sized_op o -> exists n', step n o = Ok n' /\ inv n'.
Proof.
  intros J Z. destruct o as [x|k|l]; cbn [HeadFollow_Model.step].
  - eexists. split; [reflexivity|].
    destruct (arrive_cases n x (inv_counts _ J) Z) as [->|(c & E1 & A & V & E2 & D)]; [exact J|].
    pose proof (optimistic_grows _ _ _ A) as G. pose proof A as (A1 & A2 & A3).
    destruct D as [(D1 & D2 & D3 & D4)|(D1 & D2 & D3 & D4)]; constructor; rewrite ?E1, ?E2, ?D1, ?D2, ?D3, ?D4; try solve [apply J].
    + exact A3.
    + exact A3.
    + intros k. unfold set_chan. destruct (kind_eqb k (kind_of (snd x))) eqn:K.
      * intros _. exists (snd x). apply kind_eqb_spec in K. split; [reflexivity|]. split; [apply in_or_app; cbn; auto|auto].
      * intros Y. destruct (inv_value _ J k Y) as (u & U1 & U2 & U3). exists u. split; [auto|]. split; [apply in_or_app; auto|auto].
    + intros u U. apply in_app_or in U as [U|[<-|[]]]; [|exact D4]. pose proof (inv_said _ J u U). lia.
    + destruct A1 as [A1|[A1 _]].
      * rewrite A1. destruct (inv_optimistic _ J) as [E|(u & U1 & U2)]; [auto|]. right. exists u. split; [apply in_or_app; auto|auto].
      * right. exists (snd x). split; [apply in_or_app; cbn; auto|]. rewrite A1. apply attested_of.
    + destruct A2 as [A2|(A2 & _)].
      * rewrite A2. destruct (inv_finalized _ J) as [E|(u & U1 & U2)]; [auto|]. right. exists u. split; [apply in_or_app; auto|auto].
      * right. exists (snd x). split; [apply in_or_app; cbn; auto|]. now apply final_of.
    + destruct (inv_latest _ J) as [E|(u & h & U1 & U2)]; [auto|]. right. exists u, h. split; [apply in_or_app; auto|auto].
    + destruct (inv_head_final _ J) as [E|(u & h & U1 & U2)]; [auto|]. right. exists u, h. split; [apply in_or_app; auto|auto].
  - unfold handle. destruct (changed (chan n k)) eqn:K; [|eauto].
    destruct (inv_value _ J k K) as (u & U1 & U2 & U3). rewrite U1. eexists. split; [reflexivity|].
    constructor; cbn [n_client chan n_head said]; try solve [apply J].
    + intros j. unfold set_chan. destruct (kind_eqb j k); [discriminate|]. apply J.
    + destruct (tell_latest (n_head n) u) as (a & A1 & A2 & ->). destruct (_ <? _); [right; eauto|apply J].
    + destruct (tell_finalized (n_head n) u) as [[-> _]|(f & F1 & F2 & -> & _)]; [apply J|right; eauto].
  - eexists. split; [reflexivity|]. destruct (summaries_head (n_head n) l) as [S1 S2].
    constructor; cbn [n_client chan n_head said]; rewrite ?S1, ?S2; apply J.
Qed.
Lemma run_inv ops : inv n0 -> Forall sized_op ops -> exists n, run n0 ops = Ok n /\ inv n.
Proof.
  intros J. induction ops as [|o r IH] using rev_ind; intros Z; [exists n0; auto|].
  apply Forall_app in Z as [Z1 Z2]. destruct (IH Z1) as (n & R & I). inversion Z2; subst.
  destruct (step_inv n o I) as (n' & R' & I'); [assumption|]. exists n'. split; [|exact I'].
  rewrite run_snoc, R. exact R'.
Qed.

(** All that was said has been told, or is covered by what waits in its channel. *)
Definition told (n : node) : Prop :=
  forall u, In u (said n) ->
    attests u <= ChainHead_Model.hd_slot (ChainHead_Model.latest (n_head n)) /\ finalizes u <= ChainHead_Model.hd_slot (ChainHead_Model.finalized (n_head n))
    \/ exists v, chan n (kind_of u) = {| value := Some v; changed := true |} /\ attests u <= attests v /\ finalizes u <= finalizes v.
Lemma said_grows n o n' : step n o = Ok n' -> counts (n_client n) -> sized_op o -> exists l, said n' = said n ++ l.
Proof.
  destruct o as [x|k|l]; cbn [HeadFollow_Model.step].
  - intros [= <-] C Z. destruct (arrive_cases n x C Z) as [->|(c & _ & _ & _ & _ & [(-> & _)|(-> & _)])]; [exists []|exists []|eauto]; now rewrite app_nil_r.
  - unfold handle. destruct (changed _); [destruct (value _); [|discriminate]|]; intros [= <-] _ _; exists []; cbn; now rewrite app_nil_r.
  - intros [= <-] _ _. exists []. cbn. now rewrite app_nil_r.
Qed.
Lemma in_order_prefix l1 l2 : in_order (l1 ++ l2) -> in_order l1.
Proof. intros O a u b v c -> K. eapply (O a u b v (c ++ l2)); [|exact K]. rewrite <-!app_assoc. cbn. now rewrite <-app_assoc. Qed.
Lemma in_order_last l u v : in_order (l ++ [v]) -> In u l -> kind_of u = kind_of v -> attests u <= attests v /\ finalizes u <= finalizes v.
Proof. intros O U K. apply in_split in U as (a & b & ->). apply (O a u b v []); [|exact K]. rewrite <-app_assoc. reflexivity. Qed.
Lemma told_step n o n' : inv n -> sized_op o -> step n o = Ok n' -> in_order (said n') -> told n -> told n'.
Proof.
  intros J Z. destruct o as [x|k|l]; cbn [HeadFollow_Model.step].
  - intros [= <-] O T.
    destruct (arrive_cases n x (inv_counts _ J) Z) as [->|(c & _ & _ & _ & E2 & [(D1 & D2 & _)|(D1 & D2 & _)])]; [exact T| |].
    + intros u. rewrite D1, D2, E2. apply T.
    + intros u U. rewrite D2, E2. rewrite D1 in O, U. unfold set_chan. destruct (kind_eqb (kind_of u) (kind_of (snd x))) eqn:K.
      * right. exists (snd x). split; [reflexivity|]. apply in_app_or in U as [U|[<-|[]]]; [|lia].
        apply kind_eqb_spec in K. eapply in_order_last; eauto.
      * apply in_app_or in U as [U|[<-|[]]]; [apply T, U|]. assert (X : kind_of (snd x) = kind_of (snd x)) by reflexivity. apply kind_eqb_spec in X. congruence.
  - unfold handle. destruct (changed (chan n k)) eqn:C; [|intros [= <-]; auto].
    destruct (value (chan n k)) as [v|] eqn:W; [|discriminate]. intros [= <-] O T u U. cbn [said chan n_head] in *.
    assert (L : forall w, ChainHead_Model.hd_slot (ChainHead_Model.latest (n_head n)) <= ChainHead_Model.hd_slot (ChainHead_Model.latest (tell (n_head n) w))
                 /\ attests w <= ChainHead_Model.hd_slot (ChainHead_Model.latest (tell (n_head n) w))).
    { intros w. destruct (tell_latest (n_head n) w) as (a & _ & A & ->). destruct (_ <? _) eqn:E; cbn; [apply N.ltb_lt in E|apply N.ltb_ge in E]; lia. }
    assert (F : forall w, ChainHead_Model.hd_slot (ChainHead_Model.finalized (n_head n)) <= ChainHead_Model.hd_slot (ChainHead_Model.finalized (tell (n_head n) w))
                 /\ finalizes w <= ChainHead_Model.hd_slot (ChainHead_Model.finalized (tell (n_head n) w))).
    { intros w. destruct (tell_finalized (n_head n) w) as [[-> E]|(f & _ & A & -> & E)]; cbn; lia. }
    specialize (L v). specialize (F v).
    destruct (T u U) as [[T1 T2]|(w & W1 & W2)].
    + left. lia.
    + unfold set_chan. destruct (kind_eqb (kind_of u) k) eqn:K; [|right; eauto].
      apply kind_eqb_spec in K. subst k. rewrite W1 in W. cbn in W. injection W as <-. left. lia.
  - intros E O T. assert (X : n' = {| n_client := n_client n; chan := chan n; n_head := ChainHead_Model.head_step (n_head n) (ChainHead_Model.UpdateSummaries l); said := said n |}) by congruence.
    clear E. subst n'. intros u U. cbn [said chan n_head] in *. destruct (summaries_head (n_head n) l) as [-> ->]. apply T, U.
Qed.
Lemma run_told ops n : inv n0 -> Forall sized_op ops -> told n0 -> run n0 ops = Ok n -> in_order (said n) -> told n.
Proof.
  intros J. revert n. induction ops as [|o r IH] using rev_ind; intros n Z T0 R O; [injection R as <-; exact T0|].
  apply Forall_app in Z as [Z1 Z2]. inversion Z2; subst. rewrite run_snoc in R.
  destruct (run_inv r J Z1) as (m & R1 & J1). rewrite R1 in R. cbn in R.
  destruct (said_grows m o n R (inv_counts _ J1)) as (l & E); [assumption|].
  eapply told_step; eauto. apply IH; auto. rewrite E in O. eapply in_order_prefix; eauto.
Qed.
End Follow.
