(** What the head of the chain learns from the light client. *)
From Verif Require Import Base Header_Model LightClient_Model LightClient_Spec LightClient_Proofs HeadFollow_Model HeadFollow_Spec HeadFollow_Proofs.
From Verif Require ChainHead_Model.

Section Props.
Context (sha : bytes -> bytes) {key : Type} (parse_key : bytes -> option key) (aggregate_verify : list key -> bytes -> bytes -> bool).
Context (rest : bheader -> bytes) (cf : config).
Notation verify := (verify sha parse_key aggregate_verify cf).
Notation arrive := (arrive sha parse_key aggregate_verify cf).
Notation run := (run sha parse_key aggregate_verify rest cf).
Notation step := (step sha parse_key aggregate_verify rest cf).
Notation tell := (tell rest).
Notation kept := (kept rest).
Notation latest_slot n := (ChainHead_Model.hd_slot (ChainHead_Model.latest (n_head n))).
Notation finalized_slot n := (ChainHead_Model.hd_slot (ChainHead_Model.finalized (n_head n))).
Notation all_sized ops := (forall x, In (Arrive x) ops -> sized (snd x)).

Lemma sized_all ops : all_sized ops -> Forall sized_op ops.
Proof. intros Z. apply Forall_forall. intros [x| |] I; cbn; auto. Qed.
Lemma inv_start c values h : counts c -> inv rest (subscribe c values h) (subscribe c values h).
Proof. intros C. constructor; cbn; auto; try discriminate; intros ? []. Qed.
(** All that is published was verified when it arrived. *)
Lemma said_verified n0 ops n u : inv rest n0 n0 -> said n0 = [] -> Forall sized_op ops -> run n0 ops = Ok n -> In u (said n) ->
  exists ops1 now ops2 m, ops = ops1 ++ Arrive (now, u) :: ops2 /\ run n0 ops1 = Ok m /\ verify (lc_store (n_client m)) now u = Ok tt.
Proof.
  intros J E. revert n. induction ops as [|o r IH] using rev_ind; intros n Z R I; [injection R as <-; rewrite E in I; destruct I|].
  apply Forall_app in Z as [Z1 Z2]. inversion Z2 as [|? ? Z3 _]; subst. rewrite run_snoc in R.
  destruct (run_inv sha parse_key aggregate_verify rest cf n0 r J Z1) as (m & R1 & J1). rewrite R1 in R. cbn in R.
  assert (D : In u (said m) \/ exists now, o = Arrive (now, u) /\ verify (lc_store (n_client m)) now u = Ok tt).
  { destruct o as [x|k|l]; cbn [HeadFollow_Model.step] in R.
    - injection R as <-.
      destruct (arrive_cases sha parse_key aggregate_verify rest cf m x (inv_counts _ _ _ J1) Z3) as [A|(c & _ & _ & V & _ & [(D1 & _)|(D1 & _)])].
      + rewrite A in I. auto.
      + rewrite D1 in I. auto.
      + rewrite D1 in I. apply in_app_or in I as [I|[<-|[]]]; [auto|]. right. exists (fst x). destruct x; auto.
    - unfold handle in R. destruct (changed _); [destruct (value _); [|discriminate]|]; injection R as <-; auto.
    - injection R as <-. auto. }
  destruct D as [D|(now & -> & V)].
  - destruct (IH m Z1 R1 D) as (a & now & b & m' & -> & R' & V). exists a, now, (b ++ [o]), m'. rewrite <-app_assoc. auto.
  - exists r, now, [], m. auto.
Qed.

(** For every schedule of arrivals and readings, the task never panics, and the head's two headers are those it had or
    headers of updates that the client found valid when they arrived. *)
Theorem C117_verified c values h ops : counts c -> all_sized ops ->
  exists n, run (subscribe c values h) ops = Ok n
  /\ (ChainHead_Model.latest (n_head n) = ChainHead_Model.latest h
      \/ exists ops1 now u ops2 m a, ops = ops1 ++ Arrive (now, u) :: ops2 /\ run (subscribe c values h) ops1 = Ok m
         /\ verify (lc_store (n_client m)) now u = Ok tt /\ attested_by a u /\ ChainHead_Model.latest (n_head n) = kept a)
  /\ (ChainHead_Model.finalized (n_head n) = ChainHead_Model.finalized h
      \/ exists ops1 now u ops2 m f, ops = ops1 ++ Arrive (now, u) :: ops2 /\ run (subscribe c values h) ops1 = Ok m
         /\ verify (lc_store (n_client m)) now u = Ok tt /\ final_by f u /\ ChainHead_Model.finalized (n_head n) = kept f).
Proof.
  intros C Z%sized_all. pose proof (inv_start c values h C) as J0.
  destruct (run_inv sha parse_key aggregate_verify rest cf _ ops J0 Z) as (n & R & J). exists n. split; [exact R|]. split.
  - destruct (inv_latest _ _ _ J) as [E|(u & a & U & A & E)]; [left; exact E|right].
    destruct (said_verified _ _ _ _ J0 eq_refl Z R U) as (o1 & now & o2 & m & X1 & X2 & X3). exists o1, now, u, o2, m, a. auto.
  - destruct (inv_head_final _ _ _ J) as [E|(u & a & U & A & E)]; [left; exact E|right].
    destruct (said_verified _ _ _ _ J0 eq_refl Z R U) as (o1 & now & o2 & m & X1 & X2 & X3). exists o1, now, u, o2, m, a. auto.
Qed.

(** The head never runs ahead of the client's optimistic header. *)
Theorem C117_not_ahead c values h ops n : counts c -> all_sized ops -> run (subscribe c values h) ops = Ok n ->
  latest_slot n <= N.max (ChainHead_Model.hd_slot (ChainHead_Model.latest h)) (b_slot (optimistic (lc_store (n_client n)))).
Proof.
  intros C Z%sized_all R. pose proof (inv_start c values h C) as J0.
  destruct (run_inv sha parse_key aggregate_verify rest cf _ ops J0 Z) as (n' & R' & J). replace n' with n in * by congruence.
  destruct (inv_latest _ _ _ J) as [E|(u & a & U & A & E)]; rewrite E; cbn.
  - lia.
  - rewrite (attested_by_slot _ _ A). pose proof (inv_said _ _ _ J u U). lia.
Qed.

(** Once the reader has seen every channel, and what was published came in order, the head is as far as the client is,
    although the reader may have missed many of the values. *)
Theorem C117_caught_up c values h ops n : counts c -> all_sized ops -> run (subscribe c values h) ops = Ok n ->
  in_order (said n) -> all_seen n ->
  (optimistic (lc_store (n_client n)) = optimistic (lc_store c)
   \/ latest_slot n = N.max (ChainHead_Model.hd_slot (ChainHead_Model.latest h)) (b_slot (optimistic (lc_store (n_client n)))))
  /\ (finalized (lc_store (n_client n)) = finalized (lc_store c) \/ b_slot (finalized (lc_store (n_client n))) <= finalized_slot n).
Proof.
  intros C Z0 R O S. pose proof (C117_not_ahead _ _ _ _ _ C Z0 R) as B. pose proof (sized_all _ Z0) as Z.
  pose proof (inv_start c values h C) as J0.
  destruct (run_inv sha parse_key aggregate_verify rest cf _ ops J0 Z) as (n' & R' & J). replace n' with n in * by congruence. clear n' R'.
  assert (T : told n). { eapply run_told; eauto. intros u []. }
  assert (T' : forall u, In u (said n) -> attests u <= latest_slot n /\ finalizes u <= finalized_slot n).
  { intros u U. destruct (T u U) as [X|(v & V & _)]; [exact X|]. specialize (S (kind_of u)). rewrite V in S. discriminate. }
  assert (M : ChainHead_Model.hd_slot (ChainHead_Model.latest h) <= latest_slot n).
  { clear - R Z J0. revert n R. induction ops as [|o r IH] using rev_ind; intros n R; [injection R as <-; cbn; lia|].
    apply Forall_app in Z as [Z1 Z2]. inversion Z2 as [|? ? Z3 _]; subst. rewrite run_snoc in R.
    destruct (run_inv sha parse_key aggregate_verify rest cf _ r J0 Z1) as (m & R1 & J1). rewrite R1 in R. cbn in R. specialize (IH Z1 m R1).
    etransitivity; [exact IH|]. clear IH. destruct o as [x|k|l]; cbn [HeadFollow_Model.step] in R.
    - injection R as <-.
      destruct (arrive_cases sha parse_key aggregate_verify rest cf m x (inv_counts _ _ _ J1) Z3) as [->|(_ & _ & _ & _ & -> & _)]; lia.
    - unfold handle in R. destruct (changed _); [destruct (value _) as [u|]; [|discriminate]|]; injection R as <-; [|lia]. cbn [n_head].
      destruct (tell_latest rest (n_head m) u) as (a & _ & A & ->). destruct (_ <? _) eqn:E; cbn; [apply N.ltb_lt in E|]; lia.
    - pose proof (summaries_head (n_head m) l) as [S1 _]. injection R as <-. cbn [n_head]. rewrite <-S1. cbn. lia. }
  split.
  - destruct (inv_optimistic _ _ _ J) as [E|(u & U & A)]; [left; exact E|right].
    rewrite (attested_by_slot _ _ A) in *. destruct (T' u U). lia.
  - destruct (inv_finalized _ _ _ J) as [E|(u & U & A)]; [left; exact E|right].
    rewrite (final_by_slot _ _ A). now destruct (T' u U).
Qed.

(** An update that is published and read at once has its effect, whatever went before. *)
Theorem C117_told n x n' : counts (n_client n) -> sized (snd x) -> run n [Arrive x; Handle (kind_of (snd x))] = Ok n' ->
  said n' = said n ++ [snd x] -> attests (snd x) <= latest_slot n' /\ finalizes (snd x) <= finalized_slot n'.
Proof.
  intros C Z. cbn [HeadFollow_Model.run HeadFollow_Model.step obind].
  destruct (arrive_cases sha parse_key aggregate_verify rest cf n x C Z) as [->|(c & E1 & A & V & E2 & D)].
  - intros R S. unfold handle in R. exfalso. assert (X : said n' = said n).
    { destruct (changed _); [destruct (value _); [|discriminate]|]; cbn in R; injection R as <-; reflexivity. }
    rewrite X in S. apply (f_equal (@length _)) in S. rewrite app_length in S. cbn in S. lia.
  - intros R S. destruct D as [(D1 & D2 & _)|(D1 & D2 & _)].
    + exfalso. assert (X : said n' = said n).
      { unfold handle in R. destruct (changed _); [destruct (value _); [|discriminate]|]; cbn in R; injection R as <-; exact D1. }
      rewrite X in S. apply (f_equal (@length _)) in S. rewrite app_length in S. cbn in S. lia.
    + unfold handle in R. rewrite D2 in R. unfold set_chan in R at 1 2.
      assert (K : kind_eqb (kind_of (snd x)) (kind_of (snd x)) = true) by now apply kind_eqb_spec. rewrite K in R. cbn in R. injection R as <-. cbn [n_head].
      destruct (tell_latest rest (n_head (arrive n x)) (snd x)) as (a & _ & A2 & ->).
      split; [destruct (_ <? _) eqn:E; cbn; [lia|apply N.ltb_ge in E; lia]|].
      destruct (tell_finalized sha parse_key aggregate_verify rest (n_head (arrive n x)) (snd x)) as [[-> F]|(f & _ & F & -> & _)]; cbn; lia.
Qed.

(** Without the order the head may stay behind: a value that has not been read is replaced by one that attests an
    earlier slot, and all channels are seen. *)
Theorem C117_lost_refuted n x y : counts (n_client n) -> sized (snd x) -> sized (snd y) -> all_seen n ->
  kind_of (snd x) = kind_of (snd y) -> said (arrive (arrive n x) y) = said n ++ [snd x; snd y] ->
  latest_slot n < attests (snd x) -> attests (snd y) < attests (snd x) ->
  exists n', run n [Arrive x; Arrive y; Handle (kind_of (snd x))] = Ok n' /\ all_seen n' /\ latest_slot n' < b_slot (optimistic (lc_store (n_client n'))).
Proof.
  intros C Zx Zy S K W L1 L2.
  destruct (arrive_cases sha parse_key aggregate_verify rest cf n x C Zx) as [X|(c & X1 & X2 & _ & X4 & X5)].
  { exfalso. rewrite X in W. destruct (arrive_cases sha parse_key aggregate_verify rest cf n y C Zy) as [Y|(d & _ & _ & _ & _ & [(Y & _)|(Y & _)])];
      rewrite Y in W; apply (f_equal (@length _)) in W; rewrite ?app_length in W; cbn in W; lia. }
  assert (C' : counts (n_client (arrive n x))) by (rewrite X1; apply X2).
  destruct (arrive_cases sha parse_key aggregate_verify rest cf (arrive n x) y C' Zy) as [Y|(d & Y1 & Y2 & _ & Y4 & Y5)].
  { exfalso. rewrite Y in W. destruct X5 as [(X5 & _)|(X5 & _)]; rewrite X5 in W; apply (f_equal (@length _)) in W; rewrite ?app_length in W; cbn in W; lia. }
  destruct Y5 as [(Y5 & _)|(Y5 & Y6 & _ & _)].
  { exfalso. rewrite Y5 in W. destruct X5 as [(X5 & _)|(X5 & _)]; rewrite X5 in W; apply (f_equal (@length _)) in W; rewrite ?app_length in W; cbn in W; lia. }
  destruct X5 as [(X5 & _)|(X5 & X6 & _ & X8)].
  { exfalso. rewrite Y5, X5 in W. apply (f_equal (@length _)) in W; rewrite ?app_length in W; cbn in W; lia. }
  set (m := arrive (arrive n x) y) in *.
  assert (H : chan m (kind_of (snd x)) = {| value := Some (snd y); changed := true |}).
  { rewrite Y6, K. unfold set_chan. assert (Q : kind_eqb (kind_of (snd y)) (kind_of (snd y)) = true) by now apply kind_eqb_spec. now rewrite Q. }
  eexists. split.
  { cbn [HeadFollow_Model.run HeadFollow_Model.step obind]. fold m. unfold handle. rewrite H. cbn [changed value obind]. reflexivity. }
  split.
  - intros k. cbn [chan]. unfold set_chan. destruct (kind_eqb k (kind_of (snd x))) eqn:Q; [reflexivity|].
    rewrite Y6, X6. unfold set_chan. rewrite <-K, Q. apply S.
  - cbn [n_head n_client]. rewrite Y4, X4.
    destruct (tell_latest rest (n_head n) (snd y)) as (a & _ & A & ->). rewrite Y1.
    pose proof (optimistic_grows _ _ _ Y2) as G. rewrite X1 in G. destruct (_ <? _) eqn:E; cbn; lia.
Qed.

(** The client calls a header final only if two thirds of the committee signed; the head does not ask: an update of
    fewer signers that moves the optimistic header is published, and the head takes over its final header. *)
Theorem C117_minority_refuted n now a f fb bs sig slot : let u := FinalityUpdate a f fb bs sig slot in
  verify (lc_store (n_client n)) now u = Ok tt -> counts (n_client n) -> sized u ->
  N.max (current_max (lc_store (n_client n))) (previous_max (lc_store (n_client n))) < 2 * votes u -> 2 <= 2 * votes u -> votes u * 3 < 512 * 2 ->
  b_slot (optimistic (lc_store (n_client n))) < b_slot a -> finalized_slot n < b_slot f ->
  exists n', run n [Arrive (now, u); Handle Finality] = Ok n'
    /\ finalized (lc_store (n_client n')) = finalized (lc_store (n_client n))
    /\ ChainHead_Model.finalized (n_head n') = kept f.
Proof.
  intros u V C Z T P M O F. cbn [HeadFollow_Model.run HeadFollow_Model.step obind].
  unfold HeadFollow_Model.arrive, process. cbn [fst snd]. rewrite V.
  assert (A : optimistic (lc_store (apply_generic_update sha (n_client n) (to_generic u))) = a
              /\ finalized (lc_store (apply_generic_update sha (n_client n) (to_generic u))) = finalized (lc_store (n_client n))).
  { unfold apply_generic_update. rewrite votes_bits. set (v := votes u) in *. clearbody v.
    set (t := safety_threshold _). assert (Y : t = N.max (N.max (current_max (lc_store (n_client n))) v) (previous_max (lc_store (n_client n))) / 2) by reflexivity.
    assert (Y' : t < v) by lia. clearbody t. apply N.ltb_lt in Y'. rewrite Y'. cbn [andb optimistic finalized].
    change (attested (to_generic u)) with a. apply N.ltb_lt in O. rewrite O.
    assert (Q : 512 * 2 <=? v * 3 = false) by (apply N.leb_gt; lia). rewrite Q. cbn. auto. }
  destruct A as [A1 A2]. set (c := apply_generic_update _ _ _) in *. clearbody c.
  assert (Y : moved u (lc_store (n_client n)) (lc_store c) = true).
  { unfold moved. cbn [kind_of u]. rewrite A1. apply Bool.orb_true_iff. left. apply N.ltb_lt. exact O. }
  rewrite Y. unfold handle. cbn. eexists. split; [reflexivity|]. cbn [n_client n_head]. split; [exact A2|].
  unfold HeadFollow_Model.tell, ChainHead_Model.head_step, ChainHead_Model.update_finalized_if_newer, ChainHead_Model.update_latest_if_newer.
  destruct (_ <? ChainHead_Model.hd_slot (kept a)); cbn; apply N.ltb_lt in F; rewrite F; reflexivity.
Qed.

(** What the client accepted before the reader subscribed, in particular all of the first sync, is not told: however
    often the channels are looked at, the head stays as it was. *)
Theorem C117_before_refuted c values h ks : exists n, run (subscribe c values h) (map Handle ks) = Ok n /\ n_head n = h /\ n_client n = c.
Proof. induction ks as [|k r (n & R & E)]; cbn; eauto. Qed.
End Props.

(** The start makes at most ten attempts, one after the other with the client as the last one left it, ends with the
    first that succeeds, and fails only if all ten failed; there is one pause for each that failed. *)
Theorem C117_attempts {client : Type} (try : nat -> client -> client * bool) (c : client) :
  (exists k cs c', (k < 10)%nat /\ start try c = (Some c', k) /\ length cs = S k /\ nth_error cs 0 = Some c
     /\ (forall i a b, nth_error cs i = Some a -> nth_error cs (S i) = Some b -> try i a = (b, false))
     /\ exists d, nth_error cs k = Some d /\ try k d = (c', true))
  \/ (exists cs, start try c = (None, 10%nat) /\ length cs = 11%nat /\ nth_error cs 0 = Some c
     /\ forall i a b, nth_error cs i = Some a -> nth_error cs (S i) = Some b -> try i a = (b, false)).
Proof.
  assert (G : forall n i c,
    (exists k cs c', (k < n)%nat /\ attempts try n i c = (Some c', (i + k)%nat) /\ length cs = S k /\ nth_error cs 0 = Some c
       /\ (forall j a b, nth_error cs j = Some a -> nth_error cs (S j) = Some b -> try (i + j)%nat a = (b, false))
       /\ exists d, nth_error cs k = Some d /\ try (i + k)%nat d = (c', true))
    \/ (exists cs, attempts try n i c = (None, (i + n)%nat) /\ length cs = S n /\ nth_error cs 0 = Some c
       /\ forall j a b, nth_error cs j = Some a -> nth_error cs (S j) = Some b -> try (i + j)%nat a = (b, false))).
  { intros n. induction n as [|n IH]; intros i d; cbn [attempts].
    - right. exists [d]. rewrite Nat.add_0_r. repeat split. intros [|j] a b; cbn; [discriminate|]. destruct j; discriminate.
    - destruct (try i d) as [d' ok] eqn:T. destruct ok.
      + left. exists 0%nat, [d], d'. rewrite Nat.add_0_r. repeat split; [lia| |exists d; auto].
        intros [|j] a b; cbn; [discriminate|]. destruct j; discriminate.
      + assert (ST : forall cs, nth_error cs 0 = Some d' ->
          (forall j a b, nth_error cs j = Some a -> nth_error cs (S j) = Some b -> try (S i + j)%nat a = (b, false)) ->
          forall j a b, nth_error (d :: cs) j = Some a -> nth_error (d :: cs) (S j) = Some b -> try (i + j)%nat a = (b, false)).
        { intros cs E F [|j] a b X Y.
          - cbn in X. change (nth_error cs 0 = Some b) in Y. rewrite Nat.add_0_r. rewrite E in Y. congruence.
          - rewrite Nat.add_succ_r. apply F; assumption. }
        destruct (IH (S i) d') as [(k & cs & c' & L & E & N & H & F & e & X & Y)|(cs & E & N & H & F)].
        * left. exists (S k), (d :: cs), c'. rewrite E. split; [lia|]. split; [f_equal; lia|]. split; [cbn; lia|]. split; [reflexivity|]. split; [exact (ST cs H F)|].
          exists e. split; [exact X|]. rewrite Nat.add_succ_r. exact Y.
        * right. exists (d :: cs). rewrite E. split; [f_equal; lia|]. split; [cbn; lia|]. split; [reflexivity|exact (ST cs H F)]. }
  exact (G 10%nat 0%nat c).
Qed.

Print Assumptions C117_verified.
Print Assumptions C117_not_ahead.
Print Assumptions C117_caught_up.
Print Assumptions C117_told.
Print Assumptions C117_lost_refuted.
Print Assumptions C117_minority_refuted.
Print Assumptions C117_before_refuted.
Print Assumptions C117_attempts.

(** A client that has just started from a checkpoint; the hash and the signatures are toys. *)
Definition toy_sha (b : bytes) : bytes := repeat 0 32.
Definition toy_header (slot : N) : bheader := {| b_slot := slot; proposer := 0; parent_root := repeat 0 32; state_root := repeat 0 32; body_root := repeat 0 32 |}.
Definition toy_members : committee := {| pubkeys := repeat [] 512; aggregate_pubkey := [] |}.
Definition toy_config : config :=
  {| genesis_root := repeat 0 32; genesis_time := 0; fork_epochs := []; genesis_version := [0; 0; 0; 0]; strict_age := false; max_age := 0 |}.
Definition toy_client : client :=
  {| lc_store := {| finalized := toy_header 64; current_committee := toy_members; next_known := None; optimistic := toy_header 64;
                    previous_max := 0; current_max := 0 |}; initial_checkpoint := []; last_checkpoint := None |}.
Definition toy_head : ChainHead_Model.chain_head :=
  {| ChainHead_Model.latest := kept (fun _ => []) (toy_header 64); ChainHead_Model.finalized := kept (fun _ => []) (toy_header 64); ChainHead_Model.summaries := [] |}.
Definition toy_final (a f voters : N) : N * update :=
  (a + 1, FinalityUpdate (toy_header a) (toy_header f) (repeat (repeat 0 32) 7) (repeat true (N.to_nat voters) ++ repeat false (512 - N.to_nat voters)) [] (a + 1)).
Definition toy_optimistic (a voters : N) : N * update :=
  (a + 1, OptimisticUpdate (toy_header a) (repeat true (N.to_nat voters) ++ repeat false (512 - N.to_nat voters)) [] (a + 1)).
Notation toy_run := (run toy_sha (@Some bytes) (fun _ _ _ => true) (fun _ => []) toy_config (subscribe toy_client (fun _ => None) toy_head)).
Notation view r := (match r with
  | Ok n => Some (b_slot (optimistic (lc_store (n_client n))), b_slot (finalized (lc_store (n_client n))),
                  ChainHead_Model.hd_slot (ChainHead_Model.latest (n_head n)), ChainHead_Model.hd_slot (ChainHead_Model.finalized (n_head n)), map attests (said n))
  | _ => None end).
(** Values that are lost do no harm if they come in order. *)
Example C117_example : counts toy_client /\ view (toy_run
  [Arrive (toy_final 130 66 400); Arrive (toy_final 170 98 401); Arrive (toy_optimistic 171 300); Arrive (toy_optimistic 172 300); Handle Optimistic; Handle Finality])
  = Some (172, 98, 172, 98, [130; 170; 171; 172]).
Proof. split; [split; vm_compute; discriminate|]. vm_compute. reflexivity. Qed.
(** One signer of 512 moves the finalized header of the head, not that of the client. *)
Example C117_minority_example : view (toy_run [Arrive (toy_final 130 100 1); Handle Finality]) = Some (130, 64, 130, 100, [130]).
Proof. vm_compute. reflexivity. Qed.
(** A value is replaced by one that attests an earlier slot. *)
Example C117_lost_example : view (toy_run [Arrive (toy_final 130 66 400); Arrive (toy_final 129 98 401); Handle Finality]) = Some (130, 98, 129, 98, [130; 129]).
Proof. vm_compute. reflexivity. Qed.
(** The third attempt succeeds. *)
Example C117_attempts_example : start (fun i c => (S c, Nat.eqb i 2)) 0%nat = (Some 3%nat, 2%nat) /\ start (fun _ c => (S c, false)) 0%nat = (None, 10%nat).
Proof. split; reflexivity. Qed.
