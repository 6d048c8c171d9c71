(** The database of trin-execution: what it returns, what the state root commits to, what a restart
    finds, and which block hashes it has. *)
From Verif Require Import Base Trie_Model StateContent_Model ExecDb_Model ExecDb_Spec ExecDb_Proofs ExecDb_Runs.

Lemma short_account b : (length b < 64)%nat -> decode_account b = Err.
Proof.
  intros L. destruct (decode_account b) as [a| |] eqn:E; [apply account_long in E; lia|reflexivity|].
  exfalso. revert E. unfold decode_account. destruct (rlp_split b) as [[[[|] p] q]|]; try discriminate.
  destruct (rlp_items (length p) p) as [l|]; [|discriminate]. destruct l as [|x1 [|x2 [|x3 [|x4 [|]]]]]; try discriminate.
  destruct (as_uint 8 x1); [|discriminate]. destruct (as_uint 32 x2); [|discriminate].
  destruct (as_b256 x3); [|discriminate]. destruct (as_b256 x4); discriminate.
Qed.

Section Props.
Context (keccak : bytes -> bytes) (root_of : kv -> bytes) (alloc : list (bytes * N)).
Context (is_address is_code : bytes -> Prop) (is_number is_slot is_value : N -> Prop).
Hypothesis AP : apart keccak root_of is_address is_code is_number is_slot is_value.
Notation returns := (returns keccak is_address is_code is_number is_slot).
Notation commits := (commits keccak root_of is_address is_slot is_value).
Notation see := (see alloc keccak).
Notation events_ok := (events_ok alloc keccak is_address is_code is_number is_slot is_value).
Notation play := (play alloc keccak root_of).
Notation no_world := (no_world keccak).
Notation fits := (fits keccak is_address is_code is_slot is_value).
(** The state after a history that begins with an empty disk. *)
Definition begins (s : state) : Prop := start keccak (blank keccak) = Ok s.

Lemma shown s0 l : begins s0 -> events_ok no_world l ->
  ExecDb_Proofs.shows keccak root_of is_address is_code is_number is_slot is_value (fst (play l s0)) (fold_left see l no_world).
Proof.
  intros B OK. destruct (start_blank keccak root_of is_address is_code is_number is_slot is_value AP) as (s1 & E & S1).
  unfold begins in B. rewrite B in E. injection E as <-. apply play_shows; assumption.
Qed.
Lemma known l : events_ok no_world l -> none_known keccak (fold_left see l no_world).
Proof. intros OK. eapply none_events; [exact AP|apply none_start|exact OK]. Qed.

(** ** C91: reads return what was committed *)
Theorem C91_history : exists s0, begins s0 /\
  forall l, events_ok no_world l -> returns (fst (play l s0)) (fold_left see l no_world).
Proof.
  destruct (start_blank keccak root_of is_address is_code is_number is_slot is_value AP) as (s0 & E & _).
  exists s0. split; [exact E|]. intros l OK. eapply shows_returns; [exact AP|]. apply shown; assumption.
Qed.

(** An account whose address is deployed as the code of a contract can no longer be read, although
    the state trie still has it. *)
Theorem C91_code_as_address_refuted : forall s0 l a ia c ic, begins s0 -> events_ok no_world l ->
  let s := fst (play l s0) in let w := fold_left see l no_world in
  is_address a -> length a = 20%nat -> w_account w a = Some ia ->
  is_address c -> c <> a -> info_ok ic -> i_code_hash ic = keccak a ->
  exists s', commit_bundle keccak root_of (mk_bundle [(c, Some ic)] [(keccak a, a)] []) s = (s', Ok tt) /\
    commits (trie s') (see_account w (c, Some ic)) /\
    basic keccak s' a = Err /\ (forall n, storage keccak s' a n = Err) /\
    (forall x b, snd (commit_bundle keccak root_of (mk_bundle ((a, x) :: b) [] []) s') = Err).
Proof.
  intros s0 l a ia c ic B OK s w A La Wa C NE I Hc. pose proof (shown s0 l B OK) as SH.
  fold s in SH. fold w in SH.
  destruct (commit_accounts_ok _ _ _ _ _ _ _ AP [(c, Some ic)] s w SH) as (s1 & E1 & S1).
  { constructor; [|constructor]. split; [exact C|exact I]. }
  cbn [fold_left] in S1. exists (set_flat (fun d => put d (keccak a) a) s1). split.
  { unfold commit_bundle, bind at 1. cbn [b_accounts b_contracts b_storage]. rewrite E1. reflexivity. }
  split; [apply (shows_commits _ _ _ _ _ _ _ _ _ S1)|].
  assert (Fe : forall s2, flat s2 (keccak a) = Some a -> fetch_account (keccak a) s2 = (s2, Err)).
  { intros s2 E2. unfold fetch_account. rewrite E2, short_account by (rewrite La; lia). reflexivity. }
  assert (Fl : flat (set_flat (fun d => put d (keccak a) a) s1) (keccak a) = Some a) by (cbn [flat set_flat]; apply put_same).
  split; [unfold basic; rewrite Fe by exact Fl; reflexivity|]. split.
  - intros n. unfold storage. rewrite Fe by exact Fl. reflexivity.
  - intros x b. unfold commit_bundle, bind at 1, commit_accounts. cbn [b_accounts each fst snd]. unfold bind at 1.
    destruct x as [i|]; [unfold commit_account|unfold wipe_account_storage]; unfold bind at 1; rewrite Fe by exact Fl; reflexivity.
Qed.

(** A contract whose code is a block number written as 32 bytes replaces the hash of that block, and
    loses its code when that block leaves the window. *)
Theorem C91_code_as_number_refuted : forall s0 l n c ic, begins s0 -> events_ok no_world l ->
  let s := fst (play l s0) in let w := fold_left see l no_world in
  is_address c -> info_ok ic -> i_code_hash ic = keccak (be_bytes 32 n) ->
  exists s', commit_bundle keccak root_of (mk_bundle [(c, Some ic)] [(keccak (be_bytes 32 n), be_bytes 32 n)] []) s = (s', Ok tt) /\
    commits (trie s') (see_account w (c, Some ic)) /\
    block_hash keccak s' n = Ok (be_bytes 32 n) /\
    (forall h, code_by_hash (fst (manage_block_hash_serve_window keccak (n + 256) h s')) (keccak (be_bytes 32 n)) = Err).
Proof.
  intros s0 l n c ic B OK s w C I Hc. pose proof (shown s0 l B OK) as SH. fold s in SH. fold w in SH.
  destruct (commit_accounts_ok _ _ _ _ _ _ _ AP [(c, Some ic)] s w SH) as (s1 & E1 & S1).
  { constructor; [|constructor]. split; [exact C|exact I]. }
  cbn [fold_left] in S1. exists (set_flat (fun d => put d (keccak (be_bytes 32 n)) (be_bytes 32 n)) s1). split.
  { unfold commit_bundle, bind at 1. cbn [b_accounts b_contracts b_storage]. rewrite E1. reflexivity. }
  split; [apply (shows_commits _ _ _ _ _ _ _ _ _ S1)|]. split.
  - unfold block_hash. cbn [flat set_flat]. unfold b256. rewrite put_same, be_bytes_length. reflexivity.
  - intros h. unfold manage_block_hash_serve_window, bind, modify, BLOCKHASH_SERVE_WINDOW.
    destruct (256 <=? n + 256) eqn:E; [|lia]. cbn [fst]. unfold code_by_hash. cbn [flat set_flat].
    replace (n + 256 - 256) with n by lia. unfold b256. rewrite delete_same. reflexivity.
Qed.

(** ** C92: state roots, positions and restarts *)
(** A commit succeeds exactly if the state root of its header is the root of a trie with exactly the
    accounts and storage that reads return. *)
Theorem C92_root : forall s0 l h b, begins s0 -> events_ok no_world (l ++ [Committed h b]) ->
  let s := fst (play (l ++ [Committed h b]) s0) in let w := fold_left see (l ++ [Committed h b]) no_world in
  exists t, commits t w /\ returns s w /\
    snd (play (l ++ [Committed h b]) s0) = snd (play l s0) ++ [if beqb (root_of t) (h_state_root h) then Ok tt else Err] /\
    (root_of t = h_state_root h -> mem_pos s = mk_pos (h_number h + 1) (h_state_root h)) /\
    (root_of t <> h_state_root h -> mem_pos s = mem_pos (fst (play l s0))).
Proof.
  intros s0 l h b B OK s w. pose proof (shown s0 _ B OK) as SHall. fold s in SHall. fold w in SHall.
  apply events_app in OK. destruct OK as [OK1 [[F Hh] _]]. pose proof (shown s0 l B OK1) as SH.
  destruct (commit_ok keccak root_of is_address is_code is_number is_slot is_value AP _ _ h b SH F Hh) as (s' & E & S' & _ & P1 & P2).
  assert (Es : s = s').
  { unfold s. rewrite play_app. cbn [fst ExecDb_Spec.play do_event]. rewrite E. reflexivity. }
  exists (trie s'). split; [rewrite <- Es; apply (shows_commits _ _ _ _ _ _ _ _ _ SHall)|].
  split; [eapply shows_returns; [exact AP|exact SHall]|]. split.
  - rewrite play_app. cbn [snd ExecDb_Spec.play do_event]. rewrite E. reflexivity.
  - rewrite Es. split; intros R; [apply (P1 R)|apply (P2 R)].
Qed.
(** After a commit that succeeded, a restart finds everything as it was. *)
Theorem C92_restart : forall s0 l h b, begins s0 -> events_ok no_world (l ++ [Committed h b]) ->
  let s := fst (play (l ++ [Committed h b]) s0) in let w := fold_left see (l ++ [Committed h b]) no_world in
  last (snd (play (l ++ [Committed h b]) s0)) Err = Ok tt -> h_state_root h <> keccak [128] ->
  exists s', start keccak s = Ok s' /\ mem_pos s' = mk_pos (h_number h + 1) (h_state_root h) /\ trie s' = trie s /\
    commits (trie s') w /\
    forall r, events_ok w r -> returns (fst (play r s')) (fold_left see r w).
Proof.
  intros s0 l h b B OK s w OkL NE. pose proof (shown s0 _ B OK) as SHall. fold s in SHall. fold w in SHall.
  pose proof (known _ OK) as Kn. fold w in Kn.
  apply events_app in OK. destruct OK as [OK1 [[F Hh] _]]. pose proof (shown s0 l B OK1) as SH.
  destruct (commit_ok keccak root_of is_address is_code is_number is_slot is_value AP _ _ h b SH F Hh) as (s' & E & S' & V & P1 & P2).
  assert (Es : s = s').
  { unfold s. rewrite play_app. cbn [fst ExecDb_Spec.play do_event]. rewrite E. reflexivity. }
  assert (R : root_of (trie s') = h_state_root h).
  { rewrite play_app in OkL. cbn [snd ExecDb_Spec.play do_event] in OkL. rewrite E in OkL. cbn [snd] in OkL. rewrite last_last in OkL.
    destruct (beqb (root_of (trie s')) (h_state_root h)) eqn:Q; [apply beqb_spec, Q|discriminate]. }
  destruct (P1 R) as [M D]. rewrite Es in *. rewrite R in V.
  eexists. split; [apply (start_saved keccak s' (mk_pos (h_number h + 1) (h_state_root h)) (trie s'))|].
  - rewrite D, M. reflexivity.
  - exact NE.
  - exact V.
  - cbn [mem_pos trie]. split; [reflexivity|]. split; [reflexivity|].
    assert (SH2 : ExecDb_Proofs.shows keccak root_of is_address is_code is_number is_slot is_value
      (mk_state (put (put (flat s') (keccak_empty keccak) []) zero32 []) (saved s') (versions s') (Some (mk_pos (h_number h + 1) (h_state_root h))) (trie s') (mk_pos (h_number h + 1) (h_state_root h))) w).
    { eapply start_flat; [exact AP|exact SHall|exact Kn|]. eapply shows_state; [exact SHall| | |]; reflexivity. }
    split; [apply (shows_commits _ _ _ _ _ _ _ _ _ SHall)|].
    intros r OKr. eapply shows_returns; [exact AP|]. apply play_shows; [exact AP|exact SH2|exact OKr].
Qed.
(** A crash before the position is written: the node restarts at the old position and with the old
    state trie, but reads return the new state. *)
Theorem C92_crash_refuted : forall s0 l h b b' a, begins s0 -> events_ok no_world (l ++ [Committed h b]) ->
  let s := fst (play (l ++ [Committed h b]) s0) in let w := fold_left see (l ++ [Committed h b]) no_world in
  last (snd (play (l ++ [Committed h b]) s0)) Err = Ok tt -> h_state_root h <> keccak [128] ->
  fits w b' -> is_address a -> w_account (see_bundle w b') a <> w_account w a ->
  exists s', start keccak (fst (commit_bundle keccak root_of b' s)) = Ok s' /\
    mem_pos s' = mk_pos (h_number h + 1) (h_state_root h) /\ commits (trie s') w /\
    basic keccak s' a = Ok (w_account (see_bundle w b') a) /\ basic keccak s' a <> basic keccak s a.
Proof.
  intros s0 l h b b' a B OK s w OkL NE F' A Df. pose proof (shown s0 _ B OK) as SHall. fold s in SHall. fold w in SHall.
  pose proof (known _ OK) as Kn. fold w in Kn.
  apply events_app in OK. destruct OK as [OK1 [[F Hh] _]]. pose proof (shown s0 l B OK1) as SH.
  destruct (commit_ok keccak root_of is_address is_code is_number is_slot is_value AP _ _ h b SH F Hh) as (s' & E & S' & V & P1 & P2).
  assert (Es : s = s').
  { unfold s. rewrite play_app. cbn [fst ExecDb_Spec.play do_event]. rewrite E. reflexivity. }
  assert (R : root_of (trie s') = h_state_root h).
  { rewrite play_app in OkL. cbn [snd ExecDb_Spec.play do_event] in OkL. rewrite E in OkL. cbn [snd] in OkL. rewrite last_last in OkL.
    destruct (beqb (root_of (trie s')) (h_state_root h)) eqn:Q; [apply beqb_spec, Q|discriminate]. }
  destruct (P1 R) as [M D]. rewrite Es in *. rewrite R in V.
  pose proof (commit_bundle_only keccak root_of b' s') as (Vb & Db & _).
  destruct (commit_bundle_ok _ _ _ _ _ _ _ AP s' w b' SHall F') as (s3 & E3 & S3). rewrite E3 in *. cbn [fst] in *.
  assert (K3 : none_known keccak (see_bundle w b')).
  { apply (none_event keccak root_of alloc is_address is_code is_number is_slot is_value AP w (Committed (mk_header 0 [] []) b') Kn).
    split; [exact F'|reflexivity]. }
  eexists. split; [apply (start_saved keccak s3 (mk_pos (h_number h + 1) (h_state_root h)) (trie s'))|].
  - rewrite Db, D, M. reflexivity.
  - exact NE.
  - rewrite Vb. exact V.
  - cbn [mem_pos trie]. split; [reflexivity|]. split; [apply (shows_commits _ _ _ _ _ _ _ _ _ SHall)|].
    match goal with |- basic keccak ?x a = _ /\ _ => assert (Eb : basic keccak x a = Ok (w_account (see_bundle w b') a)) end.
    { assert (SH2 : ExecDb_Proofs.shows keccak root_of is_address is_code is_number is_slot is_value
        (mk_state (put (put (flat s3) (keccak_empty keccak) []) zero32 []) (saved s3) (versions s3) (disk_pos s3) (trie s3) (mem_pos s3)) (see_bundle w b')).
      { eapply start_flat; [exact AP|exact S3|exact K3|]. destruct s3; exact S3. }
      exact (rt_account _ _ _ _ _ _ _ (shows_returns _ _ _ _ _ _ _ AP _ _ SH2) a A). }
    split; [exact Eb|]. rewrite Eb. rewrite (rt_account _ _ _ _ _ _ _ (shows_returns _ _ _ _ _ _ _ AP _ _ SHall) a A). congruence.
Qed.
(** A commit whose state root does not match: the position stays, but reads return the new state. *)
Theorem C92_mismatch_refuted : forall s0 l h b a, begins s0 -> events_ok no_world (l ++ [Committed h b]) ->
  let s := fst (play (l ++ [Committed h b]) s0) in let w := fold_left see l no_world in
  last (snd (play (l ++ [Committed h b]) s0)) (Ok tt) = Err ->
  is_address a -> w_account (see_bundle w b) a <> w_account w a ->
  mem_pos s = mem_pos (fst (play l s0)) /\ disk_pos s = disk_pos (fst (play l s0)) /\
  basic keccak s a = Ok (w_account (see_bundle w b) a) /\ basic keccak s a <> basic keccak (fst (play l s0)) a.
Proof.
  intros s0 l h b a B OK s w ErrL A Df. apply events_app in OK. destruct OK as [OK1 [[F Hh] _]]. pose proof (shown s0 l B OK1) as SH.
  destruct (commit_ok keccak root_of is_address is_code is_number is_slot is_value AP _ _ h b SH F Hh) as (s' & E & S' & V & P1 & P2).
  assert (Es : s = s').
  { unfold s. rewrite play_app. cbn [fst ExecDb_Spec.play do_event]. rewrite E. reflexivity. }
  assert (R : root_of (trie s') <> h_state_root h).
  { rewrite play_app in ErrL. cbn [snd ExecDb_Spec.play do_event] in ErrL. rewrite E in ErrL. cbn [snd] in ErrL. rewrite last_last in ErrL.
    destruct (beqb (root_of (trie s')) (h_state_root h)) eqn:Q; [discriminate|apply beqb_false, Q]. }
  rewrite Es. destruct (P2 R) as [M D]. split; [exact M|]. split; [exact D|].
  rewrite (rt_account _ _ _ _ _ _ _ (shows_returns _ _ _ _ _ _ _ AP _ _ S') a A).
  rewrite (rt_account _ _ _ _ _ _ _ (shows_returns _ _ _ _ _ _ _ AP _ _ SH) a A).
  split; [reflexivity|]. fold w. congruence.
Qed.
(** A crash between the nodes of a storage trie and its account: the storage that was not changed can
    no longer be read. *)
Theorem C92_storage_crash_refuted : forall s0 l a changes n, begins s0 -> events_ok no_world l ->
  let s := fst (play l s0) in let w := fold_left see l no_world in
  is_address a -> w_account w a <> None -> is_slot n -> w_slot w a n <> 0 ->
  Forall (fun x => is_slot (fst x) /\ is_value (snd x) /\ snd x < 2 ^ 256) changes ->
  (forall m m', trie_of_slots keccak is_slot is_value (w_slot w a) m ->
     trie_of_slots keccak is_slot is_value (see_slots (w_slot w a) changes) m' -> root_of m <> root_of m') ->
  storage keccak s a n = Ok (w_slot w a n) /\
  storage keccak (fst (save_storage keccak root_of (keccak a) changes s)) a n = Err.
Proof.
  intros s0 l a changes n B OK s w A Wa Hn NZ F Roots. pose proof (shown s0 l B OK) as SH. fold s in SH. fold w in SH.
  destruct (w_account w a) as [i|] eqn:W; [|congruence]. split.
  { rewrite (rt_slot _ _ _ _ _ _ _ (shows_returns _ _ _ _ _ _ _ AP _ _ SH) a n A Hn), W. reflexivity. }
  destruct (save_storage_ok keccak root_of is_address is_code is_number is_slot is_value AP s w a i changes SH A W F) as (m & r0 & TS & Fl & Hr & E).
  assert (I : info_ok i) by (pose proof (sh_account _ _ _ _ _ _ _ _ _ SH a A) as H; rewrite W in H; apply H).
  rewrite E. cbn [fst]. unfold storage, fetch_account. cbn [flat set_saved]. rewrite Fl, account_round_trip.
  2: { eapply built_ok; [exact AP|exact I|exact Hr]. }
  cbn [omap obind snd storage_root saved]. unfold empty_root. destruct Hr as [[-> Z]|(N0 & m0 & Sv & R & TS0)]; [exfalso; apply NZ, Z, Hn|].
  apply beqb_false in N0. rewrite N0.
  assert (RR : r0 <> root_of m) by (rewrite R; apply Roots; assumption).
  unfold set_saved. cbn [saved]. unfold save, forget. rewrite !beqb_refl. cbn [andb]. apply beqb_false in RR. rewrite RR. reflexivity.
Qed.

(** ** C93: block hashes *)
Lemma consecutive_cons from h l : consecutive from (h :: l) -> h_number h = from /\ consecutive (from + 1) l.
Proof.
  intros C. split; [specialize (C 0%nat h eq_refl); lia|]. intros i x E. specialize (C (Datatypes.S i) x E). lia.
Qed.
Lemma hash_bundle b w : w_hash (see_bundle w b) = w_hash w.
Proof.
  unfold see_bundle.
  assert (A : forall l w, w_hash (fold_left see_account l w) = w_hash w) by (induction l as [|x l IH]; intros w'; [reflexivity|cbn [fold_left]; rewrite IH; reflexivity]).
  assert (C : forall l w, w_hash (fold_left see_code l w) = w_hash w) by (induction l as [|x l IH]; intros w'; [reflexivity|cbn [fold_left]; rewrite IH; reflexivity]).
  assert (S : forall l w, w_hash (fold_left see_storage l w) = w_hash w) by (induction l as [|x l IH]; intros w'; [reflexivity|cbn [fold_left]; rewrite IH; reflexivity]).
  rewrite S, C, A. reflexivity.
Qed.
Lemma hash_genesis l : forall w, w_hash (fold_left (see_genesis keccak) l w) = w_hash w.
Proof. induction l as [|x l IH]; intros w; [reflexivity|]. cbn [fold_left]. rewrite IH. reflexivity. Qed.
(** The hashes after consecutive blocks. *)
Lemma hashes_after l : forall w from, consecutive from (executed l) -> forall m,
  w_hash (fold_left see l w) m =
    let n := blen (executed l) in
    if (from <=? m) && (m <? from + n) then
      if from + n <=? m + 256
      then if m =? 0 then w_hash w m else option_map h_hash (nth_error (executed l) (N.to_nat (m - from)))
      else None
    else if (from <=? m + 256) && (m + 256 <? from + n) then None else w_hash w m.
Proof.
  induction l as [|e l IH]; intros w from C m; cbv zeta.
  - cbn [fold_left executed]. rewrite blen_nil. destruct (from <=? m) eqn:E1, (m <? from + 0) eqn:E2; cbn [andb]; try lia;
      destruct (from <=? m + 256) eqn:E3, (m + 256 <? from + 0) eqn:E4; cbn [andb]; try lia; reflexivity.
  - destruct e as [h|h b].
    2: { cbn [executed fold_left] in *. rewrite (IH (see w (Committed h b)) from C). cbn [see ExecDb_Spec.see]. rewrite hash_bundle. reflexivity. }
    cbn [executed] in *. apply consecutive_cons in C. destruct C as [Hn C]. cbn [fold_left].
    rewrite (IH (see w (Executed h)) (from + 1) C m). cbv zeta. rewrite blen_cons. cbn [see ExecDb_Spec.see]. rewrite Hn.
    replace (from + 1 + blen (executed l)) with (from + (1 + blen (executed l))) by lia. set (n := blen (executed l)) in *.
    assert (WH : w_hash (if from =? 0 then fold_left (see_genesis keccak) alloc w else see_hash w from (h_hash h)) m =
      if from =? 0 then w_hash w m else if m =? from then Some (h_hash h) else if m + 256 =? from then None else w_hash w m).
    { destruct (from =? 0) eqn:F0; [rewrite hash_genesis; reflexivity|]. cbn [see_hash w_hash].
      destruct (256 <=? from) eqn:F1; unfold at_num.
      - destruct (N.eq_dec m (from - 256)) as [-> |N1].
        + destruct (from - 256 =? from) eqn:E1; [lia|]. destruct (from - 256 + 256 =? from) eqn:E2; [reflexivity|lia].
        + destruct (m + 256 =? from) eqn:E2; [lia|]. destruct (N.eq_dec m from) as [-> |N2]; [rewrite N.eqb_refl; reflexivity|].
          apply N.eqb_neq in N2. rewrite N2. reflexivity.
      - destruct (m + 256 =? from) eqn:E2; [lia|]. destruct (N.eq_dec m from) as [-> |N2]; [rewrite N.eqb_refl; reflexivity|].
        apply N.eqb_neq in N2. rewrite N2. reflexivity. }
    rewrite WH. clear WH.
    destruct (N.eq_dec m from) as [-> |NE].
    + replace (from + 1 <=? from) with false by (symmetry; apply N.leb_gt; lia). cbn [andb].
      replace (from <=? from) with true by (symmetry; apply N.leb_le; lia).
      replace (from <? from + (1 + n)) with true by (symmetry; apply N.ltb_lt; lia). cbn [andb].
      replace (from - from) with 0 by lia. cbn [N.to_nat nth_error option_map].
      replace (from + 1 <=? from + 256) with true by (symmetry; apply N.leb_le; lia). cbn [andb].
      rewrite N.eqb_refl.
      destruct (from + 256 <? from + (1 + n)) eqn:E1, (from + (1 + n) <=? from + 256) eqn:E2; try lia; [reflexivity|].
      destruct (from =? 0); reflexivity.
    + assert (NEb : (m =? from) = false) by (apply N.eqb_neq, NE). rewrite NEb.
      destruct (from + 1 <=? m) eqn:E1.
      * replace (from <=? m) with true by (symmetry; apply N.leb_le; lia). cbn [andb].
        destruct (m <? from + (1 + n)) eqn:E2; cbn [andb].
        -- destruct (from + (1 + n) <=? m + 256) eqn:E3; [|reflexivity]. destruct (m =? 0) eqn:E0; [lia|].
           replace (N.to_nat (m - from)) with (Datatypes.S (N.to_nat (m - (from + 1)))) by lia. reflexivity.
        -- replace (m + 256 <? from + (1 + n)) with false by (symmetry; apply N.ltb_ge; lia). rewrite !andb_false_r.
           destruct (from =? 0); [reflexivity|]. destruct (m + 256 =? from) eqn:E4; [lia|reflexivity].
      * replace (from <=? m) with false by (symmetry; apply N.leb_gt; lia). cbn [andb].
        destruct (from + 1 <=? m + 256) eqn:E3; cbn [andb].
        -- replace (from <=? m + 256) with true by (symmetry; apply N.leb_le; lia). cbn [andb].
           destruct (m + 256 <? from + (1 + n)); [reflexivity|]. destruct (from =? 0); [reflexivity|].
           destruct (m + 256 =? from) eqn:E4; [lia|reflexivity].
        -- destruct (from <=? m + 256) eqn:E4; cbn [andb].
           ++ replace (m + 256 <? from + (1 + n)) with true by (symmetry; apply N.ltb_lt; lia).
              destruct (from =? 0) eqn:F0; [lia|]. replace (m + 256 =? from) with true by (symmetry; apply N.eqb_eq; lia). reflexivity.
           ++ destruct (from =? 0); [reflexivity|]. destruct (m + 256 =? from) eqn:E5; [lia|reflexivity].
Qed.
(** After the blocks [0..n], the hashes of the last 256 of them are known, except that of block 0. *)
Theorem C93_window : forall s0 l m, begins s0 -> events_ok no_world l -> consecutive 0 (executed l) -> is_number m ->
  block_hash keccak (fst (play l s0)) m =
    if (1 <=? m) && (blen (executed l) <=? m + 256)
    then of_option (option_map h_hash (nth_error (executed l) (N.to_nat m))) else Err.
Proof.
  intros s0 l m B OK C Hm. pose proof (shown s0 l B OK) as SH.
  rewrite (rt_hash _ _ _ _ _ _ _ (shows_returns _ _ _ _ _ _ _ AP _ _ SH) m Hm).
  rewrite (hashes_after l no_world 0 C m). cbv zeta. cbn [no_world ExecDb_Spec.no_world w_hash].
  rewrite N.add_0_l, N.sub_0_r. replace (0 <=? m) with true by (symmetry; apply N.leb_le; lia).
  replace (0 <=? m + 256) with true by (symmetry; apply N.leb_le; lia). cbn [andb].
  assert (O : blen (executed l) <= m -> nth_error (executed l) (N.to_nat m) = None) by (intros; apply nth_error_None; unfold blen in *; lia).
  destruct (m <? blen (executed l)) eqn:E1.
  - destruct (blen (executed l) <=? m + 256) eqn:E2.
    + destruct (m =? 0) eqn:E0, (1 <=? m) eqn:E3; try lia; reflexivity.
    + rewrite andb_false_r. reflexivity.
  - rewrite O by lia. cbn [option_map of_option]. destruct ((1 <=? m) && (blen (executed l) <=? m + 256)), (m + 256 <? blen (executed l)); reflexivity.
Qed.
(** The hashes that block [p] may ask for, [p - 256 .. p - 1], are therefore all there, but not that of block 0. *)
Theorem C93_served : forall s0 l m h, begins s0 -> events_ok no_world l -> consecutive 0 (executed l) -> is_number m ->
  1 <= m -> m < blen (executed l) <= m + 256 -> nth_error (executed l) (N.to_nat m) = Some h ->
  block_hash keccak (fst (play l s0)) m = Ok (h_hash h).
Proof.
  intros s0 l m h B OK C Hm L1 L2 E. rewrite (C93_window s0 l m B OK C Hm), E.
  replace (1 <=? m) with true by (symmetry; apply N.leb_le; lia).
  replace (blen (executed l) <=? m + 256) with true by (symmetry; apply N.leb_le; lia). reflexivity.
Qed.
Theorem C93_genesis_refuted : forall s0 l, begins s0 -> events_ok no_world l -> consecutive 0 (executed l) -> is_number 0 ->
  block_hash keccak (fst (play l s0)) 0 = Err.
Proof. intros s0 l B OK C H. rewrite (C93_window s0 l 0 B OK C H). reflexivity. Qed.
(** Blocks that were executed but not committed before a crash: the node executes block [p] again,
    without the hash of block [p - 256], and without any of them after 256 such blocks. *)
Theorem C93_crash_refuted : forall s0 l h b r m, begins s0 -> events_ok no_world (l ++ [Committed h b] ++ r) ->
  let p := h_number h + 1 in
  last (snd (play (l ++ [Committed h b]) s0)) Err = Ok tt -> h_state_root h <> keccak [128] ->
  (forall e, In e r -> match e with Executed _ => True | Committed _ _ => False end) ->
  consecutive p (executed r) -> is_number m -> 1 <= m -> m < p <= m + 256 -> m + 256 < p + blen (executed r) ->
  exists s', start keccak (fst (play (l ++ [Committed h b] ++ r) s0)) = Ok s' /\ next_block (mem_pos s') = p /\
    block_hash keccak s' m = Err.
Proof.
  intros s0 l h b r m B OK p OkL NE On C Hm L1 L2 L3. pose proof (shown s0 _ B OK) as SHall.
  pose proof (known _ OK) as Kn.
  rewrite app_assoc in *. apply events_app in OK. destruct OK as [OKc OKr].
  pose proof OKc as OKc'. apply events_app in OKc'. destruct OKc' as [OK1 [[F Hh] _]]. pose proof (shown s0 l B OK1) as SH.
  destruct (commit_ok keccak root_of is_address is_code is_number is_slot is_value AP _ _ h b SH F Hh) as (s' & E & S' & V & P1 & P2).
  assert (Es : fst (play (l ++ [Committed h b]) s0) = s').
  { rewrite play_app. cbn [fst ExecDb_Spec.play do_event]. rewrite E. reflexivity. }
  assert (R : root_of (trie s') = h_state_root h).
  { rewrite play_app in OkL. cbn [snd ExecDb_Spec.play do_event] in OkL. rewrite E in OkL. cbn [snd] in OkL. rewrite last_last in OkL.
    destruct (beqb (root_of (trie s')) (h_state_root h)) eqn:Q; [apply beqb_spec, Q|discriminate]. }
  destruct (P1 R) as [M D]. rewrite R in V.
  assert (Keep : forall r s, (forall e, In e r -> match e with Executed _ => True | Committed _ _ => False end) ->
    versions (fst (play r s)) = versions s /\ disk_pos (fst (play r s)) = disk_pos s).
  { clear. induction r as [|e r IH]; intros s On; [split; reflexivity|]. cbn [ExecDb_Spec.play].
    destruct (do_event alloc keccak root_of e s) as [s1 o] eqn:Ed.
    assert (G : versions s1 = versions s /\ disk_pos s1 = disk_pos s).
    { pose proof (On e (or_introl eq_refl)) as T. destruct e as [hd|]; [|contradiction]. cbn [do_event] in Ed. unfold execute_block in Ed.
      destruct (h_number hd =? 0).
      - clear - Ed. revert s s1 o Ed. unfold process_genesis. induction alloc as [|x al IH]; intros s s1 o Ed.
        + injection Ed as <- _. split; reflexivity.
        + cbn [each] in Ed. unfold bind at 1 2, modify at 1 2 in Ed. apply IH in Ed. exact Ed.
      - unfold manage_block_hash_serve_window, bind, modify in Ed. destruct (BLOCKHASH_SERVE_WINDOW <=? h_number hd); injection Ed as <- _; split; reflexivity. }
    specialize (IH s1 (fun e H => On e (or_intror H))). destruct (play r s1) as [s2 os]. cbn [fst] in *.
    destruct IH as [-> ->]. exact G. }
  destruct (Keep r s' On) as [Vr Dr].
  assert (Ef : fst (play ((l ++ [Committed h b]) ++ r) s0) = fst (play r s')) by (rewrite play_app; cbn [fst]; rewrite Es; reflexivity).
  rewrite Ef in *.
  eexists. split; [apply (start_saved keccak (fst (play r s')) (mk_pos (h_number h + 1) (h_state_root h)) (trie s'))|].
  - rewrite Dr, D, M. reflexivity.
  - exact NE.
  - rewrite Vr. exact V.
  - cbn [mem_pos next_block]. split; [reflexivity|].
    set (s3 := fst (play r s')) in *.
    assert (SH2 : ExecDb_Proofs.shows keccak root_of is_address is_code is_number is_slot is_value
        (mk_state (put (put (flat s3) (keccak_empty keccak) []) zero32 []) (saved s3) (versions s3) (disk_pos s3) (trie s3) (mem_pos s3)) (fold_left see ((l ++ [Committed h b]) ++ r) no_world)).
    { eapply start_flat; [exact AP|exact SHall|exact Kn|]. destruct s3; exact SHall. }
    etransitivity; [exact (rt_hash _ _ _ _ _ _ _ (shows_returns _ _ _ _ _ _ _ AP _ _ SH2) m Hm)|].
    rewrite fold_left_app. rewrite (hashes_after r _ p C m). cbv zeta.
    replace (p <=? m) with false by (symmetry; apply N.leb_gt; lia). cbn [andb].
    replace (p <=? m + 256) with true by (symmetry; apply N.leb_le; lia).
    replace (m + 256 <? p + blen (executed r)) with true by (symmetry; apply N.ltb_lt; lia). reflexivity.
Qed.
End Props.
Print Assumptions C91_history.
Print Assumptions C91_code_as_address_refuted.
Print Assumptions C91_code_as_number_refuted.
Print Assumptions C92_root.
Print Assumptions C92_restart.
Print Assumptions C92_crash_refuted.
Print Assumptions C92_mismatch_refuted.
Print Assumptions C92_storage_crash_refuted.
Print Assumptions C93_window.
Print Assumptions C93_served.
Print Assumptions C93_genesis_refuted.
Print Assumptions C93_crash_refuted.

(** ** A case *)
Module Toy.
(** A toy hash without collisions on short strings and on small numbers. *)
Definition h (x : bytes) : bytes :=
  if Nat.ltb (length x) 32 then firstn 31 (x ++ repeat 0 31) ++ [100 + blen x]
  else be_num x :: repeat 0 30 ++ [200].
Definition alice : bytes := repeat 1 20.
Definition bob : bytes := repeat 2 20.
Definition code : bytes := [96; 0; 85].
Definition is_address (a : bytes) : Prop := length a = 20%nat.
Definition is_code (c : bytes) : Prop := (length c < 20)%nat.
Definition is_number (n : N) : Prop := n < 2 ^ 64.
Definition is_slot (n : N) : Prop := n < 3.
Definition is_value (n : N) : Prop := n < 2 ^ 256.
(** A toy root: the values at a few keys. *)
Definition keys : list bytes := map (fun n => h (be_bytes 32 n)) [0; 1; 2] ++ [h alice; h bob].
Definition word (m : kv) (k : bytes) : N := match m k with None => 0 | Some v => 1 + be_num v end.
Definition root (m : kv) : bytes :=
  if forallb (fun k => word m k =? 0) keys then h [128]
  else firstn 31 (map (word m) keys ++ repeat 0 31) ++ [77].

Lemma h_len x : length (h x) = 32%nat.
Proof.
  unfold h. destruct (Nat.ltb (length x) 32) eqn:E; [|reflexivity].
  rewrite app_length, firstn_length, app_length, repeat_length. cbn [length]. lia.
Qed.
Lemma h_tail x : last (h x) 0 = if Nat.ltb (length x) 32 then 100 + blen x else 200.
Proof. unfold h. destruct (Nat.ltb (length x) 32); [apply last_last|reflexivity]. Qed.
Lemma h_short x y : (length x < 32)%nat -> length x = length y -> h x = h y -> x = y.
Proof.
  intros L E H. unfold h in H. rewrite <- E in H. apply Nat.ltb_lt in L. rewrite L in H. apply app_inj_tail in H. destruct H as [H _].
  apply Nat.ltb_lt in L. assert (G : forall z, length z = length x -> firstn (length x) (firstn 31 (z ++ repeat 0 31)) = z).
  { intros z Hz. rewrite firstn_firstn. replace (Init.Nat.min (length x) 31) with (length z) by lia. apply firstn_app_exact. }
  rewrite <- (G x eq_refl), <- (G y (eq_sym E)), H. reflexivity.
Qed.
Lemma h_code x y : (length x < 32)%nat -> (length y < 32)%nat -> h x = h y -> x = y.
Proof.
  intros L1 L2 H. apply h_short; [exact L1| |exact H]. pose proof (h_tail x) as T1. pose proof (h_tail y) as T2.
  apply Nat.ltb_lt in L1. apply Nat.ltb_lt in L2. rewrite L1 in T1. rewrite L2 in T2. rewrite H in T1. unfold blen in *. lia.
Qed.
Lemma h_long n : h (be_bytes 32 n) = n mod 256 ^ 32 :: repeat 0 30 ++ [200].
Proof. unfold h. rewrite be_bytes_length. cbn [Nat.ltb Nat.leb]. rewrite be_num_be_bytes. reflexivity. Qed.
Lemma small n : n < 2 ^ 64 -> n mod 256 ^ 32 = n.
Proof. intros H. apply N.mod_small. eapply N.lt_le_trans; [exact H|]. apply N.leb_le. reflexivity. Qed.
Lemma h_num a b : a < 2 ^ 64 -> b < 2 ^ 64 -> h (be_bytes 32 a) = h (be_bytes 32 b) -> a = b.
Proof.
  intros A B. rewrite !h_long, !small by assumption. intros E. injection E as E. exact E.
Qed.
Lemma h_apart x n : (length x < 32)%nat -> h x <> h (be_bytes 32 n).
Proof.
  intros L H. pose proof (h_tail x) as T1. pose proof (h_tail (be_bytes 32 n)) as T2. rewrite be_bytes_length in T2. cbn [Nat.ltb Nat.leb] in T2.
  rewrite H, T2 in T1. apply Nat.ltb_lt in L as L'. rewrite L' in T1. unfold blen in T1. lia.
Qed.
Lemma h_zero x : h x <> repeat 0 32.
Proof.
  intros H. pose proof (h_tail x) as T. rewrite H in T. change (last (repeat 0 32) 0) with 0 in T.
  destruct (Nat.ltb (length x) 32); lia.
Qed.
Lemma toy_apart : apart h root is_address is_code is_number is_slot is_value.
Proof.
  assert (SL : forall a, is_slot a -> a < 2 ^ 64) by (unfold is_slot; intros a H; eapply N.lt_trans; [exact H|reflexivity]).
  constructor.
  - exact h_len.
  - intros m. unfold root. destruct (forallb _ keys); [apply h_len|]. reflexivity.
  - unfold is_address. intros a b A B. apply h_code; lia.
  - unfold is_code. intros a b A B. apply h_code; lia.
  - intros a b A B. apply h_num; assumption.
  - intros a b A B. apply h_num; apply SL; assumption.
  - unfold is_address, is_code. intros a b A B H. apply h_code in H; [subst; lia|lia|lia].
  - unfold is_address. intros a b A B. apply h_apart. lia.
  - unfold is_code. intros a b A B. apply h_apart. lia.
  - unfold is_code. cbn. lia.
  - intros a _. apply h_zero.
  - intros a _. apply h_zero.
  - intros a _. apply h_zero.
  - intros m S R k. destruct (m k) as [v|] eqn:E; [exfalso|reflexivity]. destruct (S k v E) as (n & x & Hn & _ & _ & Hk & _).
    unfold root in R. destruct (forallb (fun k => word m k =? 0) keys) eqn:F.
    + rewrite forallb_forall in F. specialize (F k). unfold word in F. rewrite E in F. destruct (1 + be_num v =? 0) eqn:Z; [lia|].
      assert (G : false = true); [|discriminate]. apply F. unfold keys. apply in_or_app. left. rewrite Hk.
      apply (in_map (fun n => h (be_bytes 32 n))). unfold is_slot in Hn. cbn. lia.
    + pose proof (f_equal (fun l => last l 0) R) as T. cbv beta in T. rewrite last_last in T. discriminate.
Qed.

Definition alloc : list (bytes * N) := [(alice, 100)].
Definition genesis : header := mk_header 0 (root (put no_kv (h alice) (encode_account (mk_account 0 100 (h [128]) (h []))))) (repeat 7 32).
Definition one (root : bytes) : header := mk_header 1 root (repeat 8 32).
Definition first : bundle :=
  mk_bundle [(alice, Some (mk_info 60 1 (h []))); (bob, Some (mk_info 40 1 (h code)))] [(h code, code)]
    [mk_change bob false [(0, 5); (1, 6); (1, 0)]].
(** Two blocks; [r]: the state root of the second. *)
Definition history (r : bytes) : list event :=
  [Executed genesis; Committed genesis (mk_bundle [] [] []); Executed (one r); Committed (one r) first].
Lemma history_ok r : events_ok alloc h is_address is_code is_number is_slot is_value (no_world h) (history r).
Proof.
  unfold history. cbn [events_ok]. split; [|split; [|split; [|split; [|exact Logic.I]]]].
  - split; [reflexivity|]. split; [reflexivity|]. split; [cbn; lia|]. intros _. constructor; [|constructor]. repeat split.
  - split; [|reflexivity]. constructor; constructor.
  - split; [reflexivity|]. split; [reflexivity|]. split; [cbn; lia|]. intros E. discriminate E.
  - split; [|reflexivity]. constructor; cbn [b_accounts b_contracts b_storage first].
    + repeat constructor.
    + repeat constructor.
    + constructor; [|constructor]. split; [reflexivity|]. repeat constructor.
    + constructor; [|constructor]. right. cbn [fold_left see_account w_account fst snd c_address]. unfold at_key.
      destruct (bytes_eq_dec bob bob) as [_|N]; [discriminate|congruence].
Qed.
Lemma world_ok r : let w := fold_left (see alloc h) (history r) (no_world h) in
  Ok (w_account w alice) = Ok (Some (mk_info 60 1 (h []))) /\ Ok (w_account w bob) = Ok (Some (mk_info 40 1 (h code))) /\
  (match w_account w bob with Some _ => Ok (w_slot w bob 0) | None => Err end) = Ok 5 /\
  (match w_account w bob with Some _ => Ok (w_slot w bob 1) | None => Err end) = Ok 0 /\
  (match w_account w (repeat 3 20) with Some _ => Ok (w_slot w (repeat 3 20) 0) | None => Err end) = @Err N /\
  of_option (w_code w (h code)) = Ok code.
Proof.
  cbv zeta. unfold history. cbn [fold_left see h_number genesis one]. change (0 =? 0) with true. change (1 =? 0) with false. cbv iota.
  unfold see_bundle. cbn [alloc first fold_left b_accounts b_contracts b_storage see_genesis see_account see_code see_storage see_hash
    w_account w_slot w_code c_address c_wipe c_storage see_slots fst snd no_world].
  unfold at_key, at_num.
  repeat match goal with
  | |- context [bytes_eq_dec ?a ?b] => destruct (bytes_eq_dec a b) as [Q|Q]; [try (exfalso; vm_compute in Q; discriminate Q)|try (exfalso; apply Q; reflexivity)]; clear Q
  end.
  repeat match goal with
  | |- context [N.eq_dec ?a ?b] => destruct (N.eq_dec a b) as [Q|Q]; [try (exfalso; discriminate Q)|try (exfalso; apply Q; reflexivity)]; clear Q
  end.
  repeat split.
Qed.
End Toy.

Example C91_example : exists s0, begins Toy.h s0 /\ forall r,
  let s := fst (play Toy.alloc Toy.h Toy.root (Toy.history r) s0) in
  basic Toy.h s Toy.alice = Ok (Some (mk_info 60 1 (Toy.h []))) /\
  basic Toy.h s Toy.bob = Ok (Some (mk_info 40 1 (Toy.h Toy.code))) /\
  storage Toy.h s Toy.bob 0 = Ok 5 /\ storage Toy.h s Toy.bob 1 = Ok 0 /\ storage Toy.h s (repeat 3 20) 0 = Err /\
  code_by_hash s (Toy.h Toy.code) = Ok Toy.code /\
  events_ok Toy.alloc Toy.h Toy.is_address Toy.is_code Toy.is_number Toy.is_slot Toy.is_value (no_world Toy.h) (Toy.history r) /\
  apart Toy.h Toy.root Toy.is_address Toy.is_code Toy.is_number Toy.is_slot Toy.is_value.
Proof.
  destruct (C91_history Toy.h Toy.root Toy.alloc _ _ _ _ _ Toy.toy_apart) as (s0 & B & R).
  exists s0. split; [exact B|]. intros r. cbv zeta. specialize (R (Toy.history r) (Toy.history_ok r)).
  assert (A : Toy.is_address Toy.alice /\ Toy.is_address Toy.bob /\ Toy.is_address (repeat 3 20) /\ Toy.is_slot 0 /\ Toy.is_slot 1 /\ Toy.is_code Toy.code)
    by (repeat split; unfold Toy.is_code; cbn; lia).
  destruct A as (A1 & A2 & A3 & S0 & S1 & C).
  split; [rewrite (rt_account _ _ _ _ _ _ _ R _ A1); apply Toy.world_ok|].
  split; [rewrite (rt_account _ _ _ _ _ _ _ R _ A2); apply Toy.world_ok|].
  split; [rewrite (rt_slot _ _ _ _ _ _ _ R _ _ A2 S0); apply Toy.world_ok|].
  split; [rewrite (rt_slot _ _ _ _ _ _ _ R _ _ A2 S1); apply Toy.world_ok|].
  split; [rewrite (rt_slot _ _ _ _ _ _ _ R _ _ A3 S0); apply Toy.world_ok|].
  split; [rewrite (rt_code _ _ _ _ _ _ _ R _ C); apply Toy.world_ok|].
  split; [apply Toy.history_ok|apply Toy.toy_apart].
Qed.

(** The second block with its state root: the commits succeed, and a restart reads the same.  A commit
    of another bundle that is cut off by a crash is read by the restarted node at the old position; so
    is the bundle of the block with a wrong state root. *)
Definition toy_run (l : list event) : outcome (state * list (outcome unit)) :=
  omap (play Toy.alloc Toy.h Toy.root l) (start Toy.h (blank Toy.h)).
Definition toy_root : bytes := match toy_run (Toy.history (repeat 9 32)) with Ok (s, _) => Toy.root (trie s) | _ => [] end.
Definition toy_next : bundle := mk_bundle [(Toy.alice, Some (mk_info 10 2 (Toy.h [])))] [] [mk_change Toy.bob false [(2, 9)]].
Definition look (s : state) := (next_block (mem_pos s), basic Toy.h s Toy.alice, storage Toy.h s Toy.bob 0).
Example C92_example :
  omap (fun x => (snd x, look (fst x), omap look (start Toy.h (fst x)))) (toy_run (Toy.history toy_root)) =
  Ok ([Ok tt; Ok tt; Ok tt; Ok tt], (2, Ok (Some (mk_info 60 1 (Toy.h []))), Ok 5), Ok (2, Ok (Some (mk_info 60 1 (Toy.h []))), Ok 5)) /\
  toy_root <> Toy.h [128].
Proof. split; [vm_compute; reflexivity|]. intros H. apply (f_equal (fun l => last l 0)) in H. revert H. vm_compute. discriminate. Qed.
Example C92_crash_example :
  omap (fun x => omap look (start Toy.h (fst (commit_bundle Toy.h Toy.root toy_next (fst x))))) (toy_run (Toy.history toy_root)) =
  Ok (Ok (2, Ok (Some (mk_info 10 2 (Toy.h []))), Ok 5)).
Proof. vm_compute. reflexivity. Qed.
Example C92_mismatch_example :
  omap (fun x => (snd x, look (fst x))) (toy_run (Toy.history (repeat 9 32))) =
  Ok ([Ok tt; Ok tt; Ok tt; Err], (1, Ok (Some (mk_info 60 1 (Toy.h []))), Ok 5)).
Proof. vm_compute. reflexivity. Qed.
Example C92_storage_crash_example :
  omap (fun x => look (fst (save_storage Toy.h Toy.root (Toy.h Toy.bob) [(2, 9)] (fst x)))) (toy_run (Toy.history toy_root)) =
  Ok (2, Ok (Some (mk_info 60 1 (Toy.h []))), Err).
Proof. vm_compute. reflexivity. Qed.
Example C91_code_as_address_example :
  omap (fun x => look (fst (commit_bundle Toy.h Toy.root
    (mk_bundle [(Toy.bob, Some (mk_info 40 1 (Toy.h Toy.alice)))] [(Toy.h Toy.alice, Toy.alice)] []) (fst x)))) (toy_run (Toy.history toy_root)) =
  Ok (2, Err, Ok 5).
Proof. vm_compute. reflexivity. Qed.
Example C93_example : consecutive 0 (executed (Toy.history toy_root)) /\
  omap (fun x => map (block_hash Toy.h (fst x)) [0; 1; 2]) (toy_run (Toy.history toy_root)) = Ok [Err; Ok (repeat 8 32); Err].
Proof.
  split; [|vm_compute; reflexivity].
  intros [|[|i]] x E; cbn in E; try (injection E as <-; reflexivity). destruct i; discriminate.
Qed.
(** Block 257 was executed and not committed: the hash of block 1, which it may ask for, is gone. *)
Definition toy_far : header := mk_header 256 (h_state_root Toy.genesis) (repeat 6 32).
Definition toy_before : list event := [Executed Toy.genesis; Executed (Toy.one []); Committed toy_far (mk_bundle [] [] [])].
Example C93_crash_example :
  let restarted l := obind (toy_run l) (fun x => omap (fun s => (next_block (mem_pos s), block_hash Toy.h s 1)) (start Toy.h (fst x))) in
  omap snd (toy_run toy_before) = Ok [Ok tt; Ok tt; Ok tt] /\
  restarted toy_before = Ok (257, Ok (repeat 8 32)) /\
  restarted (toy_before ++ [Executed (mk_header 257 [] (repeat 5 32))]) = Ok (257, Err).
Proof. split; [vm_compute; reflexivity|]. split; vm_compute; reflexivity. Qed.
