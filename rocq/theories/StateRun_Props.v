(** The state bridge offers the state of the blocks it was asked for, and of no others. *)
From Verif Require Import Base Trie_Model StateContent_Model EraFiles_Model ExecDb_Model ExecDb_Spec ExecDb_Proofs ExecDb_Runs ExecDb_Props ExecRun_Model ExecRun_Spec ExecRun_Props ExecSnap_Model ExecSnap_Spec ExecSnap_Proofs ExecSnap_Props StateRun_Model StateRun_Spec.

(** ** Blocks *)
Section Blocks.
Context {body : Type} (chain : N -> block body).
Hypothesis CH : is_chain chain.
Context (keccak : bytes -> bytes) (root_of : kv -> bytes) (alloc : list (bytes * N)).
Notation gossip_blocks := (@gossip_blocks body keccak root_of alloc).
Notation launch_state := (@launch_state body keccak root_of alloc).
Notation process_next_block := (@process_next_block body keccak root_of alloc).
Notation at_block n := (next_block (mem_pos (n_db n))).
Notation honest_rounds := (Forall (fun r : round body => honest chain (r_files r))).

Lemma fetched files (m m' : manager body) b : get_next_block files m = (m', Ok b) -> last_fetched_block m' = Ok b.
Proof.
  assert (HIT : forall p n q, match get_block p n with Ok b0 => (mk_manager (n + 1) (Some p) q, Ok b0) | e => (mk_manager n (Some p) q, e) end = (m', Ok b) ->
    last_fetched_block m' = Ok b).
  { intros p n q E. destruct (get_block p n) as [x| |] eqn:G; try discriminate. injection E as <- <-.
    unfold last_fetched_block. cbn [m_current m_next_block]. destruct (n + 1 =? 0) eqn:Z; [lia|]. replace (n + 1 - 1) with n by lia. exact G. }
  assert (FETCH : forall cur n q, 
    match get_next_processed_e2hs files (mk_manager n cur q) with
    | (m0, Ok p) => if contains_block p (m_next_block m0) then
          match get_block p (m_next_block m0) with
          | Ok b => (mk_manager (m_next_block m0 + 1) (Some p) (m_next m0), Ok b)
          | e => (mk_manager (m_next_block m0) (Some p) (m_next m0), e) end
        else (mk_manager (m_next_block m0) (Some p) (m_next m0), Err)
    | (m0, _) => (m0, Err) end = (m', Ok b) -> last_fetched_block m' = Ok b).
  { intros cur n q. destruct (get_next_processed_e2hs files (mk_manager n cur q)) as [m0 [p| |]]; try discriminate.
    destruct (contains_block p (m_next_block m0)); [apply HIT|discriminate]. }
  destruct m as [n cur nxt]. unfold get_next_block. cbv zeta. cbn [m_current m_next_block m_next]. destruct cur as [p|]; [|apply FETCH].
  destruct (contains_block p n); [apply HIT|apply FETCH].
Qed.
Lemma commit_root h b s s' : commit keccak root_of h b s = (s', Ok tt) -> root_of (trie s') = h_state_root h.
Proof.
  unfold commit, bind at 1. destruct (commit_bundle keccak root_of b s) as [s1 [[]| |]]; try discriminate.
  unfold bind, save_trie, update_position, lift. cbn [mem_pos].
  destruct (beqb _ _) eqn:E; [|discriminate]. destruct (h_number h + 1 <? 2 ^ 64); [|discriminate]. intros [= <-]. apply beqb_spec, E.
Qed.
Lemma one_block rs n n' tr : honest_rounds rs -> valid chain (n_manager n) -> at_block n = m_next_block (n_manager n) ->
  process_next_block rs n = (n', tr, Some (Ok tt)) ->
  let h := fst (chain (at_block n)) in
  (exists b, tr = [Executed h; Committed h b]) /\ last_fetched_block (n_manager n') = Ok (chain (at_block n)) /\
  root_of (trie (n_db n')) = h_state_root h /\ valid chain (n_manager n') /\ at_block n' = m_next_block (n_manager n') /\ at_block n' = at_block n + 1.
Proof.
  intros H V Sy E h. unfold ExecRun_Model.process_next_block, ExecRun_Model.process_range_of_blocks in E. rewrite N.ltb_irrefl in E.
  destruct rs as [|r rs]; [discriminate|]. cbn [map rounds r_files r_accepts r_stop r_should_commit r_bundle] in E. apply Forall_cons_iff in H. destruct H as [H _].
  pose proof (next_block_ok chain CH (r_files r) (n_manager n) H V) as NB. pose proof (fetched (r_files r) (n_manager n)) as FE.
  destruct (get_next_block (r_files r) (n_manager n)) as [m [[h0 bd]| |]]; try discriminate. specialize (FE m _ eq_refl).
  destruct NB as (V' & Cb & NP). rewrite <- Sy in *. assert (Hh : h0 = h) by (unfold h; rewrite <- Cb; reflexivity). subst h0.
  destruct (r_accepts r); [|discriminate]. destruct (executes keccak alloc h (n_db n)) as (d & Ex & P). rewrite Ex in E.
  pose proof (commit_pos keccak root_of h (r_bundle r) d) as CP. pose proof (commit_root h (r_bundle r) d) as CR.
  destruct (commit keccak root_of h (r_bundle r) d) as [d' o]. assert (Hn : h_number h = at_block n) by (unfold h; apply CH).
  rewrite Hn, N.eqb_refl in E. cbn [orb] in E. injection E as <- <- ->. cbn [n_db n_manager].
  split; [eexists; reflexivity|]. split; [rewrite FE, Cb; reflexivity|]. split; [apply CR; reflexivity|]. split; [exact V'|].
  rewrite CP. cbn [next_block]. lia.
Qed.
Lemma gossip_ok last env : forall n, Forall (fun x => honest_rounds (fst x)) env -> valid chain (n_manager n) -> at_block n = m_next_block (n_manager n) ->
  let '(l, o) := gossip_blocks last env n [] in
  of_blocks chain (at_block n) l /\ (l = [] \/ at_block n + blen l <= last + 1) /\
  (o = Some (Ok tt) -> blen l = last + 1 - at_block n).
Proof.
  induction env as [|[rs offered] env IH]; intros n H V Sy; cbn [StateRun_Model.gossip_blocks]; destruct (at_block n <=? last) eqn:L.
  - split; [intros [|j] it E; discriminate|]. split; [left; reflexivity|discriminate].
  - split; [intros [|j] it E; discriminate|]. split; [left; reflexivity|]. intros _. change (blen (@nil (item body))) with 0. lia.
  - apply Forall_cons_iff in H. destruct H as [H0 H]. cbn [fst] in H0.
    pose proof (one_block rs n) as OB. destruct (process_next_block rs n) as [[n' tr] o].
    assert (NIL : forall o', o' <> Some (Ok tt) -> of_blocks chain (at_block n) (@nil (item body)) /\ (@nil (item body) = [] \/ at_block n + blen (@nil (item body)) <= last + 1) /\ (o' = Some (Ok tt) -> blen (@nil (item body)) = last + 1 - at_block n)).
    { intros o' NO. split; [intros [|j] it E; discriminate|]. split; [left; reflexivity|contradiction]. }
    destruct o as [[[]| |]|]; try (apply NIL; discriminate).
    destruct (OB n' tr H0 V Sy eq_refl) as ((b & Et) & LF & RT & V' & Sy' & NX). rewrite LF. cbn [app].
    assert (IT : of_block chain (at_block n) (mk_item (chain (at_block n)) (root_of (trie (n_db n'))) tr tr)).
    { unfold of_block. cbn [i_block i_root i_diff i_cache]. split; [reflexivity|]. split; [exact RT|]. exists b. split; exact Et. }
    destruct offered.
    + specialize (IH n' H V' Sy'). destruct (gossip_blocks last env n' []) as [l o]. destruct IH as (A & B & C). rewrite NX in *. split; [|split].
      * intros [|j] it E; cbn [nth_error] in E; [injection E as <-; rewrite N.add_0_r; exact IT|]. replace (at_block n + N.of_nat (S j)) with (at_block n + 1 + N.of_nat j) by lia. apply A, E.
      * right. unfold blen in *. cbn [length]. destruct B as [-> | B]; cbn [length]; lia.
      * intros Eo. specialize (C Eo). unfold blen in *. cbn [length]. lia.
    + split; [|split; [right; unfold blen; cbn [length]; lia|discriminate]].
      intros [|j] it E; cbn [nth_error] in E; [injection E as <-; rewrite N.add_0_r; exact IT|destruct j; discriminate].
  - split; [intros [|j] it E; discriminate|]. split; [left; reflexivity|]. intros _. change (blen (@nil (item body))) with 0. lia.
Qed.

(** A run over the blocks [start_block..=end_block] offers the state of these blocks in order, one after
    another from the first on, each with its own header and state root and the changes of this block only;
    never one after [end_block].  If it succeeds, it has offered them all. *)
Theorem C116_blocks : forall start_block end_block before env, honest_rounds before -> Forall (fun x => honest_rounds (fst x)) env ->
  let '(l, o) := launch_state start_block end_block before env in
  of_blocks chain start_block l /\ (l = [] \/ start_block + blen l <= end_block + 1) /\
  (o = Some (Ok tt) -> blen l = end_block + 1 - start_block).
Proof.
  intros p last before env HB HE. unfold StateRun_Model.launch_state.
  assert (NIL : forall o', o' <> Some (Ok tt) -> of_blocks chain p (@nil (item body)) /\ (@nil (item body) = [] \/ p + blen (@nil (item body)) <= last + 1) /\ (o' = Some (Ok tt) -> blen (@nil (item body)) = last + 1 - p)).
  { intros o' NO. split; [intros [|j] it E; discriminate|]. split; [left; reflexivity|contradiction]. }
  destruct (open_node keccak (blank keccak)) as [n| |] eqn:O; try (apply NIL; discriminate).
  destruct (opened chain keccak _ _ O) as (V & Sy & ST & _). apply start_pos in ST. destruct ST as [_ P0]. cbn [blank disk_pos] in P0.
  destruct (0 <? p) eqn:Z.
  - assert (HB' : Forall (fun r => honest chain (r_files r)) (unstopped before)) by (unfold unstopped; clear - HB; induction HB; constructor; assumption).
    pose proof (call_ok chain CH keccak root_of alloc (Some (p - 1), unstopped before) n HB' V Sy) as C. unfold call in C. cbn [fst snd] in C.
    destruct (process_range_of_blocks keccak root_of alloc (p - 1) (unstopped before) n) as [[n' tr] o]. destruct o as [[[]| |]|]; try (apply NIL; discriminate).
    destruct C as (k & _ & _ & _ & V' & _ & _ & _ & R). destruct (R eq_refl) as (R1 & R2 & R3).
    destruct R3 as [R3|(r & I0 & S0)]; [|exfalso; unfold unstopped in I0; apply in_map_iff in I0; destruct I0 as (y & <- & _); discriminate].
    pose proof (gossip_ok last env n' HE V' (eq_sym R1)) as G. replace (at_block n') with p in G by lia. exact G.
  - pose proof (gossip_ok last env n HE V Sy) as G. rewrite P0 in G. cbn [next_block] in G. replace p with 0 by lia. exact G.
Qed.
End Blocks.
Print Assumptions C116_blocks.

(** ** Snapshots *)
Section Snapshots.
Context {body : Type} (keccak : bytes -> bytes) (root_of : kv -> bytes).
Notation launch_snapshot := (@launch_snapshot body keccak root_of).
Notation importer := (ExecSnap_Model.importer keccak root_of).
Notation relaunched := (@relaunched body keccak root_of).

Lemma blank_start : exists f, start keccak (blank keccak) = Ok (mk_state f (fun _ _ => None) (fun _ => None) None no_kv (mk_pos 0 (empty_root keccak))).
Proof. unfold start. cbn [blank disk_pos pos_root saved versions]. rewrite beqb_refl. eexists. reflexivity. Qed.
Lemma last_hash (chain : N -> block body) files k : is_chain chain -> honest chain files -> forall m s s', valid chain m ->
  import_hashes keccak files (Datatypes.S k) m s = (s', Ok tt) ->
  flat s' (keccak (be_bytes 32 (m_next_block m + N.of_nat k))) = Some (h_hash (fst (chain (m_next_block m + N.of_nat k)))).
Proof.
  intros CH HF. induction k as [|k IH]; intros m s s' V E.
  - cbn [import_hashes] in E. pose proof (next_block_ok chain CH files m HF V) as NB. destruct (get_next_block files m) as [m' [b| |]]; try discriminate.
    destruct NB as (_ & -> & _). unfold bind, lift, modify, ret in E. injection E as <-. cbn [set_flat flat]. rewrite CH, N.add_0_r. apply put_same.
  - cbn [import_hashes] in E. pose proof (next_block_ok chain CH files m HF V) as NB. destruct (get_next_block files m) as [m' [b| |]]; try discriminate.
    destruct NB as (V' & -> & NP). unfold bind at 1, lift at 1 in E. unfold bind at 1, modify at 1 in E. specialize (IH m' _ _ V' E).
    rewrite NP in IH. replace (m_next_block m + N.of_nat (Datatypes.S k)) with (m_next_block m + 1 + N.of_nat k) by lia. exact IH.
Qed.
Lemma imported_disk (chain : N -> block body) files h l z s' : is_chain chain -> honest chain files ->
  importer files (blank keccak) h l z = (s', Ok tt) ->
  disk_pos s' = Some (mk_pos (h_number h + 1) (h_state_root h)) /\
  (exists t, versions s' (h_state_root h) = Some t /\ root_of t = h_state_root h) /\
  flat s' (keccak (be_bytes 32 (h_number h))) = Some (h_hash (fst (chain (h_number h)))).
Proof.
  intros CH HF E. unfold ExecSnap_Model.importer in E. destruct blank_start as (f & ST). rewrite ST in E. cbn [mem_pos next_block] in E. rewrite N.eqb_refl in E.
  unfold import, bind at 1 in E. unfold import_state, bind at 1 in E. destruct (import_items keccak root_of None l _) as [t1 [[]| |]]; try discriminate.
  unfold bind at 1, lift at 1 in E. destruct z as [[]| |]; try discriminate. unfold bind at 1, save_trie at 1 in E.
  destruct (beqb (root_of (trie t1)) (h_state_root h)) eqn:RT; [|discriminate]. apply beqb_spec in RT. unfold ret at 1 in E. unfold bind at 1, update_position at 1 in E.
  destruct (h_number h + 1 <? 2 ^ 64); [|discriminate]. cbn [versions trie flat saved disk_pos mem_pos] in E.
  set (t3 := mk_state _ _ _ _ _ _) in E.
  pose proof (import_hashes_same keccak files (N.to_nat (h_number h - first_hash (h_number h) + 1)) (manager_new (first_hash (h_number h))) t3) as SA.
  cbv zeta in SA. pose proof (last_hash chain files (N.to_nat (h_number h - first_hash (h_number h))) CH HF (manager_new (first_hash (h_number h))) t3 s') as LH.
  assert (Hk : N.to_nat (h_number h - first_hash (h_number h) + 1) = Datatypes.S (N.to_nat (h_number h - first_hash (h_number h)))) by lia.
  rewrite Hk in *. rewrite E in *. cbn [fst] in SA. destruct SA as (_ & SV & SD & _ & _).
  split; [rewrite SD; reflexivity|]. split.
  - exists (trie t1). rewrite SV. unfold t3. cbn [versions]. rewrite <- RT, beqb_refl. split; [reflexivity|]. reflexivity.
  - specialize (LH ltac:(right; reflexivity) eq_refl). cbn [manager_new m_next_block] in LH.
    replace (first_hash (h_number h) + N.of_nat (N.to_nat (h_number h - first_hash (h_number h)))) with (h_number h) in LH; [exact LH|].
    unfold first_hash, BLOCKHASH_SERVE_WINDOW. lia.
Qed.

(** A launch for a snapshot that succeeds on a disk that is elsewhere offers the trie that has the state
    root of the header of the downloaded file, under the hash of the block of the chain with its number;
    the disk is then after this block. *)
Theorem C116_snapshot : forall (chain : N -> block body) number w disk disk' n hash t, is_chain chain -> honest chain (blocks w) ->
  position disk <> number + 1 ->
  launch_snapshot number w disk = (disk', Ok (n, hash, t)) ->
  (forall m, keccak [] <> keccak (be_bytes 32 m) /\ repeat 0 32 <> keccak (be_bytes 32 m)) ->
  exists l h items z, listed w = Ok l /\ In number l /\ file w = Ok (h, items, z) /\ z = Ok tt /\
    n = h_number h /\ position disk' = n + 1 /\ hash = h_hash (fst (chain n)) /\
    (h_state_root h <> keccak [128] -> root_of t = h_state_root h).
Proof.
  intros chain number w disk disk' n hash t CH HF NP E SEP. unfold StateRun_Model.launch_snapshot in E.
  destruct (number =? 0); [discriminate|]. destruct (position disk =? number + 1) eqn:P; [lia|].
  destruct (listed w) as [l| |]; try discriminate. destruct (existsb (N.eqb number) l) eqn:X; [|discriminate].
  destruct (file w) as [[[h items] z]| |]; try discriminate.
  destruct (importer (blocks w) (blank keccak) h items z) as [d [[]| |]] eqn:IM; try discriminate.
  assert (Z : z = Ok tt).
  { unfold ExecSnap_Model.importer in IM. destruct (start keccak (blank keccak)); try discriminate. destruct (_ =? 0); [|discriminate].
    unfold import, bind at 1 in IM. unfold import_state, bind at 1 in IM. destruct (import_items keccak root_of None items _) as [t1 [[]| |]]; try discriminate.
    unfold bind at 1, lift at 1 in IM. destruct z as [[]| |]; [reflexivity|discriminate|discriminate]. }
  destruct (imported_disk chain _ _ _ _ _ CH HF IM) as (DP & (t0 & VS & RT) & FH).
  exists l, h, items, z. split; [reflexivity|]. split; [apply existsb_exists in X; destruct X as (y & Y & Q); apply N.eqb_eq in Q; subst y; exact Y|].
  split; [reflexivity|]. split; [exact Z|].
  unfold gossip_snapshot, position in E. rewrite DP in E. cbn [next_block] in E. destruct (h_number h + 1 =? 0) eqn:Z0; [lia|].
  replace (h_number h + 1 - 1) with (h_number h) in E by lia.
  assert (BH : forall s, flat s = put (put (flat d) (keccak_empty keccak) []) zero32 [] -> block_hash keccak s (h_number h) = if Nat.eqb (length (h_hash (fst (chain (h_number h))))) 32 then Ok (h_hash (fst (chain (h_number h)))) else Panic).
  { intros s FL. unfold block_hash, b256. rewrite FL. destruct (SEP (h_number h)) as [S1 S2]. rewrite !put_other, FH; [reflexivity| |]; intros Q; [apply S1|apply S2]; symmetry; exact Q. }
  unfold start in E. rewrite DP in E. cbn [pos_root] in E. destruct (beqb (h_state_root h) (empty_root keccak)) eqn:ER.
  - rewrite BH in E by reflexivity. destruct (Nat.eqb _ 32); [|discriminate]. injection E as <- <- <- <-. split; [reflexivity|].
    unfold position. cbn [disk_pos next_block]. split; [reflexivity|]. split; [reflexivity|]. intros NE. exfalso. apply NE. apply beqb_spec in ER. exact ER.
  - rewrite VS in E. rewrite BH in E by reflexivity. destruct (Nat.eqb _ 32); [|discriminate]. injection E as <- <- <- <-. split; [reflexivity|].
    unfold position. cbn [disk_pos next_block trie]. split; [reflexivity|]. split; [reflexivity|]. intros _. exact RT.
Qed.

Lemma gossip_again d d' r : gossip_snapshot keccak d = (d', Ok r) ->
  position d' = position d /\ exists d'', gossip_snapshot keccak d' = (d'', Ok r).
Proof.
  unfold gossip_snapshot, position. destruct (_ =? 0) eqn:Z; [discriminate|].
  unfold start. destruct (disk_pos d) as [p|] eqn:DP; [|discriminate].
  assert (HH : forall s s' n, flat s' = put (put (flat s) (keccak_empty keccak) []) zero32 [] -> (exists f, flat s = put (put f (keccak_empty keccak) []) zero32 []) ->
    block_hash keccak s' n = block_hash keccak s n).
  { intros s s' n F (f & G). unfold block_hash. rewrite F, G. unfold put. destruct (beqb _ zero32); [reflexivity|]. destruct (beqb _ (keccak_empty keccak)); reflexivity. }
  destruct (beqb (pos_root p) (empty_root keccak)) eqn:ER.
  - destruct (block_hash keccak _ (next_block p - 1)) as [hh| |] eqn:B; try discriminate. intros [= <- <-]. cbn [disk_pos versions saved flat]. split; [reflexivity|].
    rewrite Z, ER. erewrite HH; [rewrite B; eexists; reflexivity|reflexivity|eexists; reflexivity].
  - destruct (versions d (pos_root p)) as [t|] eqn:VS; [|discriminate].
    destruct (block_hash keccak _ (next_block p - 1)) as [hh| |] eqn:B; try discriminate. intros [= <- <-]. cbn [disk_pos versions saved flat]. split; [reflexivity|].
    rewrite Z, ER, VS. erewrite HH; [rewrite B; eexists; reflexivity|reflexivity|eexists; reflexivity].
Qed.
(** After a launch that succeeded with the snapshot asked for, every later one offers the same again,
    whatever the servers return: nothing is downloaded. *)
Theorem C116_again : forall number w disk disk' hash t ws, launch_snapshot number w disk = (disk', Ok (number, hash, t)) ->
  Forall (fun o => o = Ok (number, hash, t)) (relaunched number ws disk').
Proof.
  intros number w disk disk' hash t ws E.
  assert (G : exists d, gossip_snapshot keccak d = (disk', Ok (number, hash, t)) /\ number <> 0).
  { unfold StateRun_Model.launch_snapshot in E. destruct (number =? 0) eqn:Z; [discriminate|]. destruct (position disk =? number + 1); [exists disk; split; [exact E|lia]|].
    destruct (listed w) as [l| |]; try discriminate. destruct (existsb (N.eqb number) l); [|discriminate].
    destruct (file w) as [[[h items] z]| |]; try discriminate. destruct (importer _ _ _ _ _) as [d [[]| |]]; try discriminate. exists d. split; [exact E|lia]. }
  clear E. destruct G as (d & G & NZ). assert (P : position d = number + 1).
  { unfold gossip_snapshot in G. destruct (position d =? 0) eqn:Z; [discriminate|]. destruct (start keccak d); try discriminate.
    destruct (block_hash keccak _ _); try discriminate. injection G as _ E _ _. lia. }
  revert d disk' G P. induction ws as [|w' ws IH]; intros d disk' G P; [constructor|]. cbn [StateRun_Spec.relaunched].
  destruct (gossip_again _ _ _ G) as (P' & d'' & G'). unfold StateRun_Model.launch_snapshot at 1. destruct (number =? 0) eqn:Z; [lia|].
  rewrite P', P, N.eqb_refl, G'. constructor; [reflexivity|]. apply (IH disk' d'' G'). congruence.
Qed.

(** Whatever was on disk, of trin-execution too, is deleted before it is known whether the snapshot exists
    and can be had. *)
Theorem C116_deleted_refuted : forall number w disk, number <> 0 -> position disk <> number + 1 ->
  (listed w = Err \/ (exists l, listed w = Ok l /\ ~ In number l) \/ (exists l, listed w = Ok l /\ file w = Err)) ->
  launch_snapshot number w disk = (blank keccak, Err).
Proof.
  intros number w disk NZ NP H. unfold StateRun_Model.launch_snapshot. destruct (number =? 0) eqn:Z; [lia|].
  destruct (position disk =? number + 1) eqn:P; [lia|]. destruct H as [-> |[(l & -> & NI)|(l & -> & F)]]; [reflexivity| |].
  - destruct (existsb (N.eqb number) l) eqn:X; [|reflexivity]. apply existsb_exists in X. destruct X as (y & Y & Q). apply N.eqb_eq in Q. subst y. contradiction.
  - destruct (existsb (N.eqb number) l); [rewrite F; reflexivity|reflexivity].
Qed.
(** The number of the block in the file is not compared with the one asked for: the file that is served for
    one snapshot does for any other. *)
Theorem C116_number_refuted : forall number number' w disk l, listed w = Ok l -> In number l -> In number' l -> number <> 0 -> number' <> 0 ->
  position disk <> number + 1 -> position disk <> number' + 1 ->
  launch_snapshot number' w disk = launch_snapshot number w disk.
Proof.
  intros a b w disk l L IA IB NA NB PA PB. unfold StateRun_Model.launch_snapshot. rewrite L.
  assert (EX : forall y, In y l -> existsb (N.eqb y) l = true) by (intros y Y; apply existsb_exists; exists y; split; [exact Y|apply N.eqb_refl]).
  rewrite (EX a IA), (EX b IB). apply N.eqb_neq in NA, NB, PA, PB. rewrite NA, NB, PA, PB. reflexivity.
Qed.
Context (is_address is_code : bytes -> Prop) (is_number is_slot is_value : N -> Prop).
Context (AP : apart keccak root_of is_address is_code is_number is_slot is_value).
(** The position is stored before the block hashes.  If the file with the first of them cannot be had, the
    launch fails, and so does every later one for this snapshot, whatever the servers then return, until the
    directory is deleted by hand. *)
Theorem C116_stuck_refuted : forall number w disk l h items ws, number <> 0 -> position disk <> number + 1 ->
  listed w = Ok l -> In number l -> file w = Ok (h, items, Ok tt) -> h_number h = number ->
  (forall x, blocks w ((number - 256) / 8192) <> Ok x) ->
  (forall s1, start keccak (blank keccak) = Ok s1 -> snd (import_state keccak root_of h items (Ok tt) s1) = Ok tt) ->
  h_number h + 1 < 2 ^ 64 -> h_state_root h <> keccak [128] -> is_number number ->
  (forall e n, In (Account e) items -> is_number n -> ae_hash e <> keccak (be_bytes 32 n) /\ keccak (ae_code e) <> keccak (be_bytes 32 n)) ->
  exists disk', launch_snapshot number w disk = (disk', Err) /\ Forall (fun o => o = Panic) (relaunched number ws disk').
Proof.
  intros number w disk l h items ws NZ NP L I F HN NF IS BD NE IN SEP. unfold StateRun_Model.launch_snapshot.
  assert (X : existsb (N.eqb number) l = true) by (apply existsb_exists; exists number; split; [exact I|apply N.eqb_refl]).
  apply N.eqb_neq in NP. rewrite NP, L, X, F. destruct (number =? 0) eqn:Z; [lia|].
  destruct blank_start as (f & ST). pose proof ST as ST'. unfold start in ST'. cbn [blank disk_pos pos_root flat saved versions] in ST'. rewrite beqb_refl in ST'. injection ST' as Ef.
  destruct (C95_hashes_refuted keccak root_of _ _ _ _ _ AP (blocks w) (blank keccak) h items _ ltac:(rewrite HN; exact NF) ST eq_refl BD NE (IS _ ST) SEP) as (s' & E & s2 & S2 & P2 & _ & NH & _).
  { intros n Hn. unfold block_hash. cbn [flat]. rewrite <- Ef. rewrite !put_other; [reflexivity| |exact (ap_zero_number _ _ _ _ _ _ _ AP n Hn)].
    intros Q. apply (ap_code_number _ _ _ _ _ _ _ AP [] n (ap_none _ _ _ _ _ _ _ AP) Hn). symmetry. exact Q. }
  rewrite E. exists s'. split; [reflexivity|].
  assert (PS : position s' = number + 1).
  { pose proof (start_pos keccak _ _ S2) as [_ Q]. rewrite Q in P2. unfold position. destruct (disk_pos s'); [rewrite <- HN; exact P2|]. cbn [next_block] in P2. lia. }
  specialize (NH number IN).
  assert (G : forall ws d s, start keccak d = Ok s -> position d = number + 1 -> block_hash keccak s number = Err -> Forall (fun o => o = Panic) (relaunched number ws d)).
  { clear - Z AP IN. induction ws as [|w ws IH]; intros d s S P B; [constructor|]. cbn [StateRun_Spec.relaunched]. unfold StateRun_Model.launch_snapshot at 1. rewrite Z, P, N.eqb_refl.
    unfold gossip_snapshot. rewrite P. destruct (number + 1 =? 0) eqn:Z0; [lia|]. rewrite S. replace (number + 1 - 1) with number by lia. rewrite B. constructor; [reflexivity|].
    assert (AG : exists s2, start keccak s = Ok s2 /\ flat s2 = put (put (flat s) (keccak_empty keccak) []) zero32 []).
    { unfold start in S |- *. destruct (beqb (pos_root match disk_pos d with Some p => p | None => _ end) _) eqn:ER.
      - injection S as <-. cbn [disk_pos]. rewrite ER. eexists. split; reflexivity.
      - destruct (versions d _) as [t|] eqn:VS; [|discriminate]. injection S as <-. cbn [disk_pos versions]. rewrite ER, VS. eexists. split; reflexivity. }
    destruct AG as (s2 & S2 & FL). apply (IH s s2 S2).
    - unfold position in *. assert (DP : disk_pos s = disk_pos d); [|rewrite DP; exact P]. unfold start in S. destruct (beqb _ _); [injection S as <-; reflexivity|]. destruct (versions d _); [|discriminate]. injection S as <-. reflexivity.
    - unfold block_hash in *. rewrite FL. rewrite !put_other; [exact B| |exact (ap_zero_number _ _ _ _ _ _ _ AP number IN)].
      intros Q. apply (ap_code_number _ _ _ _ _ _ _ AP [] number (ap_none _ _ _ _ _ _ _ AP) IN). symmetry. exact Q. }
  exact (G ws s' s2 S2 PS NH).
Qed.
End Snapshots.
Print Assumptions C116_snapshot.
Print Assumptions C116_again.
Print Assumptions C116_deleted_refuted.
Print Assumptions C116_number_refuted.
Print Assumptions C116_stuck_refuted.

(** ** Cases *)
Definition toy_offers (start_block end_block : N) (k : nat) :=
  let (l, o) := launch_state Toy.h Toy.root Toy.alloc start_block end_block (repeat (toy_round true) 5) (repeat (repeat (toy_round true) 2, true) k) in
  (map (fun it => (h_number (fst (i_block it)), map (fun e => match e with Executed h => (false, h_number h) | Committed h _ => (true, h_number h) end) (i_cache it))) l, o).
(** Blocks 1 and 2; from genesis on; none; the file has no block 3. *)
Example C116_example :
  toy_offers 1 2 9 = ([(1, [(false, 1); (true, 1)]); (2, [(false, 2); (true, 2)])], Some (Ok tt)) /\
  toy_offers 0 1 9 = ([(0, [(false, 0); (true, 0)]); (1, [(false, 1); (true, 1)])], Some (Ok tt)) /\
  toy_offers 2 1 9 = ([], Some (Ok tt)) /\
  toy_offers 2 3 9 = ([(2, [(false, 2); (true, 2)])], Some Err) /\
  honest toy_chain toy_files.
Proof. split; [vm_compute; reflexivity|]. split; [vm_compute; reflexivity|]. split; [vm_compute; reflexivity|]. split; [vm_compute; reflexivity|apply toy_honest]. Qed.
(** A snapshot of block 1 is asked for under the numbers 1 and 7; its state root is not the one of block 1
    of the chain.  Then without the files of blocks; then it is not listed. *)
Definition toy_servers (l : list N) (files : N -> outcome (list (block unit))) : servers unit := mk_servers (Ok l) (Ok (Toy.one toy_root, toy_items, Ok tt)) files.
Definition toy_launch number (w : servers unit) disk := let (d, o) := launch_snapshot Toy.h Toy.root number w disk in (d, omap (fun x => (fst x, beqb (Toy.root (snd x)) toy_root)) o).
Example C116_snapshot_example :
  let w := toy_servers [1; 7] toy_files in let x := toy_launch 1 w (blank Toy.h) in let y := toy_launch 1 (toy_servers [1] (fun _ => Err)) (blank Toy.h) in
  snd x = Ok (1, be_bytes 32 1, true) /\ snd (toy_launch 1 (toy_servers [] (fun _ => Err)) (fst x)) = snd x /\
  snd (toy_launch 7 w (blank Toy.h)) = snd x /\ h_state_root (fst (toy_chain 1)) <> toy_root /\
  snd y = Err /\ snd (toy_launch 1 w (fst y)) = Panic /\
  position (fst (toy_launch 3 w (fst x))) = 0.
Proof.
  cbv zeta. split; [vm_compute; reflexivity|]. split; [vm_compute; reflexivity|]. split; [vm_compute; reflexivity|].
  split; [intros Q; vm_compute in Q; discriminate|]. split; [vm_compute; reflexivity|]. split; [vm_compute; reflexivity|vm_compute; reflexivity].
Qed.
