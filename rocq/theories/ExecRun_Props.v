(** trin-execution executes the blocks of the chain one after another. *)
From Verif Require Import Base Trie_Model StateContent_Model ExecDb_Model ExecDb_Spec ExecDb_Proofs ExecDb_Runs ExecDb_Props ExecRun_Model ExecRun_Spec.

Section Props.
Context {body : Type} (chain : N -> block body).
Hypothesis CH : is_chain chain.
Context (keccak : bytes -> bytes) (root_of : kv -> bytes) (alloc : list (bytes * N)).
Notation rounds := (@rounds body keccak root_of alloc).
Notation process_range_of_blocks := (@process_range_of_blocks body keccak root_of alloc).
Notation process_next_block := (@process_next_block body keccak root_of alloc).
Notation play := (play alloc keccak root_of).
Notation idx := index_from_block_number.

(** ** The supply of blocks *)
Definition valid (m : manager body) : Prop :=
  match m_current m with
  | None => m_next m = None \/ m_next m = Some (idx (m_next_block m))
  | Some p => file_of chain (p_index p) (p_blocks p) /\ (p_index p = idx (m_next_block m) \/ p_index p + 1 = idx (m_next_block m)) /\
              (m_next m = None \/ m_next m = Some (p_index p + 1))
  end.
Lemma idx_step n : idx (n + 1) = idx n \/ idx (n + 1) = idx n + 1.
Proof. unfold index_from_block_number, BLOCKS_PER_E2HS. lia. Qed.
Lemma get_valid p n b : file_of chain (p_index p) (p_blocks p) -> p_index p = idx n -> get_block p n = Ok b -> b = chain n.
Proof.
  intros (_ & _ & F) I. unfold get_block, index_from_block_number, BLOCKS_PER_E2HS in *.
  destruct (n <? p_index p * 8192) eqn:E; [discriminate|].
  destruct (nth_error (p_blocks p) (N.to_nat (n - p_index p * 8192))) as [x|] eqn:Q; [|discriminate].
  cbn [of_option]. intros [= <-]. rewrite (F _ _ Q). f_equal. lia.
Qed.
Lemma get_no_panic (p : processed body) n : p_index p = idx n -> get_block p n <> Panic.
Proof.
  intros I. unfold get_block, index_from_block_number, BLOCKS_PER_E2HS in *.
  destruct (n <? p_index p * 8192) eqn:E; [lia|]. destruct (nth_error _ _); discriminate.
Qed.
Lemma await_ok files i p : honest chain files -> await files i = Ok p -> p_index p = i /\ file_of chain i (p_blocks p).
Proof.
  intros H. unfold await. destruct (files i) as [l| |] eqn:E; cbn [obind]; try discriminate.
  destruct l as [|b l]; [discriminate|]. cbn [process_e2hs_file]. intros [= <-]. cbn [p_index p_blocks].
  pose proof (H i _ E) as F. split; [|exact F]. destruct F as (_ & _ & F). specialize (F 0%nat b eq_refl). rewrite F, CH.
  unfold BLOCKS_PER_E2HS. lia.
Qed.
Lemma next_block_ok files m : honest chain files -> valid m ->
  let '(m', o) := get_next_block files m in
  valid m' /\ match o with
              | Ok b => b = chain (m_next_block m) /\ m_next_block m' = m_next_block m + 1
              | Err => m_next_block m' = m_next_block m
              | Panic => False
              end.
Proof.
  intros H V. destruct m as [n cur nxt]. unfold get_next_block. cbv zeta. cbn [m_current m_next_block m_next] in *.
  assert (HIT : forall p q, file_of chain (p_index p) (p_blocks p) -> p_index p = idx n -> (q = None \/ q = Some (p_index p + 1)) ->
    forall m' o, match get_block p n with Ok b => (mk_manager (n + 1) (Some p) q, Ok b) | e => (mk_manager n (Some p) q, e) end = (m', o) ->
    valid m' /\ match o with Ok b => b = chain n /\ m_next_block m' = n + 1 | Err => m_next_block m' = n | Panic => False end).
  { intros p q F I Q m' o E. destruct (get_block p n) as [b| |] eqn:G; injection E as <- <-; cbn [m_next_block].
    - split; [|split; [eapply get_valid; eassumption|reflexivity]]. unfold valid. cbn [m_current m_next_block m_next].
      split; [exact F|]. split; [|exact Q]. destruct (idx_step n) as [X|X]; rewrite X, I; [left|right]; reflexivity.
    - split; [|reflexivity]. unfold valid. cbn [m_current m_next_block m_next]. tauto.
    - exfalso. apply (get_no_panic p n I G). }
  assert (FETCH : (nxt = None \/ nxt = Some (idx n)) -> 
    (forall q, q = None -> valid (mk_manager n cur q)) ->
    forall m' o, match get_next_processed_e2hs files (mk_manager n cur nxt) with
    | (m0, Ok p) => if contains_block p (m_next_block m0) then
          match get_block p (m_next_block m0) with
          | Ok b => (mk_manager (m_next_block m0 + 1) (Some p) (m_next m0), Ok b)
          | e => (mk_manager (m_next_block m0) (Some p) (m_next m0), e) end
        else (mk_manager (m_next_block m0) (Some p) (m_next m0), Err)
    | (m0, _) => (m0, Err) end = (m', o) ->
    valid m' /\ match o with Ok b => b = chain n /\ m_next_block m' = n + 1 | Err => m_next_block m' = n | Panic => False end).
  { intros Q VN m' o E. unfold get_next_processed_e2hs in E. cbn [m_next m_next_block m_current] in E. destruct Q as [-> | ->].
    - injection E as <- <-. split; [apply VN; reflexivity|reflexivity].
    - destruct (await files (idx n)) as [p| |] eqn:A.
      + apply await_ok in A; [|exact H]. destruct A as [I F]. rewrite <- I in F. cbn [m_next m_next_block m_current] in E.
        unfold contains_block in E. rewrite I, N.eqb_refl in E. rewrite <- I in E. eapply HIT; [exact F|exact I| |exact E]. right. reflexivity.
      + injection E as <- <-. split; [apply VN; reflexivity|reflexivity].
      + injection E as <- <-. split; [apply VN; reflexivity|reflexivity]. }
  destruct cur as [p|].
  - destruct V as (F & I & Q). cbn [m_current m_next_block m_next] in *. destruct (contains_block p n) eqn:C.
    + unfold contains_block in C. apply N.eqb_eq in C.
      pose proof (HIT p nxt F C Q) as G. match goal with |- let '(_, _) := ?x in _ => destruct x as [m' o] end. apply G; reflexivity.
    + unfold contains_block in C. apply N.eqb_neq in C. destruct I as [I|I]; [congruence|].
      assert (G := FETCH ltac:(rewrite <- I; exact Q)).
      match type of G with ?A -> _ => assert (GA : A) end; [intros q ->|specialize (G GA); match goal with |- let '(_, _) := ?x in _ => destruct x as [m' o] end; apply G; reflexivity].
      unfold valid. cbn [m_current m_next_block m_next]. split; [exact F|]. split; [right; exact I|left; reflexivity].
  - assert (G := FETCH V).
    match type of G with ?A -> _ => assert (GA : A) end; [intros q ->; left; reflexivity|specialize (G GA)]. match goal with |- let '(_, _) := ?x in _ => destruct x as [m' o] end. apply G; reflexivity.
Qed.

(** ** The loop *)
Lemma executes h s : exists s', execute_block keccak alloc h s = (s', Ok tt) /\ mem_pos s' = mem_pos s.
Proof.
  unfold execute_block. destruct (h_number h =? 0).
  - unfold process_genesis. generalize alloc. intros l. revert s. induction l as [|x l IH]; intros s; [exists s; split; reflexivity|].
    cbn [each]. cbv zeta. unfold bind at 1. unfold bind at 1. unfold modify at 1. unfold modify at 1.
    match goal with |- exists s', ?f ?x = _ /\ _ => destruct (IH x) as (s' & E & P); exists s' end. split; [exact E|exact P].
  - unfold manage_block_hash_serve_window, bind, modify, ret. destruct (BLOCKHASH_SERVE_WINDOW <=? h_number h); eexists; split; reflexivity.
Qed.
Lemma commit_pos h b s : let '(s', o) := commit keccak root_of h b s in
  match o with Ok _ => mem_pos s' = mk_pos (h_number h + 1) (h_state_root h) | _ => mem_pos s' = mem_pos s end.
Proof.
  unfold commit, bind at 1. pose proof (commit_bundle_only keccak root_of b s) as (_ & _ & P).
  destruct (commit_bundle keccak root_of b s) as [s1 [[]| |]]; cbn [fst] in P; try exact P.
  unfold bind, save_trie, update_position, lift. cbn [mem_pos].
  destruct (beqb _ _); [|exact P]. destruct (h_number h + 1 <? 2 ^ 64); [reflexivity|exact P].
Qed.
Lemma blocks_S p k : blocks_from chain p (S k) = fst (chain p) :: blocks_from chain (p + 1) k.
Proof.
  unfold blocks_from. cbn [seq map]. f_equal; [do 2 f_equal; lia|]. rewrite <- seq_shift, map_map. apply map_ext. intros i. do 2 f_equal. lia.
Qed.

Lemma rounds_ok last rs : forall n, Forall (fun r => honest chain (r_files r)) rs -> valid (n_manager n) ->
  next_block (mem_pos (n_db n)) <= m_next_block (n_manager n) ->
  let p := m_next_block (n_manager n) in
  let '(n', tr, o) := rounds last rs n in
  exists k, executed tr = blocks_from chain p k /\ commits_what_ran tr /\ n_db n' = fst (play tr (n_db n)) /\ valid (n_manager n') /\
    (p <= last -> p + N.of_nat k <= last + 1) /\
    (next_block (mem_pos (n_db n')) = next_block (mem_pos (n_db n)) \/ p < next_block (mem_pos (n_db n')) <= p + N.of_nat k) /\
    match o with
    | Some (Ok _) => (exists tr' h b, tr = tr' ++ [Executed h; Committed h b]) /\
        m_next_block (n_manager n') = p + N.of_nat k /\ next_block (mem_pos (n_db n')) = p + N.of_nat k /\
        (p + N.of_nat k = last + 1 \/ exists r, In r rs /\ r_stop r = true)
    | None => m_next_block (n_manager n') = p + N.of_nat k
    | _ => m_next_block (n_manager n') = p + N.of_nat k \/ m_next_block (n_manager n') = p + N.of_nat k + 1
    end.
Proof.
  induction rs as [|r rs IH]; intros n H V LE p.
  { cbn [ExecRun_Model.rounds]. exists 0%nat. repeat split; try exact Logic.I; try exact V; cbn; lia. }
  apply Forall_cons_iff in H. destruct H as [H0 H]. cbn [ExecRun_Model.rounds].
  pose proof (next_block_ok (r_files r) (n_manager n) H0 V) as NB. destruct (get_next_block (r_files r) (n_manager n)) as [m o].
  destruct NB as [V' NB]. fold p in NB. destruct o as [[h bd]| |]; [|exists 0%nat; cbn [n_db n_manager executed play ExecDb_Spec.play fst]; repeat split; try exact V'; cbn; lia|contradiction].
  destruct NB as [Ch NP]. assert (Hh : h = fst (chain p)) by (rewrite <- Ch; reflexivity). assert (Hn : h_number h = p) by (rewrite Hh; apply CH).
  destruct (r_accepts r).
  2: { exists 0%nat. cbn [n_db n_manager executed play ExecDb_Spec.play fst]. repeat split; try exact V'; cbn; lia. }
  destruct (executes h (n_db n)) as (d & E & P). rewrite E. pose proof (commit_pos h (r_bundle r) d) as CP.
  assert (B1 : blocks_from chain p 1 = [h]) by (rewrite Hh; unfold blocks_from; cbn [seq map]; do 3 f_equal; lia).
  assert (P1 : forall d' o, commit keccak root_of h (r_bundle r) d = (d', o) -> fst (play [Executed h; Committed h (r_bundle r)] (n_db n)) = d').
  { intros d' o' C. cbn [ExecDb_Spec.play do_event]. rewrite E, C. reflexivity. }
  destruct (commit keccak root_of h (r_bundle r) d) as [d' o]. specialize (P1 d' o eq_refl).
  destruct ((h_number h =? last) || r_stop r) eqn:ST.
  { exists 1%nat. cbn [n_db n_manager]. split; [symmetry; exact B1|]. split; [repeat split|]. split; [symmetry; exact P1|]. split; [exact V'|].
    split; [cbn; lia|]. split.
    - destruct o as [[]| |]; [right; rewrite CP; cbn [next_block]; lia|left; rewrite CP, P; reflexivity|left; rewrite CP, P; reflexivity].
    - destruct o as [[]| |]; [|left; cbn; lia|left; cbn; lia]. split; [exists [], h, (r_bundle r); reflexivity|]. split; [cbn; lia|].
      split; [rewrite CP; cbn; lia|]. apply orb_prop in ST. destruct ST as [ST|ST]; [left; lia|right; exists r; split; [left; reflexivity|exact ST]]. }
  apply orb_false_elim in ST. destruct ST as [ST1 _].
  destruct (r_should_commit r && _).
  - destruct o as [[]| |].
    2,3: exists 1%nat; cbn [n_db n_manager]; split; [symmetry; exact B1|]; split; [repeat split|]; split; [symmetry; exact P1|]; split; [exact V'|];
      split; [cbn; lia|]; split; [left; rewrite CP, P; reflexivity|left; cbn; lia].
    specialize (IH (mk_node d' m) H V'). cbn [n_db n_manager] in IH. rewrite CP in IH. cbn [next_block] in IH. specialize (IH ltac:(lia)).
    destruct (rounds last rs (mk_node d' m)) as [[n' tr] o']. destruct IH as (k & X & W & D & V2 & L & Q & R). exists (S k).
    rewrite NP in *. split; [rewrite blocks_S; cbn [executed]; f_equal; [exact Hh|exact X]|]. split; [split; [reflexivity|exact W]|].
    split; [rewrite D; change (Executed h :: Committed h (r_bundle r) :: tr) with ([Executed h; Committed h (r_bundle r)] ++ tr); rewrite play_app, P1; reflexivity|].
    split; [exact V2|]. split; [intros; lia|]. split; [right; destruct Q; lia|].
    destruct o' as [[[]| |]|].
    + destruct R as ((tr' & h' & b' & ->) & R2 & R3 & R4). split; [exists (Executed h :: Committed h (r_bundle r) :: tr'), h', b'; reflexivity|].
      split; [lia|]. split; [lia|]. destruct R4 as [R4|(r0 & I0 & S0)]; [left; lia|right; exists r0; split; [right; exact I0|exact S0]].
    + lia.
    + lia.
    + lia.
  - specialize (IH (mk_node d m) H V'). cbn [n_db n_manager] in IH. rewrite P in IH. specialize (IH ltac:(lia)).
    destruct (rounds last rs (mk_node d m)) as [[n' tr] o']. destruct IH as (k & X & W & D & V2 & L & Q & R). exists (S k).
    rewrite NP in *. split; [rewrite blocks_S; cbn [executed]; f_equal; [exact Hh|exact X]|].
    split.
    { cbn [commits_what_ran]. destruct tr as [|[h1|h1 b1] tr]; [exact Logic.I|exact W|destruct W]. }
    split; [rewrite D; cbn [ExecDb_Spec.play do_event]; rewrite E; destruct (play tr d); reflexivity|].
    split; [exact V2|]. split; [intros; lia|]. split; [lia|].
    destruct o' as [[[]| |]|].
    + destruct R as ((tr' & h' & b' & ->) & R2 & R3 & R4). split; [exists (Executed h :: tr'), h', b'; reflexivity|].
      split; [lia|]. split; [lia|]. destruct R4 as [R4|(r0 & I0 & S0)]; [left; lia|right; exists r0; split; [right; exact I0|exact S0]].
    + lia.
    + lia.
    + lia.
Qed.

(** ** Calls *)
Notation call := (@call body keccak root_of alloc).
Notation calls := (@calls body keccak root_of alloc).
Notation position n := (next_block (mem_pos (n_db n))).
Notation honest_call := (fun c : option N * list (round body) => Forall (fun r => honest chain (r_files r)) (snd c)).

Lemma blocks_app p j k : blocks_from chain p (j + k) = blocks_from chain p j ++ blocks_from chain (p + N.of_nat j) k.
Proof.
  revert p. induction j as [|j IH]; intros p; [change (N.of_nat 0) with 0; rewrite N.add_0_r; reflexivity|].
  cbn [Nat.add]. rewrite !blocks_S, IH. cbn [app]. replace (p + N.of_nat (S j)) with (p + 1 + N.of_nat j) by lia. reflexivity.
Qed.
Lemma executed_app l r : executed (l ++ r) = executed l ++ executed r.
Proof. induction l as [|[h|h b] l IH]; cbn [executed app]; [reflexivity|f_equal; exact IH|exact IH]. Qed.
Lemma ran_app l : forall r, commits_what_ran l -> commits_what_ran r -> commits_what_ran (l ++ r).
Proof.
  assert (G : forall k l r, (length l <= k)%nat -> commits_what_ran l -> commits_what_ran r -> commits_what_ran (l ++ r)).
  { induction k as [|k IH]; intros [|[h|h b] t] r L A B; cbn [length app] in *; try exact B; try lia; [|destruct A].
    cbn [commits_what_ran] in *. destruct t as [|[h1|h1 b1] t]; cbn [app].
    - destruct r as [|[h1|h1 b1] r]; [exact Logic.I|exact B|destruct B].
    - apply (IH (Executed h1 :: t) r); [cbn [length] in *; lia|exact A|exact B].
    - destruct A as [A1 A2]. split; [exact A1|]. apply IH; [cbn [length] in *; lia|exact A2|exact B]. }
  intros r. apply (G (length l)). lia.
Qed.

Lemma call_ok c n : honest_call c -> valid (n_manager n) -> position n = m_next_block (n_manager n) ->
  let '(n', tr, o) := call c n in
  exists k, executed tr = blocks_from chain (position n) k /\ commits_what_ran tr /\ n_db n' = fst (play tr (n_db n)) /\ valid (n_manager n') /\
    position n <= position n' <= position n + N.of_nat k /\
    (forall last, fst c = Some last -> k = 0%nat \/ position n + N.of_nat k <= last + 1) /\ (fst c = None -> (k <= 1)%nat) /\
    (o = Some (Ok tt) -> m_next_block (n_manager n') = position n' /\ position n' = position n + N.of_nat k /\
        match fst c with
        | None => k = 1%nat
        | Some last => position n' = last + 1 \/ exists r, In r (snd c) /\ r_stop r = true
        end).
Proof.
  intros H V Sy. destruct c as [[last|] rs]; cbn [fst snd] in *; unfold ExecRun_Spec.call; cbn [fst snd].
  - unfold ExecRun_Model.process_range_of_blocks. destruct (last <? position n) eqn:L.
    { exists 0%nat. repeat split; try exact V; try lia; try discriminate; try (intros; left; reflexivity). }
    pose proof (rounds_ok last rs n H V ltac:(lia)) as R. cbv zeta in R. rewrite <- Sy in R.
    destruct (rounds last rs n) as [[n' tr] o]. destruct R as (k & X & W & D & V' & LL & Q & R). exists k.
    split; [exact X|]. split; [exact W|]. split; [exact D|]. split; [exact V'|]. split; [lia|].
    split; [intros l [= <-]; right; apply LL; lia|]. split; [discriminate|].
    intros ->. destruct R as (_ & R1 & R2 & R3). split; [congruence|]. split; [exact R2|].
    destruct R3 as [R3|R3]; [left; lia|right; exact R3].
  - unfold ExecRun_Model.process_next_block, ExecRun_Model.process_range_of_blocks. rewrite N.ltb_irrefl.
    set (rs' := map _ rs).
    assert (H' : Forall (fun r => honest chain (r_files r)) rs').
    { unfold rs'. clear - H. induction H; constructor; assumption. }
    pose proof (rounds_ok (position n) rs' n H' V ltac:(lia)) as R. cbv zeta in R. rewrite <- Sy in R.
    destruct (rounds (position n) rs' n) as [[n' tr] o]. destruct R as (k & X & W & D & V' & LL & Q & R). exists k.
    split; [exact X|]. split; [exact W|]. split; [exact D|]. split; [exact V'|]. split; [lia|]. split; [discriminate|]. split; [intros _; lia|].
    intros ->. destruct R as (_ & R1 & R2 & R3). split; [congruence|]. split; [exact R2|].
    destruct R3 as [R3|(r & I0 & S0)]; [lia|]. exfalso. unfold rs' in I0. apply in_map_iff in I0. destruct I0 as (x & <- & _). discriminate.
Qed.
Lemma calls_ok l : forall n, Forall honest_call l -> valid (n_manager n) -> position n = m_next_block (n_manager n) ->
  let '(n', tr, os) := calls l n in
  Forall (fun o => o = Some (Ok tt)) os ->
  exists k, executed tr = blocks_from chain (position n) k /\ commits_what_ran tr /\ n_db n' = fst (play tr (n_db n)) /\ valid (n_manager n') /\
    m_next_block (n_manager n') = position n' /\ position n' = position n + N.of_nat k.
Proof.
  induction l as [|c l IH]; intros n H V Sy; cbn [ExecRun_Spec.calls].
  { intros _. exists 0%nat. repeat split; [exact V|symmetry; exact Sy|lia]. }
  apply Forall_cons_iff in H. destruct H as [H0 H]. pose proof (call_ok c n H0 V Sy) as C.
  destruct (call c n) as [[n1 t1] o1]. specialize (IH n1 H).
  destruct C as (k & X & W & D & V' & Q & _ & _ & R).
  destruct (calls l n1) as [[n2 t2] os]. intros F. apply Forall_cons_iff in F. destruct F as [-> F].
  destruct (R eq_refl) as (R1 & R2 & _). destruct (IH V' (eq_sym R1) F) as (k2 & X2 & W2 & D2 & V2 & Q2 & P2).
  exists (k + k2)%nat.
  split; [rewrite executed_app, blocks_app, X, X2, R2; reflexivity|]. split; [apply ran_app; assumption|].
  split; [rewrite play_app; cbn [fst]; rewrite <- D; exact D2|]. split; [exact V2|]. split; [exact Q2|lia].
Qed.
Lemma opened disk n : open_node keccak disk = Ok n ->
  valid (n_manager n) /\ position n = m_next_block (n_manager n) /\ start keccak disk = Ok (n_db n) /\ n_manager n = manager_new (position n).
Proof.
  unfold open_node. destruct (start keccak disk) as [s| |]; cbn [omap obind]; try discriminate. intros [= <-]. cbn [n_db n_manager].
  repeat split. right. reflexivity.
Qed.

(** ** C94 *)
(** After a start and calls that succeeded, the next call goes on where they ended: the blocks of the
    chain from the position of the start are executed one after another, each once, and only a block
    that was just executed is committed.  The database is what these events make of it. *)
Theorem C94_order : forall disk n l c, open_node keccak disk = Ok n -> Forall honest_call (c :: l) ->
  let '(n1, tr1, os) := calls l n in Forall (fun o => o = Some (Ok tt)) os ->
  let '(n2, tr2, o) := call c n1 in
  exists j k, executed tr1 = blocks_from chain (position n) j /\ position n1 = position n + N.of_nat j /\
    executed (tr1 ++ tr2) = blocks_from chain (position n) (j + k) /\ commits_what_ran (tr1 ++ tr2) /\
    n_db n2 = fst (play (tr1 ++ tr2) (n_db n)) /\
    position n1 <= position n2 <= position n1 + N.of_nat k /\
    (forall last, fst c = Some last -> k = 0%nat \/ position n1 + N.of_nat k <= last + 1) /\ (fst c = None -> (k <= 1)%nat).
Proof.
  intros disk n l c O H. apply Forall_cons_iff in H. destruct H as [H0 H]. destruct (opened _ _ O) as (V & Sy & _).
  pose proof (calls_ok l n H V Sy) as A. destruct (calls l n) as [[n1 t1] os]. intros F. destruct (A F) as (j & X & W & D & V1 & S1 & P1).
  pose proof (call_ok c n1 H0 V1 (eq_sym S1)) as C. destruct (call c n1) as [[n2 t2] o]. destruct C as (k & X2 & W2 & D2 & _ & Q & L1 & L2 & _).
  exists j, k. split; [exact X|]. split; [exact P1|]. split; [rewrite executed_app, blocks_app, X, X2, P1; reflexivity|].
  split; [apply ran_app; assumption|]. split; [rewrite play_app; cbn [fst]; rewrite <- D; exact D2|]. repeat split; try lia; assumption.
Qed.
(** A call that succeeds has executed the blocks up to the one asked for, or to where it was stopped,
    and the position is that of the block after them. *)
Theorem C94_done : forall disk n l c, open_node keccak disk = Ok n -> Forall honest_call (c :: l) ->
  let '(n1, tr1, os) := calls l n in Forall (fun o => o = Some (Ok tt)) os ->
  let '(n2, tr2, o) := call c n1 in
  o = Some (Ok tt) ->
  exists k, executed tr2 = blocks_from chain (position n1) k /\ position n2 = position n1 + N.of_nat k /\
    match fst c with
    | None => k = 1%nat
    | Some last => position n2 = last + 1 \/ exists r, In r (snd c) /\ r_stop r = true
    end.
Proof.
  intros disk n l c O H. apply Forall_cons_iff in H. destruct H as [H0 H]. destruct (opened _ _ O) as (V & Sy & _).
  pose proof (calls_ok l n H V Sy) as A. destruct (calls l n) as [[n1 t1] os]. intros F. destruct (A F) as (j & X & W & D & V1 & S1 & P1).
  pose proof (call_ok c n1 H0 V1 (eq_sym S1)) as C. destruct (call c n1) as [[n2 t2] o]. destruct C as (k & X2 & W2 & D2 & _ & Q & L1 & L2 & R).
  intros ->. destruct (R eq_refl) as (_ & R1 & R2). exists k. split; [exact X2|]. split; [exact R1|exact R2].
Qed.

(** The position on disk. *)
Definition pos_saved (s : state) : Prop := match disk_pos s with Some p => p | None => mk_pos 0 (empty_root keccak) end = mem_pos s.
Lemma executes_pos h s : pos_saved s -> pos_saved (fst (execute_block keccak alloc h s)).
Proof.
  unfold execute_block. destruct (h_number h =? 0).
  - unfold process_genesis. generalize alloc. intros l. revert s. induction l as [|x l IH]; intros s P; [exact P|].
    cbn [each]. cbv zeta. unfold bind at 1. unfold bind at 1. unfold modify at 1. unfold modify at 1. apply IH. exact P.
  - unfold manage_block_hash_serve_window, bind, modify, ret. destruct (BLOCKHASH_SERVE_WINDOW <=? h_number h); intros P; exact P.
Qed.
Lemma commit_saves h b s : pos_saved s -> pos_saved (fst (commit keccak root_of h b s)).
Proof.
  intros P. unfold commit, bind at 1. pose proof (commit_bundle_only keccak root_of b s) as (_ & P1 & P2).
  assert (Q : pos_saved (fst (commit_bundle keccak root_of b s))) by (unfold pos_saved in *; rewrite P1, P2; exact P).
  destruct (commit_bundle keccak root_of b s) as [s1 [[]| |]]; cbn [fst] in *; try exact Q.
  unfold bind, save_trie, update_position, lift. cbn [mem_pos].
  destruct (beqb _ _); [|exact Q]. destruct (h_number h + 1 <? 2 ^ 64); [reflexivity|exact Q].
Qed.
Lemma rounds_pos last rs : forall n, pos_saved (n_db n) -> pos_saved (n_db (fst (fst (rounds last rs n)))).
Proof.
  induction rs as [|r rs IH]; intros n P; [exact P|]. cbn [ExecRun_Model.rounds].
  destruct (get_next_block (r_files r) (n_manager n)) as [m [[h bd]| |]]; [|exact P|exact P]. destruct (r_accepts r); [|exact P].
  pose proof (executes_pos h (n_db n) P) as P1. destruct (execute_block keccak alloc h (n_db n)) as [d [[]| |]]; cbn [fst] in P1; try exact P1.
  pose proof (commit_saves h (r_bundle r) d P1) as P2. destruct (commit keccak root_of h (r_bundle r) d) as [d' o]. cbn [fst] in P2.
  destruct ((h_number h =? last) || r_stop r); [exact P2|]. destruct (r_should_commit r && _).
  - destruct o as [[]| |]; [|exact P2|exact P2]. specialize (IH (mk_node d' m) P2). destruct (rounds last rs (mk_node d' m)) as [[n' tr] o']. exact IH.
  - specialize (IH (mk_node d m) P1). destruct (rounds last rs (mk_node d m)) as [[n' tr] o']. exact IH.
Qed.
Lemma call_pos c n : pos_saved (n_db n) -> pos_saved (n_db (fst (fst (call c n)))).
Proof.
  intros P. destruct c as [[last|] rs]; unfold ExecRun_Spec.call, ExecRun_Model.process_next_block, ExecRun_Model.process_range_of_blocks; cbn [fst snd].
  - destruct (last <? position n); [exact P|]. apply rounds_pos, P.
  - rewrite N.ltb_irrefl. apply rounds_pos, P.
Qed.
Lemma calls_pos l : forall n, pos_saved (n_db n) -> pos_saved (n_db (fst (fst (calls l n)))).
Proof.
  induction l as [|c l IH]; intros n P; [exact P|]. cbn [ExecRun_Spec.calls]. pose proof (call_pos c n P) as P1.
  destruct (call c n) as [[n1 t1] o1]. specialize (IH n1 P1). destruct (calls l n1) as [[n2 t2] os]. exact IH.
Qed.
Lemma start_pos disk s : start keccak disk = Ok s -> pos_saved s /\ mem_pos s = match disk_pos disk with Some p => p | None => mk_pos 0 (empty_root keccak) end.
Proof.
  unfold start. destruct (beqb _ _); [intros [= <-]; split; reflexivity|]. destruct (versions disk _); [|discriminate]. intros [= <-]. split; reflexivity.
Qed.
(** Whatever happened, errors and a stop in the middle included, a node that is started again goes on
    at the position that was committed last. *)
Theorem C94_restart : forall disk n l n2 c, open_node keccak disk = Ok n ->
  let '(n1, tr1, os) := calls l n in
  open_node keccak (n_db n1) = Ok n2 -> honest_call c ->
  position n2 = position n1 /\
  let '(n3, tr3, o) := call c n2 in exists k, executed tr3 = blocks_from chain (position n1) k.
Proof.
  intros disk n l n2 c O. destruct (opened _ _ O) as (_ & _ & S0 & _). apply start_pos in S0. destruct S0 as [P0 _].
  pose proof (calls_pos l n P0) as P1. destruct (calls l n) as [[n1 t1] os]. cbn [fst] in P1. intros O2 H.
  destruct (opened _ _ O2) as (V & Sy & S2 & _). apply start_pos in S2. destruct S2 as [_ E]. unfold pos_saved in P1. rewrite P1 in E.
  rewrite E. split; [reflexivity|]. pose proof (call_ok c n2 H V Sy) as C. destruct (call c n2) as [[n3 t3] o].
  destruct C as (k & X & _). exists k. rewrite X, E. reflexivity.
Qed.

(** Without a restart: after a block that the EVM did not accept, the next call does not execute this
    block again but begins with the one after it; and the call for the next block never succeeds. *)
Theorem C94_retry_refuted : forall disk n rs r last l, open_node keccak disk = Ok n ->
  honest chain (r_files r) -> r_accepts r = false -> (exists b, snd (get_next_block (r_files r) (n_manager n)) = Ok b) ->
  position n <= last ->
  let '(n1, tr1, o1) := call (Some last, r :: rs) n in
  o1 = Some Err /\ tr1 = [] /\ position n1 = position n /\
  (forall c, honest_call c -> let '(n2, tr2, o2) := call c n1 in
     (exists k, executed tr2 = blocks_from chain (position n + 1) k)) /\
  (honest_call (None, l) -> let '(n2, tr2, o2) := call (None, l) n1 in o2 <> Some (Ok tt)).
Proof.
  intros disk n rs r last l O H A (b & B) L. destruct (opened _ _ O) as (V & Sy & _).
  unfold ExecRun_Spec.call at 1, ExecRun_Model.process_range_of_blocks. cbn [fst snd].
  destruct (last <? position n) eqn:LL; [lia|]. cbn [ExecRun_Model.rounds]. rewrite A.
  pose proof (next_block_ok (r_files r) (n_manager n) H V) as NB. destruct (get_next_block (r_files r) (n_manager n)) as [m o].
  cbn [snd] in B. subst o. destruct NB as (V' & _ & NP). destruct b as [h bd]. rewrite <- Sy in NP.
  split; [reflexivity|]. split; [reflexivity|]. split; [reflexivity|]. cbn [n_db n_manager].
  assert (G : forall last0 rs0, Forall (fun r => honest chain (r_files r)) rs0 ->
    let '(n2, tr2, o2) := rounds last0 rs0 (mk_node (n_db n) m) in
    (exists k, executed tr2 = blocks_from chain (position n + 1) k) /\
    (o2 = Some (Ok tt) -> last0 = position n -> exists r, In r rs0 /\ r_stop r = true)).
  { intros last0 rs0 H0. pose proof (rounds_ok last0 rs0 (mk_node (n_db n) m) H0 V') as R. cbn [n_manager n_db] in R. rewrite NP in R.
    specialize (R ltac:(lia)). cbv zeta in R. destruct (rounds last0 rs0 (mk_node (n_db n) m)) as [[n2 t2] o2].
    destruct R as (k & X & _ & _ & _ & _ & _ & R). split; [exists k; exact X|]. intros -> ->. destruct R as ((t' & h' & b' & Et) & R2 & R3 & R4).
    destruct R4 as [R4|R4]; [|exact R4]. exfalso.
    apply (f_equal (@length _)) in X. rewrite Et, executed_app, app_length in X. unfold blocks_from in X. rewrite map_length, seq_length in X.
    cbn [executed length] in X. lia. }
  split.
  - intros [[last0|] rs0] H0; unfold ExecRun_Spec.call, ExecRun_Model.process_next_block, ExecRun_Model.process_range_of_blocks; cbn [fst snd n_db] in *.
    + destruct (last0 <? position n); [exists 0%nat; reflexivity|]. specialize (G last0 rs0 H0).
      destruct (rounds last0 rs0 (mk_node (n_db n) m)) as [[n2 t2] o2]. apply G.
    + rewrite N.ltb_irrefl. match goal with |- context [rounds ?a ?b ?c] => specialize (G a b) end.
      destruct (rounds _ _ _) as [[n2 t2] o2]. apply G. clear - H0. induction H0; constructor; assumption.
  - intros H0. unfold ExecRun_Spec.call, ExecRun_Model.process_next_block, ExecRun_Model.process_range_of_blocks. cbn [fst snd n_db] in *.
    rewrite N.ltb_irrefl. match goal with |- context [rounds ?a ?b ?c] => specialize (G a b) end.
    destruct (rounds _ _ _) as [[n2 t2] o2]. intros ->. destruct G as [_ G]; [clear - H0; induction H0; constructor; assumption|].
    destruct (G eq_refl eq_refl) as (x & I0 & S0). apply in_map_iff in I0. destruct I0 as (y & <- & _). discriminate.
Qed.
(** After one failed download of the first file, no later call executes anything, whatever the
    downloads would return. *)
Theorem C94_download_refuted : forall disk n r rs last, open_node keccak disk = Ok n ->
  (forall i, r_files r i = Err) -> position n <= last ->
  let '(n1, tr1, o1) := call (Some last, r :: rs) n in
  o1 = Some Err /\ tr1 = [] /\
  forall l, Forall (fun c => snd c <> []) l ->
    let '(n2, tr2, os) := calls l n1 in tr2 = [] /\ Forall (fun o => o = Some Err) os.
Proof.
  intros disk n r rs last O F L. destruct (opened _ _ O) as (_ & _ & _ & M).
  unfold ExecRun_Spec.call at 1, ExecRun_Model.process_range_of_blocks. cbn [fst snd].
  destruct (last <? position n) eqn:LL; [lia|]. cbn [ExecRun_Model.rounds]. rewrite M.
  unfold manager_new, get_next_block, get_next_processed_e2hs. cbn [m_current m_next m_next_block]. unfold await. rewrite F. cbn [obind].
  split; [reflexivity|]. split; [reflexivity|]. set (n1 := mk_node _ _).
  assert (G : forall last0 rs0, rs0 <> [] -> rounds last0 rs0 n1 = (n1, [], Some Err)).
  { intros last0 [|r0 rs0] NE; [congruence|]. reflexivity. }
  induction l as [|c l IH]; intros H; cbn [ExecRun_Spec.calls]; [split; [reflexivity|constructor]|].
  apply Forall_cons_iff in H. destruct H as [H0 H].
  assert (C : call c n1 = (n1, [], Some Err)).
  { destruct c as [[last0|] rs0]; unfold ExecRun_Spec.call, ExecRun_Model.process_next_block, ExecRun_Model.process_range_of_blocks; cbn [fst snd] in *.
    - destruct (last0 <? position n1); [reflexivity|apply G, H0].
    - rewrite N.ltb_irrefl. apply G. destruct rs0; [congruence|discriminate]. }
  rewrite C. specialize (IH H). destruct (calls l n1) as [[n2 t2] os]. destruct IH as [-> IH]. split; [reflexivity|constructor; [reflexivity|exact IH]].
Qed.

(** From an empty disk on, reads return what these events make of the world, and the last 256 hashes are served. *)
Theorem C94_reads : forall (is_address is_code : bytes -> Prop) (is_number is_slot is_value : N -> Prop),
  apart keccak root_of is_address is_code is_number is_slot is_value ->
  forall n l c, open_node keccak (blank keccak) = Ok n -> Forall honest_call (c :: l) ->
  let '(n1, tr1, os) := calls l n in Forall (fun o => o = Some (Ok tt)) os ->
  let '(n2, tr2, o) := call c n1 in
  let tr := tr1 ++ tr2 in
  events_ok alloc keccak is_address is_code is_number is_slot is_value (no_world keccak) tr ->
  returns keccak is_address is_code is_number is_slot (n_db n2) (fold_left (see alloc keccak) tr (no_world keccak)) /\
  (forall m, is_number m -> 1 <= m -> m < blen (executed tr) <= m + 256 -> block_hash keccak (n_db n2) m = Ok (h_hash (fst (chain m)))).
Proof.
  intros is_address is_code is_number is_slot is_value AP n l c O H. pose proof (C94_order _ n l c O H) as A.
  destruct (calls l n) as [[n1 t1] os]. intros F. specialize (A F). destruct (call c n1) as [[n2 t2] o]. cbv zeta. intros OK.
  destruct A as (j & k & _ & _ & X & _ & D & _). destruct (opened _ _ O) as (_ & _ & S0 & _).
  pose proof (start_pos _ _ S0) as [_ P0]. cbn [blank disk_pos] in P0. rewrite P0 in X. cbn [next_block] in X.
  destruct (C91_history keccak root_of alloc _ _ _ _ _ AP) as (s0 & B & R). unfold begins in B. rewrite S0 in B. injection B as <-.
  rewrite D. split; [apply R, OK|]. intros m Hm L1 L2.
  assert (NE : nth_error (executed (t1 ++ t2)) (N.to_nat m) = Some (fst (chain m))).
  { rewrite X in *. unfold blocks_from, blen in *. rewrite map_length, seq_length in L2. rewrite nth_error_map, nth_error_nth' with (d := 0%nat) by (rewrite seq_length; lia).
    cbn [option_map]. rewrite seq_nth by lia. do 3 f_equal. lia. }
  apply (C93_served keccak root_of alloc _ _ _ _ _ AP (n_db n) (t1 ++ t2) m _ S0 OK); try assumption.
  rewrite X. intros i h E. unfold blocks_from in E. rewrite nth_error_map in E. destruct (nth_error (seq 0 (j + k)) i) as [y|] eqn:Y; [|discriminate].
  injection E as <-. apply nth_error_nth with (d := 0%nat) in Y as Y'. assert (i < j + k)%nat by (rewrite <- (seq_length (j + k) 0); apply nth_error_Some; congruence).
  rewrite seq_nth in Y' by assumption. subst y. rewrite CH. lia.
Qed.
End Props.
Print Assumptions C94_order.
Print Assumptions C94_done.
Print Assumptions C94_restart.
Print Assumptions C94_retry_refuted.
Print Assumptions C94_download_refuted.
Print Assumptions C94_reads.

(** ** A case: a chain of empty blocks, in files of three *)
Definition toy_chain (n : N) : block unit := (mk_header n (h_state_root Toy.genesis) (be_bytes 32 n), tt).
Definition toy_files (i : N) : outcome (list (block unit)) :=
  Ok (map (fun j => toy_chain (8192 * i + N.of_nat j)) (seq 0 3)).
Definition toy_round (accepts : bool) : round unit := mk_round toy_files accepts false false (mk_bundle [] [] []).
Lemma toy_is_chain : is_chain toy_chain.
Proof. intros n. reflexivity. Qed.
Lemma toy_honest : honest toy_chain toy_files.
Proof.
  intros i l [= <-]. split; [discriminate|]. split; [vm_compute; discriminate|].
  intros j b E. destruct j as [|[|[|j]]]; cbn [nth_error] in E; try (injection E as <-; reflexivity). destruct j; discriminate.
Qed.
Definition toy_calls (l : list (option N * list (round unit))) :=
  omap (fun n => let '(n', tr, os) := calls Toy.h Toy.root Toy.alloc l n in
        (map h_number (executed tr), os, next_block (mem_pos (n_db n')), block_hash Toy.h (n_db n') 1)) (open_node Toy.h (blank Toy.h)).
(** Blocks 0 and 1, then 2; the file has no block 3. *)
Example C94_example :
  toy_calls [(Some 1, repeat (toy_round true) 5); (None, repeat (toy_round true) 5); (None, repeat (toy_round true) 5)] =
  Ok ([0; 1; 2], [Some (Ok tt); Some (Ok tt); Some Err], 3, Ok (be_bytes 32 1)).
Proof. vm_compute. reflexivity. Qed.
(** Block 1 is not accepted once: the next call executes block 2 and does not end there. *)
Example C94_retry_example :
  toy_calls [(None, [toy_round true]); (Some 2, [toy_round false]); (None, [toy_round true])] =
  Ok ([0; 2], [Some (Ok tt); Some Err; None], 1, Err).
Proof. vm_compute. reflexivity. Qed.
Example C94_download_example :
  toy_calls [(None, [mk_round (fun _ => Err) true false false (mk_bundle [] [] [])]); (None, repeat (toy_round true) 5)] =
  Ok ([], [Some Err; Some Err], 0, Err).
Proof. vm_compute. reflexivity. Qed.
