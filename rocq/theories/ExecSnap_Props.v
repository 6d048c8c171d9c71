(** A snapshot carries the state from one node to another. *)
From Verif Require Import Base Trie_Model StateContent_Model EraFiles_Model ExecDb_Model ExecDb_Spec ExecDb_Proofs ExecDb_Runs ExecDb_Props ExecRun_Model ExecRun_Spec ExecRun_Props ExecSnap_Model ExecSnap_Spec ExecSnap_Proofs.

(** ** Block hashes *)
Section Hashes.
Context {body : Type} (chain : N -> block body).
Hypothesis CH : is_chain chain.
Context (keccak : bytes -> bytes) (root_of : kv -> bytes).
Context (is_address is_code : bytes -> Prop) (is_number is_slot is_value : N -> Prop).
Context (AP : apart keccak root_of is_address is_code is_number is_slot is_value).
Context (files : N -> outcome (list (block body))).
Hypothesis HF : honest chain files.
Notation shows := (shows keccak root_of is_address is_code is_number is_slot is_value).

Definition fresh (m : manager body) : Prop :=
  match m_current m with
  | None => m_next m = Some (m_next_block m / 8192)
  | Some p => files (p_index p) = Ok (p_blocks p) /\ m_next m = Some (p_index p + 1) /\
              (p_index p = m_next_block m / 8192 \/ p_index p + 1 = m_next_block m / 8192)
  end.
Lemma available_ok m : fresh m -> available files (m_next_block m) ->
  exists m', get_next_block files m = (m', Ok (chain (m_next_block m))) /\ fresh m' /\ m_next_block m' = m_next_block m + 1.
Proof.
  destruct m as [n cur nxt]. cbn [m_next_block]. intros V (l & EL & LL). change (list (header * body)) with (list (block body)) in l.
  assert (LN : n mod 8192 < N.of_nat (@length (block body) l)) by exact LL. clear LL. rename LN into LL. unfold fresh in V. cbn [m_current m_next_block m_next] in *.
  assert (GB : forall p : processed body, p_index p = n / 8192 -> p_blocks p = l -> get_block p n = Ok (chain n)).
  { intros p I B. unfold get_block, BLOCKS_PER_E2HS. cbv zeta. rewrite I, B. replace (n <? n / 8192 * 8192) with false by (symmetry; apply N.ltb_ge; lia).
    destruct (nth_error l (N.to_nat (n - n / 8192 * 8192))) as [b|] eqn:Q; [|apply nth_error_None in Q; lia].
    destruct (HF _ _ EL) as (_ & _ & F). rewrite (F _ _ Q). cbn [of_option]. do 2 f_equal. lia. }
  assert (FR : forall p : processed body, p_index p = n / 8192 -> p_blocks p = l -> fresh (mk_manager (n + 1) (Some p) (Some (p_index p + 1)))).
  { intros p I B. unfold fresh. cbn [m_current m_next_block m_next]. rewrite I, B. split; [exact EL|]. split; [reflexivity|]. lia. }
  unfold get_next_block. cbv zeta. cbn [m_current m_next_block m_next].
  assert (AW : nxt = Some (n / 8192) -> exists p, get_next_processed_e2hs files (mk_manager n cur nxt) = (mk_manager n cur (Some (p_index p + 1)), Ok p) /\
     p_index p = n / 8192 /\ p_blocks p = l).
  { intros ->. unfold get_next_processed_e2hs. cbn [m_next m_next_block m_current]. pose proof (await_ok chain CH files (n / 8192)) as A.
    unfold await in *. rewrite EL in *. cbn [obind] in *. destruct l as [|b l']; [cbn [length] in LL; lia|].
    cbn [process_e2hs_file] in *. destruct (A _ HF eq_refl) as [I _]. eexists. split; [reflexivity|]. split; [exact I|reflexivity]. }
  destruct cur as [p|].
  - destruct V as (FO & Q & I). unfold contains_block at 1, index_from_block_number, BLOCKS_PER_E2HS. destruct (N.eqb_spec (p_index p) (n / 8192)) as [C|C].
    + unfold contains_block, index_from_block_number, BLOCKS_PER_E2HS. rewrite C, N.eqb_refl. rewrite C in FO. rewrite EL in FO. injection FO as FO.
      rewrite (GB p C (eq_sym FO)), Q. eexists. split; [reflexivity|]. split; [apply FR; [exact C|symmetry; exact FO]|reflexivity].
    + destruct I as [I|I]; [congruence|]. destruct (AW ltac:(rewrite <- I; exact Q)) as (p' & EP & I' & B'). rewrite EP. cbn [m_next_block m_next m_current].
      unfold contains_block, index_from_block_number, BLOCKS_PER_E2HS. rewrite I', N.eqb_refl, (GB p' I' B').
      eexists. split; [reflexivity|]. rewrite <- I'. split; [apply FR; assumption|reflexivity].
  - destruct (AW V) as (p' & EP & I' & B'). rewrite EP. cbn [m_next_block m_next m_current].
    unfold contains_block, index_from_block_number, BLOCKS_PER_E2HS. rewrite I', N.eqb_refl, (GB p' I' B').
    eexists. split; [reflexivity|]. rewrite <- I'. split; [apply FR; assumption|reflexivity].
Qed.

Fixpoint add_hashes (p : N) (k : nat) (f : N -> option bytes) : N -> option bytes :=
  match k with O => f | Datatypes.S k => add_hashes (p + 1) k (at_num p (Some (h_hash (fst (chain p)))) f) end.
Lemma add_hashes_at k : forall p f n, add_hashes p k f n = if (p <=? n) && (n <? p + N.of_nat k) then Some (h_hash (fst (chain n))) else f n.
Proof.
  induction k as [|k IH]; intros p f n; cbn [add_hashes].
  - destruct (N.leb_spec p n); destruct (N.ltb_spec n (p + N.of_nat 0)); cbn [andb]; try reflexivity. lia.
  - rewrite IH. unfold at_num. destruct (N.eq_dec n p) as [-> |NE].
    + replace (p + 1 <=? p) with false by (symmetry; apply N.leb_gt; lia). replace (p <=? p) with true by (symmetry; apply N.leb_le; lia).
      replace (p <? p + N.of_nat (Datatypes.S k)) with true by (symmetry; apply N.ltb_lt; lia). reflexivity.
    + replace (p + 1 <=? n) with (p <=? n) by (destruct (N.leb_spec p n), (N.leb_spec (p + 1) n); try reflexivity; lia).
      replace (n <? p + N.of_nat (Datatypes.S k)) with (n <? p + 1 + N.of_nat k) by (f_equal; lia). reflexivity.
Qed.
Lemma import_hashes_same k : forall m s, let s' := fst (import_hashes keccak files k m s) in
  saved s' = saved s /\ versions s' = versions s /\ disk_pos s' = disk_pos s /\ trie s' = trie s /\ mem_pos s' = mem_pos s.
Proof.
  induction k as [|k IH]; intros m s; cbn [import_hashes]; [repeat split|]. destruct (get_next_block files m) as [m' o].
  unfold bind at 1, lift at 1. destruct o as [b| |]; [|repeat split|repeat split]. unfold bind at 1, modify at 1.
  match goal with |- context [import_hashes keccak files k m' ?x] => specialize (IH m' x) end. exact IH.
Qed.
Lemma hashes_ok k : forall m s w, shows s w -> valid chain m ->
  (forall i, i < N.of_nat k -> is_number (m_next_block m + i) /\ length (h_hash (fst (chain (m_next_block m + i)))) = 32%nat) ->
  let '(s', o) := import_hashes keccak files k m s in
  o <> Panic /\ (o = Ok tt -> shows s' (mk_world (w_account w) (w_slot w) (w_code w) (add_hashes (m_next_block m) k (w_hash w)))).
Proof.
  induction k as [|k IH]; intros m s w SH V R; cbn [import_hashes].
  - unfold ret. split; [discriminate|]. intros _. destruct w; exact SH.
  - pose proof (next_block_ok chain CH files m HF V) as NB. destruct (get_next_block files m) as [m' o]. destruct NB as [V' NB].
    unfold bind at 1, lift at 1. destruct o as [b| |]; [|split; discriminate|destruct NB]. destruct NB as [-> NB].
    unfold bind at 1, modify at 1. rewrite CH. destruct (R 0 ltac:(lia)) as [R1 R2]. rewrite N.add_0_r in R1, R2.
    pose proof (hash_put _ _ _ _ _ _ _ AP s w _ _ SH R1 R2) as S1.
    specialize (IH m' _ _ S1 V'). rewrite NB in IH. cbn [w_account w_slot w_code w_hash] in IH.
    match type of IH with ?A -> _ => assert (GA : A) end.
    { intros i Hi. replace (m_next_block m + 1 + i) with (m_next_block m + (i + 1)) by lia. apply R. lia. }
    specialize (IH GA). exact IH.
Qed.
Lemma import_hashes_frame k : forall m s q, valid chain m ->
  (forall i, i < N.of_nat k -> q <> keccak (be_bytes 32 (m_next_block m + i))) -> flat (fst (import_hashes keccak files k m s)) q = flat s q.
Proof.
  induction k as [|k IH]; intros m s q V Q; cbn [import_hashes]; [reflexivity|].
  pose proof (next_block_ok chain CH files m HF V) as NB. destruct (get_next_block files m) as [m' o]. destruct NB as [V' NB].
  unfold bind at 1, lift at 1. destruct o as [b| |]; try reflexivity. destruct NB as [-> NB].
  unfold bind at 1, modify at 1. rewrite CH. rewrite IH.
  - unfold set_flat. cbn [flat]. apply put_other. specialize (Q 0 ltac:(lia)). rewrite N.add_0_r in Q. exact Q.
  - exact V'.
  - intros i Hi. rewrite NB. replace (m_next_block m + 1 + i) with (m_next_block m + (i + 1)) by lia. apply Q. lia.
Qed.
Lemma hashes_done k : forall m s, fresh m -> (forall i, i < N.of_nat k -> available files (m_next_block m + i)) ->
  snd (import_hashes keccak files k m s) = Ok tt.
Proof.
  induction k as [|k IH]; intros m s F A; cbn [import_hashes]; [reflexivity|].
  destruct (available_ok m F) as (m' & E & F' & NB). { specialize (A 0 ltac:(lia)). rewrite N.add_0_r in A. exact A. }
  rewrite E. unfold bind at 1, lift at 1. unfold bind at 1, modify at 1. apply IH; [exact F'|].
  intros i Hi. rewrite NB. replace (m_next_block m + 1 + i) with (m_next_block m + (i + 1)) by lia. apply A. lia.
Qed.
End Hashes.

(** ** Round trip *)
Section Props.
Context (keccak : bytes -> bytes) (root_of : kv -> bytes) (iter : kv -> list (bytes * bytes)) (alloc : list (bytes * N)).
Context (is_address is_code : bytes -> Prop) (is_number is_slot is_value : N -> Prop).
Context (AP : apart keccak root_of is_address is_code is_number is_slot is_value).
Context (RF : root_fun keccak root_of).
Notation shows := (shows keccak root_of is_address is_code is_number is_slot is_value).
Notation imported := (imported keccak root_of is_address is_code is_number is_slot is_value).
Notation returns := (returns keccak is_address is_code is_number is_slot).
Notation commits := (commits keccak root_of is_address is_slot is_value).
Notation events_ok := (events_ok alloc keccak is_address is_code is_number is_slot is_value).
Notation play := (play alloc keccak root_of).
Notation see := (see alloc keccak).
Notation no_world := (no_world keccak).
Notation exporter := (exporter keccak root_of iter).
Notation importer := (importer keccak root_of).

Lemma imported_shows w D s t s' : shows t w -> imported w D s -> (forall k v, trie t k = Some v <-> In (k, v) D) ->
  flat s' = flat s -> saved s' = saved s -> trie s' = trie s ->
  shows s' (mk_world (w_account w) (w_slot w) (flat s) (fun _ => None)).
Proof.
  intros SH [IT IF ID IN IC I0] TD F SV T. constructor; rewrite ?F; cbn [w_account w_slot w_code w_hash].
  - intros a A. rewrite T. pose proof (sh_account _ _ _ _ _ _ _ _ _ SH a A) as H. destruct (w_account w a) as [i|] eqn:W.
    + destruct H as (IO & r & _ & _ & TT). apply TD in TT. pose proof TT as TT'. apply ID in TT.
      destruct TT as (b & j & r' & c & B & EK & WB & JO & _ & _ & _ & _ & HB & EV).
      apply (ap_address _ _ _ _ _ _ _ AP _ _ A B) in EK. subst b. rewrite W in WB. injection WB as <-.
      apply IT in TT'. split; [exact IO|]. exists r'. rewrite IF by exact A. rewrite TT', EV. split; [|split; reflexivity].
      unfold ExecDb_Proofs.holds in *. rewrite SV. exact HB.
    + destruct H as (_ & H & Z). assert (NT : trie s (keccak a) = None).
      { destruct (trie s (keccak a)) as [v|] eqn:E; [|reflexivity]. apply IT, TD in E. congruence. }
      split; [rewrite IF by exact A; exact NT|]. split; [exact NT|exact Z].
  - apply (sh_fit _ _ _ _ _ _ _ _ _ SH).
  - reflexivity.
  - intros n Hn. apply IN, Hn.
  - intros n x _. discriminate.
Qed.
Lemma imported_none w : exists s0, start keccak (blank keccak) = Ok s0 /\ imported w [] s0 /\ next_block (mem_pos s0) = 0.
Proof.
  destruct (start_blank keccak root_of is_address is_code is_number is_slot is_value AP) as (s0 & E & SH). exists s0. split; [exact E|].
  assert (T0 : trie s0 = no_kv) by (unfold start, blank in E; cbn [disk_pos pos_root flat saved versions] in E; rewrite beqb_refl in E; injection E as <-; reflexivity).
  assert (P0 : next_block (mem_pos s0) = 0) by (unfold start, blank in E; cbn [disk_pos pos_root flat saved versions] in E; rewrite beqb_refl in E; injection E as <-; reflexivity).
  split; [|exact P0]. constructor.
  - intros k v. rewrite T0. split; [discriminate|intros []].
  - intros a A. pose proof (sh_account _ _ _ _ _ _ _ _ _ SH a A) as H. cbn [no_world ExecDb_Spec.no_world w_account] in H. destruct H as (-> & -> & _). reflexivity.
  - intros k v [].
  - intros n Hn. apply (sh_hash _ _ _ _ _ _ _ _ _ SH), Hn.
  - intros c x C. rewrite (sh_code _ _ _ _ _ _ _ _ _ SH c C). cbn [no_world ExecDb_Spec.no_world w_code]. unfold at_key. destruct (bytes_eq_dec _ _) as [X|]; [|discriminate].
    intros [= <-]. symmetry. apply (ap_code _ _ _ _ _ _ _ AP _ _ C (ap_none _ _ _ _ _ _ _ AP) X).
  - rewrite (sh_code _ _ _ _ _ _ _ _ _ SH [] (ap_none _ _ _ _ _ _ _ AP)). apply at_key_same.
Qed.

(** A node at block [h] exports its state; a new node imports it and carries on from there. *)
Theorem C95_round_trip : forall {body} (chain : N -> header * body) files s0 l h b,
  is_chain chain -> honest chain files ->
  start keccak (blank keccak) = Ok s0 -> events_ok no_world (l ++ [Committed h b]) ->
  let s := fst (play (l ++ [Committed h b]) s0) in let w := fold_left see (l ++ [Committed h b]) no_world in
  last (snd (play (l ++ [Committed h b]) s0)) Err = Ok tt -> h_state_root h <> keccak [128] ->
  iterates keccak iter s -> coded keccak is_address is_code w ->
  let from := h_number h - 256 in
  (forall n, from <= n <= h_number h -> is_number n /\ length (h_hash (fst (chain n))) = 32%nat) ->
  exists items, exporter s h = Ok items /\
  let '(s', o) := importer files (blank keccak) h items (Ok tt) in
  o <> Panic /\
  ((forall n, from <= n <= h_number h -> available files n) -> o = Ok tt) /\
  (o = Ok tt ->
   exists s2 w', start keccak s' = Ok s2 /\ mem_pos s2 = mk_pos (h_number h + 1) (h_state_root h) /\ root_of (trie s2) = h_state_root h /\
     w_account w' = w_account w /\ w_slot w' = w_slot w /\
     (forall a i, is_address a -> w_account w a = Some i -> w_code w' (i_code_hash i) = w_code w (i_code_hash i)) /\
     (forall n, w_hash w' n = recent chain from (h_number h) n) /\
     commits (trie s2) w' /\
     forall r, events_ok w' r -> returns (fst (play r s2)) (fold_left see r w')).
Proof.
  intros body chain files s0 l h b CH HF B OK s w OkL NE IT CO from RG.
  pose proof (shown keccak root_of alloc is_address is_code is_number is_slot is_value AP s0 _ B OK) as SHall. fold s in SHall. fold w in SHall.
  pose proof (known keccak root_of alloc is_address is_code is_number is_slot is_value AP _ OK) as Kn. fold w in Kn.
  assert (KO : keys_ok keccak is_address s).
  { apply (keeps_play keccak root_of alloc is_address is_code is_number is_slot is_value _ s0 _) in OK; [exact OK|].
    intros k v. unfold start, blank in B. cbn [disk_pos pos_root flat saved versions] in B. rewrite beqb_refl in B. injection B as <-. discriminate. }
  apply events_app in OK. destruct OK as [OK1 [[F Hh] _]].
  pose proof (shown keccak root_of alloc is_address is_code is_number is_slot is_value AP s0 l B OK1) as SH.
  destruct (commit_ok keccak root_of is_address is_code is_number is_slot is_value AP _ _ h b SH F Hh) as (sc & E & S' & V & P1 & P2).
  assert (Es : s = sc).
  { unfold s. rewrite play_app. cbn [fst ExecDb_Spec.play do_event]. rewrite E. reflexivity. }
  assert (RT : root_of (trie s) = h_state_root h).
  { rewrite play_app in OkL. cbn [snd ExecDb_Spec.play do_event] in OkL. rewrite E in OkL. cbn [snd] in OkL. rewrite last_last in OkL.
    rewrite Es. destruct (beqb (root_of (trie sc)) (h_state_root h)) eqn:Q; [apply beqb_spec, Q|discriminate]. }
  rewrite <- Es in *. clear sc Es. destruct (P1 RT) as [Pm Pd]. rewrite Pm in Pd.
  pose proof (start_saved keccak s (mk_pos (h_number h + 1) (h_state_root h)) (trie s) Pd NE) as ST. cbn [pos_root] in ST. rewrite <- RT in ST at 1. specialize (ST V).
  set (s1 := mk_state _ _ _ _ _ _) in ST.
  assert (SH1 : shows s1 w).
  { unfold s1. apply (start_flat keccak root_of is_address is_code is_number is_slot is_value AP s w SHall Kn).
    apply (shows_state _ _ _ _ _ _ _ s _ w SHall); reflexivity. }
  destruct (exports keccak root_of is_address is_code is_number is_slot is_value AP RF iter s1 w SH1 Kn CO) as (gs & EX & GS).
  { exact IT. } { exact KO. }
  exists (concat gs). split.
  { unfold ExecSnap_Model.exporter. rewrite ST. cbn [obind]. cbn [s1 mem_pos next_block trie]. 
    replace (h_number h + 1 =? 0) with false by (symmetry; apply N.eqb_neq; lia). rewrite RT, beqb_refl. cbn [negb]. exact EX. }
  change (trie s1) with (trie s) in GS. destruct IT as [[ND LI] _].
  destruct (imported_none w) as (i0 & E0 & IM0 & Z0).
  destruct (imports_all keccak root_of is_address is_code is_number is_slot is_value AP RF w _ gs GS [] i0 IM0) as (i1 & D & IM & PM & DD & EI).
  { rewrite app_nil_r. exact ND. }
  assert (TD : forall k v, trie s k = Some v <-> In (k, v) D) by (intros k v; rewrite DD, app_nil_r; symmetry; apply LI).
  assert (R1 : root_of (trie i1) = h_state_root h).
  { rewrite <- RT. apply RF. intros k. pose proof (im_trie _ _ _ _ _ _ _ _ _ _ IM k) as IT1.
    destruct (trie s k) as [v|] eqn:Y.
    - apply IT1, TD, Y.
    - destruct (trie i1 k) as [v|]; [|reflexivity]. assert (X : In (k, v) D) by (apply IT1; reflexivity). apply TD in X. congruence. }
  unfold ExecSnap_Model.importer. rewrite E0, Z0, N.eqb_refl. unfold import, import_state. unfold bind at 1 2. rewrite EI.
  unfold bind at 1, lift at 1. unfold bind at 1, save_trie at 1. rewrite R1, beqb_refl. unfold ret at 1.
  unfold bind at 1, update_position at 1. apply N.ltb_lt in Hh. rewrite Hh.
  set (i3 := mk_state _ _ _ _ _ _). set (k := N.to_nat (h_number h - first_hash (h_number h) + 1)). set (m := manager_new (first_hash (h_number h))).
  assert (EF : first_hash (h_number h) = from) by reflexivity.
  assert (S3 : shows i3 (mk_world (w_account w) (w_slot w) (flat i1) (fun _ => None))).
  { eapply imported_shows; [exact SHall|exact IM|exact TD|reflexivity|reflexivity|reflexivity]. }
  pose proof (hashes_ok chain CH keccak root_of is_address is_code is_number is_slot is_value AP files HF k m i3 _ S3) as HO.
  pose proof (hashes_done chain CH keccak files HF k m i3) as HD.
  pose proof (import_hashes_same keccak files k m i3) as HS. cbv zeta in HS.
  match type of HO with ?A -> _ => assert (GA : A); [right; reflexivity|specialize (HO GA); clear GA] end.
  match type of HO with ?A -> _ => assert (GA : A) end.
  { intros i Hi. apply RG. cbn [m manager_new m_next_block]. rewrite EF. unfold k in Hi. rewrite EF in Hi. unfold from in *. lia. }
  specialize (HO GA). clear GA. destruct (import_hashes keccak files k m i3) as [s' o]. cbn [fst snd] in *. destruct HO as [NP HO].
  split; [exact NP|]. split.
  { intros AV. apply HD; [reflexivity|]. intros i Hi. apply AV. cbn [m manager_new m_next_block]. rewrite EF. unfold k in Hi. rewrite EF in Hi. unfold from in *. lia. }
  intros Q. specialize (HO Q). destruct HS as (HSs & HSv & HSd & HSt & HSm). cbn [i3 saved versions disk_pos trie mem_pos] in HSs, HSv, HSd, HSt, HSm.
  cbn [w_account w_slot w_code w_hash m manager_new m_next_block] in HO. rewrite EF in HO.
  match type of HO with ExecDb_Proofs.shows _ _ _ _ _ _ _ _ ?x => set (w' := x) in HO end.
  pose proof (start_saved keccak s' (mk_pos (h_number h + 1) (h_state_root h)) (trie s') HSd NE) as ST'. cbn [pos_root] in ST'.
  rewrite HSv, HSt, <- R1, beqb_refl in ST'. specialize (ST' eq_refl). rewrite R1 in ST'.
  assert (Kn' : none_known keccak w') by (unfold none_known; cbn [w' w_code]; apply (im_none _ _ _ _ _ _ _ _ _ _ IM)).
  match type of ST' with _ = Ok ?x => set (s2 := x) in ST'; assert (S2 : shows s2 w') end.
  { unfold s2. apply (start_flat keccak root_of is_address is_code is_number is_slot is_value AP s' w' HO Kn').
    apply (shows_state _ _ _ _ _ _ _ s' _ w' HO); try reflexivity. cbn [trie]. symmetry. exact HSt. }
  exists s2, w'. split; [exact ST'|]. split; [reflexivity|]. split; [exact R1|]. split; [reflexivity|]. split; [reflexivity|]. split; [|split; [|split]].
  - intros a i A W. destruct (CO a i A W) as (c & C & HC & WC). cbn [w' w_code]. rewrite HC, WC.
    pose proof (sh_account _ _ _ _ _ _ _ _ _ SHall a A) as H. rewrite W in H. destruct H as (_ & r & _ & _ & TT). apply TD in TT.
    apply (im_done _ _ _ _ _ _ _ _ _ _ IM) in TT. destruct TT as (a' & i' & r' & c' & A' & EA & W' & _ & C' & HC' & FC' & _ & _ & _).
    apply (ap_address _ _ _ _ _ _ _ AP _ _ A A') in EA. subst a'. rewrite W in W'. injection W' as <-. rewrite HC in HC'.
    apply (ap_code _ _ _ _ _ _ _ AP _ _ C C') in HC'. subst c'. exact FC'.
  - intros n. cbn [w' w_hash]. rewrite add_hashes_at. unfold recent. cbn [w_hash].
    replace (n <? from + N.of_nat k) with (n <=? h_number h); [reflexivity|].
    unfold k. rewrite EF. destruct (N.leb_spec n (h_number h)); destruct (N.ltb_spec n (from + N.of_nat (N.to_nat (h_number h - from + 1)))); try reflexivity; unfold from in *; lia.
  - apply (shows_commits _ _ _ _ _ _ _ _ _ S2).
  - intros r OKr. eapply shows_returns; [exact AP|]. apply play_shows; assumption.
Qed.

(** ** Any file *)
Definition leaf_ok (l : list snap_item) (s : state) (k v : bytes) : Prop :=
  exists e, In (Account e) l /\ k = ae_hash e /\ v = encode_account (ae_state e) /\ flat s k = Some v /\
    code_hash (ae_state e) = keccak (ae_code e) /\ (ae_code e <> [] -> exists x, flat s (keccak (ae_code e)) = Some x /\ keccak x = keccak (ae_code e)) /\
    (root_of no_kv = storage_root (ae_state e) \/
     exists m, saved s k (storage_root (ae_state e)) = Some m /\ root_of m = storage_root (ae_state e)).
Definition in_progress (cur : option (account_entry * N * kv)) (k : bytes) : Prop :=
  match cur with None => False | Some (e, _, _) => k = ae_hash e end.
Definition cur_ok (l : list snap_item) (cur : option (account_entry * N * kv)) (s : state) : Prop :=
  match cur with
  | None => True
  | Some (e, _, m) => In (Account e) l /\ (m = no_kv \/ saved s (ae_hash e) (root_of m) = Some m)
  end.
Lemma import_account_sound all e m s s' : (forall a b, In (Account a) all -> In (Account b) all -> ae_hash a <> keccak (ae_code b)) ->
  In (Account e) all -> (m = no_kv \/ saved s (ae_hash e) (root_of m) = Some m) ->
  (forall k v, trie s k = Some v -> k <> ae_hash e -> leaf_ok all s k v) ->
  import_account keccak root_of e m s = (s', Ok tt) -> forall k v, trie s' k = Some v -> leaf_ok all s' k v.
Proof.
  intros SEP IE CM INV. unfold import_account. destruct (beqb (root_of m) (storage_root (ae_state e))) eqn:ER; cbn [negb]; [|discriminate].
  destruct (beqb (code_hash (ae_state e)) (keccak (ae_code e))) eqn:EC; cbn [negb]; [|discriminate]. apply beqb_spec in ER, EC.
  set (d := match ae_code e with [] => flat s | c => put (flat s) (keccak c) c end).
  match goal with |- ?x = _ -> _ => assert (ES : x =
    (mk_state (put d (ae_hash e) (encode_account (ae_state e))) (saved s) (versions s) (disk_pos s) (put (trie s) (ae_hash e) (encode_account (ae_state e))) (mem_pos s), Ok tt)) end.
  { unfold d. destruct (ae_code e); reflexivity. }
  rewrite ES. intros [= <-] k v. cbn [trie].
  assert (DO : forall k, k <> keccak (ae_code e) -> d k = flat s k) by (intros q Q; unfold d; destruct (ae_code e); [reflexivity|apply put_other, Q]).
  destruct (bytes_eq_dec k (ae_hash e)) as [-> |NEK].
  - rewrite put_same. intros [= <-]. exists e. cbn [flat saved]. rewrite put_same. do 5 (split; [assumption || reflexivity|]). split.
    + intros NC. exists (ae_code e). split; [|reflexivity]. rewrite put_other by (intros X; apply (SEP e e IE IE); symmetry; exact X).
      unfold d. destruct (ae_code e); [congruence|apply put_same].
    + rewrite <- ER. destruct CM as [-> |CM]; [left; reflexivity|right; exists m; split; [exact CM|reflexivity]].
  - rewrite put_other by exact NEK. intros T. destruct (INV k v T NEK) as (e1 & I1 & -> & -> & F1 & C1 & X1 & S1).
    exists e1. cbn [flat saved]. do 3 (split; [assumption || reflexivity|]). split.
    { rewrite put_other by exact NEK. rewrite DO by (apply SEP; assumption). exact F1. }
    split; [exact C1|]. split; [|exact S1]. intros NC. destruct (X1 NC) as (x & FX & KX).
    rewrite put_other by (intros Y; apply (SEP e e1 IE I1); symmetry; exact Y).
    destruct (bytes_eq_dec (keccak (ae_code e1)) (keccak (ae_code e))) as [Y|NY]; [|rewrite DO by exact NY; exists x; split; assumption].
    destruct (ae_code e) as [|c0 c'] eqn:QC; [exists x; unfold d; rewrite ?QC; split; assumption|].
    exists (c0 :: c'). rewrite Y. unfold d. rewrite ?QC. split; [apply put_same|reflexivity].
Qed.
Lemma import_items_sound all (SEP : forall a b, In (Account a) all -> In (Account b) all -> ae_hash a <> keccak (ae_code b)) l :
  forall cur s s', incl l all -> cur_ok all cur s -> (forall k v, trie s k = Some v -> ~ in_progress cur k -> leaf_ok all s k v) ->
  import_items keccak root_of cur l s = (s', Ok tt) -> forall k v, trie s' k = Some v -> leaf_ok all s' k v.
Proof.
  induction l as [|x l IH]; intros cur s s' IN CO INV E; cbn [import_items] in E.
  - destruct cur; [discriminate|]. injection E as <-. intros k v T. apply INV; [exact T|intros []].
  - assert (IN' : incl l all) by (intros y Y; apply IN; right; exact Y).
    assert (Step : forall e m s1, In (Account e) all -> (m = no_kv \/ saved s1 (ae_hash e) (root_of m) = Some m) ->
       (forall k v, trie s1 k = Some v -> k <> ae_hash e -> leaf_ok all s1 k v) ->
       bind (import_account keccak root_of e m) (fun _ => import_items keccak root_of None l) s1 = (s', Ok tt) ->
       forall k v, trie s' k = Some v -> leaf_ok all s' k v).
    { intros e m s1 IE CM INV1 E1. unfold bind at 1 in E1. destruct (import_account keccak root_of e m s1) as [s2 [[]| |]] eqn:EA; try discriminate.
      apply (IH None s2 s' IN' Logic.I); [|exact E1]. intros k v T _. eapply import_account_sound; eassumption. }
    destruct x as [e|c], cur as [[[e0 n] m]|]; try discriminate.
    + assert (IE : In (Account e) all) by (apply IN; left; reflexivity). destruct (ae_count e =? 0).
      * eapply Step; [exact IE|left; reflexivity| |exact E]. intros k v T _. apply INV; [exact T|intros []].
      * eapply IH; [exact IN'| | |exact E]; [split; [exact IE|left; reflexivity]|]. intros k v T _. apply INV; [exact T|intros []].
    + destruct CO as [IE CM]. unfold import_chunk in E. cbv zeta in E. unfold bind at 1 in E. unfold bind at 1 in E. unfold modify at 1 in E. unfold ret at 1 in E.
      set (s1 := set_saved _ s) in E. set (m' := insert_items m c) in *.
      assert (INV1 : forall k v, trie s1 k = Some v -> k <> ae_hash e0 -> leaf_ok all s1 k v).
      { intros k v T NE. destruct (INV k v T NE) as (e1 & I1 & -> & -> & F1 & C1 & X1 & S1). exists e1. do 6 (split; [assumption || reflexivity|]).
        destruct S1 as [S1|(q & S1 & R1)]; [left; exact S1|right]. exists q. split; [|exact R1]. unfold s1, set_saved. cbn [saved].
        rewrite save_other, forget_other by exact NE. exact S1. }
      assert (CM1 : m' = no_kv \/ saved s1 (ae_hash e0) (root_of m') = Some m') by (right; unfold s1, set_saved; cbn [saved]; apply save_same).
      destruct (n =? 1); [eapply Step; eassumption|]. apply (IH (Some (e0, n - 1, m')) s1 s' IN'); [split; assumption|exact INV1|exact E].
Qed.
Lemma import_items_frame l : forall cur s, let s' := fst (import_items keccak root_of cur l s) in
  disk_pos s' = disk_pos s /\ mem_pos s' = mem_pos s /\ versions s' = versions s /\
  forall k, (forall e, In (Account e) l \/ (exists n m, cur = Some (e, n, m)) -> k <> ae_hash e /\ k <> keccak (ae_code e)) -> flat s' k = flat s k /\ trie s' k = trie s k.
Proof.
  assert (IA : forall e m s, let s' := fst (import_account keccak root_of e m s) in
    disk_pos s' = disk_pos s /\ mem_pos s' = mem_pos s /\ versions s' = versions s /\ forall k, k <> ae_hash e /\ k <> keccak (ae_code e) -> flat s' k = flat s k /\ trie s' k = trie s k).
  { intros e m s. unfold import_account. destruct (beqb _ _); cbn [negb]; [|repeat split]. destruct (beqb _ _); cbn [negb]; [|repeat split].
    unfold bind. destruct (ae_code e) as [|c0 c'] eqn:Q; unfold ret, modify; cbn [fst flat trie set_flat set_trie disk_pos mem_pos versions]; do 3 (split; [reflexivity|]); intros k [K1 K2].
    - rewrite !put_other by exact K1. split; reflexivity.
    - rewrite !put_other by assumption. split; reflexivity. }
  induction l as [|x l IH]; intros cur s; cbn [import_items].
  - destruct cur; repeat split.
  - assert (Step : forall e m s1, let s' := fst (bind (import_account keccak root_of e m) (fun _ => import_items keccak root_of None l) s1) in
      disk_pos s' = disk_pos s1 /\ mem_pos s' = mem_pos s1 /\ versions s' = versions s1 /\
      forall k, (forall e', In (Account e') l \/ e' = e -> k <> ae_hash e' /\ k <> keccak (ae_code e')) -> flat s' k = flat s1 k /\ trie s' k = trie s1 k).
    { intros e m s1. unfold bind at 1. destruct (IA e m s1) as (A1 & A2 & A3 & A4). destruct (import_account keccak root_of e m s1) as [s2 [[]| |]]; cbn [fst] in *.
      - destruct (IH None s2) as (B1 & B2 & B3 & B4). cbv zeta. split; [congruence|]. split; [congruence|]. split; [congruence|]. intros k K.
        destruct (B4 k) as [-> ->]; [intros e' [I|(n & q & Z)]; [apply K; left; exact I|discriminate]|]. apply A4, K. right. reflexivity.
      - cbv zeta. do 3 (split; [assumption|]). intros k K. apply A4, K. right. reflexivity.
      - cbv zeta. do 3 (split; [assumption|]). intros k K. apply A4, K. right. reflexivity. }
    destruct x as [e|c], cur as [[[e0 n] m]|]; try (repeat split; fail).
    + destruct (ae_count e =? 0).
      * destruct (Step e no_kv s) as (A1 & A2 & A3 & A4). cbv zeta. do 3 (split; [assumption|]). intros k K. apply A4. intros e' [I| ->]; apply K; left; [right; exact I|left; reflexivity].
      * destruct (IH (Some (e, ae_count e, no_kv)) s) as (A1 & A2 & A3 & A4). cbv zeta. do 3 (split; [assumption|]). intros k K. apply A4.
        intros e' [I|(n & m & Z)]; [apply K; left; right; exact I|injection Z as <- _ _; apply K; left; left; reflexivity].
    + unfold import_chunk. cbv zeta. unfold bind at 1. unfold bind at 1. unfold modify at 1. unfold ret at 1. set (s1 := set_saved _ s). set (m' := insert_items m c).
      destruct (n =? 1).
      * destruct (Step e0 m' s1) as (A1 & A2 & A3 & A4). cbv zeta in A1, A2, A3, A4 |- *. do 3 (split; [assumption|]). intros k K. refine (A4 k _).
        intros e' [I| ->]; apply K; [left; right; exact I|right; exists n, m; reflexivity].
      * destruct (IH (Some (e0, n - 1, m')) s1) as (A1 & A2 & A3 & A4). do 3 (split; [assumption|]). intros k K. refine (A4 k _).
        intros e' [I|(n' & q & Z)]; apply K; [left; right; exact I|]. injection Z as <- _ _. right. exists n, m. reflexivity.
Qed.

(** A file that is imported has the state root of its header, and every account of the state trie is
    what the node then reads, whoever has made the file, and whatever earlier imports have left behind. *)
Theorem C95_sound : forall {body} (chain : N -> header * body) files disk h l z s',
  is_chain chain -> honest chain files -> disk_pos disk = None ->
  let from := h_number h - 256 in
  separate keccak l from (h_number h) -> (forall e, In (Account e) l -> entry_ok e) -> (forall n, from <= n <= h_number h -> keccak [] <> keccak (be_bytes 32 n)) ->
  keccak [] <> repeat 0 32 -> h_state_root h <> keccak [128] ->
  importer files disk h l z = (s', Ok tt) ->
  exists s2, start keccak s' = Ok s2 /\ mem_pos s2 = mk_pos (h_number h + 1) (h_state_root h) /\ root_of (trie s2) = h_state_root h /\
    forall a v, trie s2 (keccak a) = Some v ->
      exists acct c, v = encode_account acct /\ basic keccak s2 a = Ok (Some (mk_info (balance acct) (nonce acct) (code_hash acct))) /\
        code_hash acct = keccak c /\ code_by_hash s2 (code_hash acct) = Ok c /\
        exists m, root_of m = storage_root acct /\
          forall n, storage keccak s2 a n = match m (keccak (be_bytes 32 n)) with Some raw => decode_uint raw | None => Ok 0 end.
Proof.
  intros body chain files disk h l z s' CH HF DP from SEP EOK NE0 Z0 NE E.
  unfold ExecSnap_Model.importer in E. assert (ST0 : start keccak disk = Ok (mk_state (put (put (flat disk) (keccak_empty keccak) []) zero32 []) (saved disk) (versions disk) None no_kv (mk_pos 0 (empty_root keccak)))).
  { unfold start. rewrite DP. cbn [pos_root]. rewrite beqb_refl. reflexivity. }
  rewrite ST0 in E. set (s0 := mk_state _ _ _ _ _ _) in *. change (next_block (mem_pos s0) =? 0) with true in E. cbv iota in E.
  unfold import in E. unfold bind at 1 in E. unfold import_state in E. unfold bind at 1 in E.
  pose proof (import_items_sound l (fun a b A B => proj1 (SEP a A) b B) l None s0) as SO.
  pose proof (import_items_frame l None s0) as FR. cbv zeta in FR.
  destruct (import_items keccak root_of None l s0) as [s1 [[]| |]]; try discriminate. cbn [fst] in FR.
  specialize (SO s1 (fun x X => X) Logic.I). match type of SO with ?A -> _ => assert (GA : A); [intros k v; discriminate|specialize (SO GA eq_refl); clear GA] end.
  unfold bind at 1, lift at 1 in E. destruct z as [[]| |]; try discriminate.
  unfold bind at 1, save_trie at 1 in E. destruct (beqb (root_of (trie s1)) (h_state_root h)) eqn:RT; [|discriminate]. apply beqb_spec in RT.
  unfold ret at 1 in E. unfold bind at 1, update_position at 1 in E. destruct (h_number h + 1 <? 2 ^ 64); [|discriminate].
  set (s3 := mk_state _ _ _ _ _ _) in E. set (k := N.to_nat _) in E. set (m := manager_new _) in E.
  pose proof (import_hashes_same keccak files k m s3) as HS. cbv zeta in HS.
  assert (HFR : forall q, (forall n, from <= n <= h_number h -> q <> keccak (be_bytes 32 n)) -> flat (fst (import_hashes keccak files k m s3)) q = flat s1 q).
  { intros q Q. rewrite (import_hashes_frame chain CH keccak files HF); [reflexivity|right; reflexivity|]. intros i Hi. cbn [m manager_new m_next_block]. apply Q.
    unfold k, first_hash, BLOCKHASH_SERVE_WINDOW in *. unfold from. lia. }
  rewrite E in HS, HFR. cbn [fst] in HS, HFR. destruct HS as (HSs & HSv & HSd & HSt & HSm). cbn [s3 saved versions disk_pos trie mem_pos] in HSs, HSv, HSd, HSt, HSm.
  pose proof (start_saved keccak s' (mk_pos (h_number h + 1) (h_state_root h)) (trie s') HSd NE) as ST'. cbn [pos_root] in ST'.
  rewrite HSv, HSt, <- RT, beqb_refl in ST'. specialize (ST' eq_refl). rewrite RT in ST'.
  eexists. split; [exact ST'|]. cbn [mem_pos trie]. split; [reflexivity|]. split; [exact RT|].
  intros a v T. destruct (SO _ _ T) as (e & IE & EK & -> & FL & CH1 & CC & SS). destruct (SEP e IE) as (SP1 & SP2 & SP3 & SP4 & SP5). rewrite <- EK in *.
  assert (G : forall q, q <> keccak [] -> q <> zero32 -> (forall n, from <= n <= h_number h -> q <> keccak (be_bytes 32 n)) -> put (put (flat s') (keccak_empty keccak) []) zero32 [] q = flat s1 q).
  { intros q Q1 Q2 Q3. rewrite !put_other by assumption. apply HFR, Q3. }
  assert (FE : put (put (flat s') (keccak_empty keccak) []) zero32 [] (keccak a) = Some (encode_account (ae_state e))).
  { rewrite G; [exact FL|exact SP2|exact SP3|]. intros n Hn. apply (SP5 n Hn). }
  assert (DE : decode_account (encode_account (ae_state e)) = Ok (ae_state e)) by (apply account_round_trip, EOK, IE).
  assert (CE : exists c, code_hash (ae_state e) = keccak c /\ put (put (flat s') (keccak_empty keccak) []) zero32 [] (keccak c) = Some c).
  { destruct (bytes_eq_dec (keccak (ae_code e)) (keccak [])) as [Q|NQ].
    - exists []. split; [congruence|]. rewrite put_other by exact Z0. apply put_same.
    - destruct CC as (x & FX & KX); [intros Q; rewrite Q in NQ; congruence|]. exists x. split; [congruence|]. rewrite G; [rewrite KX; exact FX| | |]; rewrite KX.
      + exact NQ. + exact SP4. + intros n Hn. apply (SP5 n Hn). }
  destruct CE as (c & HC & FC). exists (ae_state e), c. split; [reflexivity|]. unfold basic, code_by_hash, storage, fetch_account. cbn [flat saved snd]. rewrite FE, DE. cbn [omap obind option_map].
  split; [reflexivity|]. split; [exact HC|]. split; [rewrite HC, FC; reflexivity|]. rewrite HSs.
  destruct (beqb (storage_root (ae_state e)) (empty_root keccak)) eqn:QE.
  - apply beqb_spec in QE. exists no_kv. split; [rewrite QE; apply RF|]. reflexivity.
  - destruct SS as [SS|(q & SQ & RQ)]; [rewrite <- SS, (proj2 RF) in QE; unfold empty_root in QE; rewrite beqb_refl in QE; discriminate|].
    exists q. split; [exact RQ|]. intros n. rewrite SQ. reflexivity.
Qed.

(** What a failed import has written remains.  A file with one account that breaks off, or that has
    another state root, is not accepted; but the account is still read after another file has been
    imported whose state trie, which is right, does not have it. *)
Theorem C95_retry_refuted : forall {body} (chain : N -> header * body) files (files1 : N -> outcome (list (header * body))) h1 z1 i h l z s2 a,
  is_chain chain -> honest chain files ->
  let e := mk_entry (keccak a) (mk_account (i_nonce i) (i_balance i) (keccak [128]) (keccak [])) [] 0 in
  entry_ok e -> keccak a <> keccak [] -> keccak a <> repeat 0 32 ->
  (z1 = Ok tt -> root_of (put no_kv (keccak a) (encode_account (ae_state e))) <> h_state_root h1) -> z1 <> Panic ->
  h_state_root h <> keccak [128] ->
  (forall e', In (Account e') l -> keccak a <> ae_hash e' /\ keccak a <> keccak (ae_code e')) ->
  (forall n, h_number h - 256 <= n <= h_number h -> keccak a <> keccak (be_bytes 32 n)) ->
  exists s1, importer files1 (blank keccak) h1 [Account e] z1 = (s1, Err) /\
  (importer files s1 h l z = (s2, Ok tt) ->
   exists s3, start keccak s2 = Ok s3 /\ next_block (mem_pos s3) = h_number h + 1 /\ root_of (trie s3) = h_state_root h /\ trie s3 (keccak a) = None /\
     basic keccak s3 a = Ok (Some (mk_info (i_balance i) (i_nonce i) (keccak [])))).
Proof.
  intros body chain files files1 h1 z1 i h l z s2 a CH HF e EO NK NZ RZ ZP NE NL NN.
  set (s0 := mk_state (put (put no_kv (keccak_empty keccak) []) zero32 []) (fun _ _ => None) (fun _ => None) None no_kv (mk_pos 0 (empty_root keccak))).
  assert (ST0 : start keccak (blank keccak) = Ok s0) by (unfold start, blank; cbn [disk_pos pos_root]; rewrite beqb_refl; reflexivity).
  set (v := encode_account (ae_state e)) in *.
  set (i1 := mk_state (put (flat s0) (keccak a) v) (saved s0) (versions s0) None (put no_kv (keccak a) v) (mem_pos s0)).
  assert (EI : import_items keccak root_of None [Account e] s0 = (i1, Ok tt)).
  { cbn [import_items e ae_count]. change (0 =? 0) with true. cbv iota. unfold bind at 1, import_account. cbn [ae_state ae_code ae_hash storage_root code_hash].
    rewrite (proj2 RF), !beqb_refl. cbn [negb]. reflexivity. }
  assert (EX : exists s1, importer files1 (blank keccak) h1 [Account e] z1 = (s1, Err) /\ disk_pos s1 = None /\ flat s1 = flat i1).
  { unfold ExecSnap_Model.importer. rewrite ST0. change (next_block (mem_pos s0) =? 0) with true. cbv iota.
    unfold import. unfold bind at 1. unfold import_state. unfold bind at 1. rewrite EI. unfold bind at 1, lift at 1.
    destruct z1 as [[]| |]; [|eexists; repeat split; reflexivity|congruence].
    unfold bind at 1, save_trie at 1. cbn [i1 trie]. specialize (RZ eq_refl). apply beqb_false in RZ. rewrite RZ. eexists. split; [reflexivity|]. split; reflexivity. }
  destruct EX as (s1 & E1 & D1 & F1). exists s1. split; [exact E1|]. intros E.
  unfold ExecSnap_Model.importer in E. assert (ST1 : start keccak s1 = Ok (mk_state (put (put (flat s1) (keccak_empty keccak) []) zero32 []) (saved s1) (versions s1) None no_kv (mk_pos 0 (empty_root keccak)))).
  { unfold start. rewrite D1. cbn [pos_root]. rewrite beqb_refl. reflexivity. }
  rewrite ST1 in E. set (t0 := mk_state _ _ _ _ no_kv _) in E. change (next_block (mem_pos t0) =? 0) with true in E. cbv iota in E.
  unfold import in E. unfold bind at 1 in E. unfold import_state in E. unfold bind at 1 in E.
  pose proof (import_items_frame l None t0) as FR. cbv zeta in FR. destruct (import_items keccak root_of None l t0) as [t1 [[]| |]]; try discriminate. cbn [fst] in FR.
  unfold bind at 1, lift at 1 in E. destruct z as [[]| |]; try discriminate.
  unfold bind at 1, save_trie at 1 in E. destruct (beqb (root_of (trie t1)) (h_state_root h)) eqn:RT; [|discriminate]. apply beqb_spec in RT.
  unfold ret at 1 in E. unfold bind at 1, update_position at 1 in E. destruct (h_number h + 1 <? 2 ^ 64); [|discriminate].
  set (t3 := mk_state _ _ _ _ _ _) in E. set (k := N.to_nat _) in E. set (m := manager_new _) in E.
  pose proof (import_hashes_same keccak files k m t3) as HS. cbv zeta in HS.
  assert (HFR : flat (fst (import_hashes keccak files k m t3)) (keccak a) = flat t1 (keccak a)).
  { rewrite (import_hashes_frame chain CH keccak files HF); [reflexivity|right; reflexivity|]. intros j Hj. cbn [m manager_new m_next_block]. apply NN.
    unfold k, first_hash, BLOCKHASH_SERVE_WINDOW in *. lia. }
  rewrite E in HS, HFR. cbn [fst] in HS, HFR. destruct HS as (HSs & HSv & HSd & HSt & HSm). cbn [t3 saved versions disk_pos trie mem_pos] in HSs, HSv, HSd, HSt, HSm.
  pose proof (start_saved keccak s2 (mk_pos (h_number h + 1) (h_state_root h)) (trie s2) HSd NE) as ST'. cbn [pos_root] in ST'.
  rewrite HSv, HSt, <- RT, beqb_refl in ST'. specialize (ST' eq_refl). rewrite RT in ST'.
  eexists. split; [exact ST'|]. cbn [mem_pos next_block trie]. split; [reflexivity|]. split; [exact RT|].
  destruct FR as (_ & _ & _ & FR). destruct (FR (keccak a)) as [FF FT]; [intros e' [I|(n & q & Z)]; [apply NL, I|discriminate]|].
  split; [rewrite FT; reflexivity|]. unfold basic, fetch_account. cbn [flat snd]. rewrite !put_other by assumption. rewrite HFR, FF. cbn [t0 flat].
  rewrite !put_other by assumption. rewrite F1. cbn [i1 flat]. rewrite put_same. unfold v. rewrite account_round_trip by exact EO. reflexivity.
Qed.

(** The position is stored before the block hashes.  If the file with the first of them cannot be
    had, the import fails; the node then starts after the block of the snapshot, without the hash of
    any block, and refuses every other import. *)
Theorem C95_hashes_refuted : forall {body} (files : N -> outcome (list (header * body))) disk h l s1,
  (forall x, files ((h_number h - 256) / 8192) <> Ok x) ->
  start keccak disk = Ok s1 -> next_block (mem_pos s1) = 0 -> h_number h + 1 < 2 ^ 64 -> h_state_root h <> keccak [128] ->
  snd (import_state keccak root_of h l (Ok tt) s1) = Ok tt ->
  (forall e n, In (Account e) l -> is_number n -> ae_hash e <> keccak (be_bytes 32 n) /\ keccak (ae_code e) <> keccak (be_bytes 32 n)) ->
  (forall n, is_number n -> block_hash keccak s1 n = Err) ->
  exists s', importer files disk h l (Ok tt) = (s', Err) /\
    exists s2, start keccak s' = Ok s2 /\ next_block (mem_pos s2) = h_number h + 1 /\ root_of (trie s2) = h_state_root h /\
      (forall n, is_number n -> block_hash keccak s2 n = Err) /\
      forall (files' : N -> outcome (list (header * body))) h' l' z', snd (importer files' s' h' l' z') = Err.
Proof.
  intros body files disk h l s1 NF ST Z Hh NE OK SEP NH. unfold ExecSnap_Model.importer at 1. rewrite ST, Z, N.eqb_refl.
  unfold import. unfold bind at 1. unfold import_state in *. unfold bind at 1. unfold bind at 1 in OK.
  pose proof (import_items_frame l None s1) as FR. cbv zeta in FR. destruct (import_items keccak root_of None l s1) as [t1 [[]| |]]; try discriminate. cbn [fst] in FR.
  unfold bind at 1, lift at 1. unfold bind at 1, lift at 1 in OK. unfold bind at 1, save_trie at 1. unfold bind at 1, save_trie at 1 in OK.
  destruct (beqb (root_of (trie t1)) (h_state_root h)) eqn:RT; [|discriminate]. apply beqb_spec in RT. unfold ret at 1. unfold bind at 1, update_position at 1.
  apply N.ltb_lt in Hh. rewrite Hh. set (t3 := mk_state _ _ _ _ _ _).
  assert (EH : import_hashes keccak files (N.to_nat (h_number h - first_hash (h_number h) + 1)) (manager_new (first_hash (h_number h))) t3 = (t3, Err)).
  { replace (N.to_nat (h_number h - first_hash (h_number h) + 1)) with (Datatypes.S (N.to_nat (h_number h - first_hash (h_number h)))) by lia.
    cbn [import_hashes]. unfold get_next_block. cbv zeta. cbn [manager_new m_current]. unfold get_next_processed_e2hs. cbn [m_next manager_new]. unfold await, index_from_block_number, BLOCKS_PER_E2HS.
    change (first_hash (h_number h)) with (h_number h - 256). destruct (files ((h_number h - 256) / 8192)) as [x| |] eqn:Q; [destruct (NF _ eq_refl)| |]; reflexivity. }
  rewrite EH. exists t3. split; [reflexivity|].
  pose proof (start_saved keccak t3 (mk_pos (h_number h + 1) (h_state_root h)) (trie t1) eq_refl NE) as ST'. cbn [pos_root t3 versions] in ST'. rewrite <- RT, beqb_refl in ST'.
  specialize (ST' eq_refl). rewrite RT in ST'. eexists. split; [exact ST'|]. cbn [mem_pos next_block trie]. split; [reflexivity|]. split; [exact RT|]. split.
  - intros n Hn. specialize (NH n Hn). unfold block_hash in *. cbn [flat t3].
    assert (NK : keccak (b256 n) <> keccak []) by (intros X; apply (ap_code_number _ _ _ _ _ _ _ AP [] n (ap_none _ _ _ _ _ _ _ AP) Hn); symmetry; exact X).
    rewrite !put_other; [|exact NK|exact (ap_zero_number _ _ _ _ _ _ _ AP n Hn)].
    destruct FR as (_ & _ & _ & FR). destruct (FR (keccak (b256 n))) as [FF _].
    { intros e [I|(q & r & X)]; [|discriminate]. destruct (SEP e n I Hn) as [A1 A2]. split; intros X; [apply A1|apply A2]; symmetry; exact X. }
    rewrite FF. destruct (flat s1 (keccak (b256 n))); [exact NH|reflexivity].
  - intros files' h' l' z'. unfold ExecSnap_Model.importer. rewrite ST'. cbn [mem_pos next_block].
    replace (h_number h + 1 =? 0) with false by (symmetry; apply N.eqb_neq; lia). reflexivity.
Qed.
End Props.
Print Assumptions C95_round_trip.
Print Assumptions C95_sound.
Print Assumptions C95_retry_refuted.
Print Assumptions C95_hashes_refuted.

(** ** A case: the two blocks of the toy history *)
Definition toy_iter (m : kv) : list (bytes * bytes) :=
  flat_map (fun k => match m k with Some v => [(k, v)] | None => [] end) Toy.keys.
Lemma toy_lists m : (forall k v, m k = Some v -> In k Toy.keys) -> lists m (toy_iter m).
Proof.
  intros SU. assert (ND : NoDup Toy.keys).
  { unfold Toy.keys. vm_compute. repeat (constructor; [cbn; intuition discriminate|]). constructor. }
  unfold lists, toy_iter. revert SU ND. generalize Toy.keys. intros ks SU ND. split.
  - clear SU. induction ND as [|k ks NI _ IH]; [constructor|]. cbn [flat_map]. rewrite map_app.
    assert (IK : forall q, In q (map fst (flat_map (fun k => match m k with Some v => [(k, v)] | None => [] end) ks)) -> In q ks).
    { intros q Q. apply in_map_iff in Q. destruct Q as ([q' v] & <- & Q). apply in_flat_map in Q. destruct Q as (z & Z & Q). destruct (m z); [|destruct Q].
      destruct Q as [Q|[]]. injection Q as <- _. exact Z. }
    destruct (m k); [|exact IH]. cbn [map app fst]. constructor; [|exact IH]. intros Q. apply NI, IK, Q.
  - intros k v. rewrite in_flat_map. split.
    + intros (z & _ & Q). destruct (m z) as [x|] eqn:E; [|destruct Q]. destruct Q as [Q|[]]. injection Q as <- <-. exact E.
    + intros E. exists k. split; [eapply SU, E|]. rewrite E. left. reflexivity.
Qed.
Lemma toy_root_fun : root_fun Toy.h Toy.root.
Proof.
  split; [|vm_compute; reflexivity]. intros m m' E. assert (W : forall k, Toy.word m k = Toy.word m' k) by (intros k; unfold Toy.word; rewrite E; reflexivity).
  unfold Toy.root. rewrite (map_ext _ _ W). replace (forallb (fun k => Toy.word m k =? 0) Toy.keys) with (forallb (fun k => Toy.word m' k =? 0) Toy.keys); [reflexivity|].
  generalize Toy.keys. intros ks. induction ks as [|k ks IH]; [reflexivity|]. cbn [forallb]. rewrite W, IH. reflexivity.
Qed.
Definition toy_world (r : bytes) : world := fold_left (see Toy.alloc Toy.h) (Toy.history r) (no_world Toy.h).
Lemma toy_accounts r a i : w_account (toy_world r) a = Some i -> (a = Toy.alice /\ i_code_hash i = Toy.h []) \/ (a = Toy.bob /\ i_code_hash i = Toy.h Toy.code).
Proof.
  unfold toy_world, Toy.history. cbn [fold_left see h_number Toy.genesis Toy.one]. change (0 =? 0) with true. change (1 =? 0) with false. cbv iota.
  unfold see_bundle. cbn [Toy.alloc Toy.first fold_left b_accounts b_contracts b_storage see_genesis see_account see_code see_storage see_hash
    w_account w_slot w_code c_address c_wipe c_storage see_slots fst snd no_world].
  unfold at_key. destruct (bytes_eq_dec a Toy.bob) as [-> |]; [intros [= <-]; right; split; reflexivity|].
  destruct (bytes_eq_dec a Toy.alice) as [-> |]; [intros [= <-]; left; split; reflexivity|]. discriminate.
Qed.
Lemma toy_codes r : w_code (toy_world r) (Toy.h []) = Some [] /\ w_code (toy_world r) (Toy.h Toy.code) = Some Toy.code.
Proof.
  unfold toy_world, Toy.history. cbn [fold_left see h_number Toy.genesis Toy.one]. change (0 =? 0) with true. change (1 =? 0) with false. cbv iota.
  unfold see_bundle. cbn [Toy.alloc Toy.first fold_left b_accounts b_contracts b_storage see_genesis see_account see_code see_storage see_hash
    w_account w_slot w_code c_address c_wipe c_storage see_slots fst snd no_world].
  unfold at_key. repeat match goal with
  | |- context [bytes_eq_dec ?a ?b] => destruct (bytes_eq_dec a b) as [Q|Q]; [try (exfalso; vm_compute in Q; discriminate Q)|try (exfalso; apply Q; reflexivity)]; clear Q
  end. split; reflexivity.
Qed.
Lemma toy_coded r : coded Toy.h Toy.is_address Toy.is_code (toy_world r).
Proof.
  intros a i _ W. destruct (toy_accounts r a i W) as [[-> E]|[-> E]].
  - exists []. split; [unfold Toy.is_code; cbn; lia|]. split; [exact E|apply toy_codes].
  - exists Toy.code. split; [unfold Toy.is_code; cbn; lia|]. split; [exact E|apply toy_codes].
Qed.
Lemma toy_iterates r s0 : start Toy.h (blank Toy.h) = Ok s0 -> iterates Toy.h toy_iter (fst (play Toy.alloc Toy.h Toy.root (Toy.history r) s0)).
Proof.
  intros B. pose proof (shown Toy.h Toy.root Toy.alloc _ _ _ _ _ Toy.toy_apart s0 _ B (Toy.history_ok r)) as SH.
  change (fold_left (see Toy.alloc Toy.h) (Toy.history r) (no_world Toy.h)) with (toy_world r) in SH.
  assert (KO : keys_ok Toy.h Toy.is_address (fst (play Toy.alloc Toy.h Toy.root (Toy.history r) s0))).
  { apply (keeps_play Toy.h Toy.root Toy.alloc Toy.is_address Toy.is_code Toy.is_number Toy.is_slot Toy.is_value _ s0 (no_world Toy.h)); [|apply Toy.history_ok].
    intros k v. unfold start, blank in B. cbn [disk_pos pos_root flat saved versions] in B. rewrite beqb_refl in B. injection B as <-. discriminate. }
  revert SH KO. generalize (fst (play Toy.alloc Toy.h Toy.root (Toy.history r) s0)). intros s SH KO.
  assert (SU : forall k v, trie s k = Some v -> exists a i, Toy.is_address a /\ k = Toy.h a /\ w_account (toy_world r) a = Some i /\ (a = Toy.alice \/ a = Toy.bob)).
  { intros k v T. destruct (KO k v T) as (a & A & ->). pose proof (sh_account _ _ _ _ _ _ _ _ _ SH a A) as H. destruct (w_account (toy_world r) a) as [i|] eqn:W.
    - exists a, i. split; [exact A|]. split; [reflexivity|]. split; [exact W|]. destruct (toy_accounts r a i W) as [[-> _]|[-> _]]; auto.
    - destruct H as (_ & H & _). congruence. }
  split.
  - apply toy_lists. intros k v T. destruct (SU k v T) as (a & _ & _ & -> & _ & [-> | ->]); unfold Toy.keys; apply in_or_app; right; cbn [In]; auto.
  - intros k v ac m T DA NE Sv. destruct (SU k v T) as (a & i & A & -> & W & _). pose proof (sh_account _ _ _ _ _ _ _ _ _ SH a A) as H. rewrite W in H.
    destruct H as (IO & q & HO & _ & TT). rewrite T in TT. injection TT as ->. rewrite account_round_trip in DA by (eapply built_ok; [exact Toy.toy_apart|exact IO|exact HO]).
    injection DA as <-. cbn [storage_root] in Sv, NE. destruct HO as [[-> _]|(_ & m' & SM & _ & ST & _)]; [exfalso; apply NE; reflexivity|].
    rewrite Sv in SM. injection SM as <-. split; [apply toy_lists|].
    + intros k v E. destruct (ST k v E) as (n & x & Hn & _ & _ & -> & _). unfold Toy.keys. apply in_or_app. left.
      apply (in_map (fun n => Toy.h (be_bytes 32 n))). unfold Toy.is_slot in Hn. cbn [In]. lia.
    + apply (N.le_lt_trans _ 5); [|reflexivity]. unfold toy_iter, blen. change 5 with (N.of_nat (length Toy.keys)). generalize Toy.keys.
      intros ks. enough (length (flat_map (fun k => match m k with Some v => [(k, v)] | None => [] end) ks) <= length ks)%nat by lia.
      induction ks as [|k ks IH]; [reflexivity|]. cbn [flat_map]. rewrite app_length. destruct (m k); cbn [length]; lia.
Qed.
(** Two accounts, a code and a slot go to another node. *)
Definition toy_snapshot : outcome (list snap_item) := obind (toy_run (Toy.history toy_root)) (fun x => exporter Toy.h Toy.root toy_iter (fst x) (Toy.one toy_root)).
Definition toy_import (files : N -> outcome (list (block unit))) disk := obind toy_snapshot (fun l => Ok (importer Toy.h Toy.root files disk (Toy.one toy_root) l (Ok tt))).
Definition toy_look (s : state) := (next_block (mem_pos s), basic Toy.h s Toy.alice, basic Toy.h s Toy.bob, storage Toy.h s Toy.bob 0, code_by_hash s (Toy.h Toy.code), map (block_hash Toy.h s) [0; 1; 2]).
Example C95_example :
  omap (@length _) toy_snapshot = Ok 3%nat /\
  obind (toy_import toy_files (blank Toy.h)) (fun x => omap (fun s => (snd x, toy_look s)) (start Toy.h (fst x))) =
  Ok (Ok tt, (2, Ok (Some (mk_info 60 1 (Toy.h []))), Ok (Some (mk_info 40 1 (Toy.h Toy.code))), Ok 5, Ok Toy.code, [Ok (be_bytes 32 0); Ok (be_bytes 32 1); Err])).
Proof. split; vm_compute; reflexivity. Qed.
(** A failed download: the node starts after the snapshot all the same. *)
Example C95_hashes_example :
  obind (toy_import (fun _ => Err) (blank Toy.h)) (fun x => omap (fun s => (snd x, toy_look s)) (start Toy.h (fst x))) =
  Ok (Err, (2, Ok (Some (mk_info 60 1 (Toy.h []))), Ok (Some (mk_info 40 1 (Toy.h Toy.code))), Ok 5, Ok Toy.code, [Err; Err; Err])).
Proof. vm_compute. reflexivity. Qed.
(** Carol is not in the second snapshot. *)
Definition carol : bytes := repeat 3 20.
Example C95_retry_example :
  let e := mk_entry (Toy.h carol) (mk_account 1 1000 (Toy.h [128]) (Toy.h [])) [] 0 in
  let x := importer Toy.h Toy.root toy_files (blank Toy.h) (Toy.one toy_root) [Account e] (Ok tt) in
  snd x = Err /\
  obind (toy_import toy_files (fst x)) (fun y => omap (fun s => (snd y, basic Toy.h s Toy.alice, basic Toy.h s carol, trie s (Toy.h carol))) (start Toy.h (fst y))) =
  Ok (Ok tt, Ok (Some (mk_info 60 1 (Toy.h []))), Ok (Some (mk_info 1000 1 (Toy.h []))), None).
Proof. cbv zeta. split; vm_compute; reflexivity. Qed.
Definition toy_items : list snap_item :=
  let m := put no_kv (Toy.h (be_bytes 32 0)) (rlp_uint 5) in
  [Account (mk_entry (Toy.h Toy.alice) (mk_account 1 60 (Toy.h [128]) (Toy.h [])) [] 0);
   Account (mk_entry (Toy.h Toy.bob) (mk_account 1 40 (Toy.root m) (Toy.h Toy.code)) Toy.code 1); Storage [(Toy.h (be_bytes 32 0), 5)]].
Example C95_sound_example : toy_snapshot = Ok toy_items /\ separate Toy.h toy_items 0 1 /\ (forall e, In (Account e) toy_items -> entry_ok e).
Proof.
  split; [vm_compute; reflexivity|].
  assert (C : forall e, In (Account e) toy_items -> exists a c, ae_hash e = Toy.h a /\ ae_code e = c /\ length a = 20%nat /\ (length c < 20)%nat /\ entry_ok e).
  { unfold toy_items. cbv zeta. cbn [In]. intros e [E|[E|[E|[]]]]; try discriminate; injection E as <-.
    - exists Toy.alice, []. cbn [ae_hash ae_code length]. split; [reflexivity|]. split; [reflexivity|]. split; [reflexivity|]. split; [lia|].
      split; [reflexivity|]. split; [reflexivity|]. split; apply Toy.h_len.
    - exists Toy.bob, Toy.code. cbn [ae_hash ae_code]. split; [reflexivity|]. split; [reflexivity|]. split; [reflexivity|]. split; [cbn; lia|].
      split; [reflexivity|]. split; [reflexivity|]. split; [vm_compute; reflexivity|apply Toy.h_len]. }
  split; [|intros e I; destruct (C e I) as (a & c & _ & _ & _ & _ & H); exact H].
  intros e I. destruct (C e I) as (a & c & -> & -> & La & Lc & _). split; [|split; [|split; [|split]]].
  - intros e' I'. destruct (C e' I') as (a' & c' & _ & -> & _ & Lc' & _). intros H. apply Toy.h_code in H; [subst; lia|lia|lia].
  - intros H. apply Toy.h_code in H; [subst; cbn in La; lia|lia|cbn; lia].
  - apply Toy.h_zero.
  - apply Toy.h_zero.
  - intros n _. split; apply Toy.h_apart; lia.
Qed.
