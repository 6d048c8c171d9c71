(** Histories of the database of trin-execution. *)
From Verif Require Import Base Trie_Model StateContent_Model ExecDb_Model ExecDb_Spec ExecDb_Proofs.

Section Runs.
Context (keccak : bytes -> bytes) (root_of : kv -> bytes) (alloc : list (bytes * N)).
Context (is_address is_code : bytes -> Prop) (is_number is_slot is_value : N -> Prop).
Hypothesis AP : apart keccak root_of is_address is_code is_number is_slot is_value.
Notation shows := (shows keccak root_of is_address is_code is_number is_slot is_value).
Notation empty_root := (keccak [128]).
Notation returns := (returns keccak is_address is_code is_number is_slot).
Notation commits := (commits keccak root_of is_address is_slot is_value).
Notation see := (see alloc keccak).
Notation event_ok := (event_ok alloc keccak is_address is_code is_number is_slot is_value).
Notation events_ok := (events_ok alloc keccak is_address is_code is_number is_slot is_value).
Notation play := (play alloc keccak root_of).

Lemma shows_returns s w : shows s w -> returns s w.
Proof.
  intros SH. constructor.
  - intros a A. unfold basic. destruct (w_account w a) as [i|] eqn:W.
    + destruct (fetch_some _ _ _ _ _ _ _ AP s w a i SH A W) as (r & _ & _ & -> & _). destruct i; reflexivity.
    + rewrite (fetch_none _ _ _ _ _ _ _ s w a SH A W). reflexivity.
  - intros a n A Hn. unfold storage. destruct (w_account w a) as [i|] eqn:W.
    2: { rewrite (fetch_none _ _ _ _ _ _ _ s w a SH A W). reflexivity. }
    destruct (fetch_some _ _ _ _ _ _ _ AP s w a i SH A W) as (r & Hr & _ & -> & _). cbn [snd storage_root].
    unfold ExecDb_Model.empty_root. destruct Hr as [[-> Z]|(N0 & m & Sv & R & T1 & T2)].
    + rewrite beqb_refl. rewrite (Z n Hn). reflexivity.
    + apply beqb_false in N0. rewrite N0, Sv. cbn [of_option obind]. unfold b256. rewrite (T2 n Hn).
      destruct (w_slot w a n =? 0) eqn:E; [apply N.eqb_eq in E; rewrite E; reflexivity|].
      apply uint_round_trip. apply (sh_fit _ _ _ _ _ _ _ _ _ SH a A n Hn).
  - intros c C. unfold code_by_hash. rewrite (sh_code _ _ _ _ _ _ _ _ _ SH c C). reflexivity.
  - intros n Hn. unfold block_hash. rewrite (sh_hash _ _ _ _ _ _ _ _ _ SH n Hn).
    destruct (w_hash w n) as [h|] eqn:E; [|reflexivity]. rewrite (sh_hash_len _ _ _ _ _ _ _ _ _ SH n h Hn E). reflexivity.
Qed.
Lemma shows_commits s w : shows s w -> commits (trie s) w.
Proof.
  intros SH a A. pose proof (sh_account _ _ _ _ _ _ _ _ _ SH a A) as H. destruct (w_account w a) as [i|]; [|apply H].
  destruct H as (_ & r & Hr & _ & T). exists r. split; [|exact T].
  destruct Hr as [Hr|(_ & m & _ & R & TS)]; [left; exact Hr|right]. exists m. split; assumption.
Qed.
(** Only these parts of a state matter. *)
Lemma shows_state s s' w : shows s w -> (forall k, flat s' k = flat s k) -> saved s' = saved s -> trie s' = trie s -> shows s' w.
Proof.
  intros SH F S T. constructor.
  - intros a A. pose proof (sh_account _ _ _ _ _ _ _ _ _ SH a A) as H. rewrite F, T. destruct (w_account w a) as [i|]; [|exact H].
    destruct H as (I & r & Hr & R). split; [exact I|]. exists r. split; [|exact R].
    destruct Hr as [Hr|(N0 & m & Sv & Q)]; [left; exact Hr|right]. split; [exact N0|]. exists m. rewrite S. split; assumption.
  - apply (sh_fit _ _ _ _ _ _ _ _ _ SH).
  - intros c C. rewrite F. apply (sh_code _ _ _ _ _ _ _ _ _ SH c C).
  - intros n Hn. rewrite F. apply (sh_hash _ _ _ _ _ _ _ _ _ SH n Hn).
  - apply (sh_hash_len _ _ _ _ _ _ _ _ _ SH).
Qed.

(** ** Blocks *)
Lemma hash_put s w n h : shows s w -> is_number n -> length h = 32%nat ->
  shows (set_flat (fun d => put d (keccak (b256 n)) h) s) (mk_world (w_account w) (w_slot w) (w_code w) (at_num n (Some h) (w_hash w))).
Proof.
  intros SH Hn Lh. constructor; cbn [flat trie saved set_flat w_account w_slot w_code w_hash].
  - intros a A. rewrite put_other by (apply (ap_address_number _ _ _ _ _ _ _ AP); assumption). exact (sh_account _ _ _ _ _ _ _ _ _ SH a A).
  - apply (sh_fit _ _ _ _ _ _ _ _ _ SH).
  - intros c C. rewrite put_other by (apply (ap_code_number _ _ _ _ _ _ _ AP); assumption). exact (sh_code _ _ _ _ _ _ _ _ _ SH c C).
  - intros q Hq. destruct (N.eq_dec q n) as [-> |NE]; [rewrite put_same, at_num_same; reflexivity|].
    rewrite put_other, at_num_other; [exact (sh_hash _ _ _ _ _ _ _ _ _ SH q Hq)|exact NE|].
    intros E. apply NE, (ap_number _ _ _ _ _ _ _ AP _ _ Hq Hn E).
  - intros q x Hq. unfold at_num. destruct (N.eq_dec q n); [intros E; injection E as <-; exact Lh|apply (sh_hash_len _ _ _ _ _ _ _ _ _ SH), Hq].
Qed.
Lemma hash_delete s w n : shows s w -> is_number n ->
  shows (set_flat (fun d => delete d (keccak (b256 n))) s) (mk_world (w_account w) (w_slot w) (w_code w) (at_num n None (w_hash w))).
Proof.
  intros SH Hn. constructor; cbn [flat trie saved set_flat w_account w_slot w_code w_hash].
  - intros a A. rewrite delete_other by (apply (ap_address_number _ _ _ _ _ _ _ AP); assumption). exact (sh_account _ _ _ _ _ _ _ _ _ SH a A).
  - apply (sh_fit _ _ _ _ _ _ _ _ _ SH).
  - intros c C. rewrite delete_other by (apply (ap_code_number _ _ _ _ _ _ _ AP); assumption). exact (sh_code _ _ _ _ _ _ _ _ _ SH c C).
  - intros q Hq. destruct (N.eq_dec q n) as [-> |NE]; [rewrite delete_same, at_num_same; reflexivity|].
    rewrite delete_other, at_num_other; [exact (sh_hash _ _ _ _ _ _ _ _ _ SH q Hq)|exact NE|].
    intros E. apply NE, (ap_number _ _ _ _ _ _ _ AP _ _ Hq Hn E).
  - intros q x Hq. unfold at_num. destruct (N.eq_dec q n); [discriminate|apply (sh_hash_len _ _ _ _ _ _ _ _ _ SH), Hq].
Qed.
Lemma window_ok s w n h : shows s w -> is_number n -> (256 <= n -> is_number (n - 256)) -> length h = 32%nat ->
  exists s', manage_block_hash_serve_window keccak n h s = (s', Ok tt) /\ shows s' (see_hash w n h).
Proof.
  intros SH Hn Ho Lh. unfold manage_block_hash_serve_window, bind, modify at 1. unfold BLOCKHASH_SERVE_WINDOW.
  pose proof (hash_put s w n h SH Hn Lh) as S1. unfold see_hash.
  destruct (256 <=? n) eqn:E.
  - eexists. split; [reflexivity|]. apply (hash_delete _ _ (n - 256) S1). apply Ho. apply N.leb_le, E.
  - eexists. split; [reflexivity|]. exact S1.
Qed.
Lemma genesis_ok l : forall s w, shows s w ->
  Forall (fun x => is_address (fst x) /\ snd x < 2 ^ 256 /\ forall n, w_slot w (fst x) n = 0) l ->
  exists s', process_genesis keccak l s = (s', Ok tt) /\ shows s' (fold_left (see_genesis keccak) l w).
Proof.
  induction l as [|[a v] l IH]; intros s w SH F; [exists s; split; [reflexivity|exact SH]|].
  inversion F as [|? ? (A & V & Z) F']; subst. cbn [fst snd] in *. unfold process_genesis in *. cbn [each fst snd fold_left].
  unfold bind at 1 2, modify at 1 2. unfold set_trie, set_flat. cbn [flat trie saved versions disk_pos mem_pos].
  apply IH; [|exact F']. unfold see_genesis, see_account; cbn [fst snd].
  eapply shows_same; [apply (one_account _ _ _ _ _ _ _ AP s _ w a (w_slot w a) (Some (mk_info v 0 (keccak []))) SH A)| | | |]; cbn [w_account w_slot w_code w_hash]; try reflexivity.
  - intros b NE. cbn [flat trie saved]. rewrite !put_other by exact NE. auto.
  - split; [split; [exact V|split; [reflexivity|apply (ap_len _ _ _ _ _ _ _ AP)]]|].
    exists empty_root. cbn [flat trie saved i_nonce i_balance i_code_hash]. rewrite !put_same. split; [|split; reflexivity].
    left. split; [reflexivity|]. intros n _. apply Z.
  - apply (sh_fit _ _ _ _ _ _ _ _ _ SH), A.
  - intros b n _. unfold at_key. destruct (bytes_eq_dec b a) as [-> |]; reflexivity.
Qed.

(** ** Commits *)
Lemma commit_bundle_only b : forall s, versions (fst (commit_bundle keccak root_of b s)) = versions s /\
  disk_pos (fst (commit_bundle keccak root_of b s)) = disk_pos s /\ mem_pos (fst (commit_bundle keccak root_of b s)) = mem_pos s.
Proof.
  assert (B : forall A B (m : M A) (f : A -> M B) (P : state -> state -> Prop), (forall x y z, P x y -> P y z -> P x z) ->
    (forall s, P s (fst (m s))) -> (forall a s, P s (fst (f a s))) -> forall s, P s (fst (bind m f s))).
  { intros A B m f P Tr Hm Hf s. unfold bind. specialize (Hm s). destruct (m s) as [s' [a| |]]; cbn [fst] in *; try exact Hm.
    eapply Tr; [exact Hm|apply Hf]. }
  set (P := fun s s' : state => versions s' = versions s /\ disk_pos s' = disk_pos s /\ mem_pos s' = mem_pos s).
  assert (Tr : forall x y z, P x y -> P y z -> P x z).
  { unfold P. intros x y z (-> & -> & ->) (-> & -> & ->). auto. }
  assert (R : forall s, P s s) by (unfold P; auto).
  assert (E : forall A (f : A -> M unit), (forall a s, P s (fst (f a s))) -> forall l s, P s (fst (each f l s))).
  { intros A f Hf. induction l as [|x l IH]; intros s; [apply R|]. cbn [each]. apply B; [exact Tr|apply Hf|intros _; exact IH]. }
  assert (Md : forall f, (forall s, P s (f s)) -> forall s, P s (fst (modify f s))) by (intros f Hf s; apply Hf).
  assert (Wi : forall a d s, P s (fst (wipe_account_storage keccak a d s))).
  { intros a d. unfold wipe_account_storage. apply B; [exact Tr|intros; apply R|]. intros [x|]; [|intros; apply R].
    apply B; [exact Tr| |].
    - destruct (beqb (storage_root x) (ExecDb_Model.empty_root keccak)); [intros; apply R|].
      apply B; [exact Tr|intros; apply R|]. intros _. apply Md. intros; repeat split.
    - intros _. destruct d; (apply B; [exact Tr|apply Md; intros; repeat split|intros _; apply Md; intros; repeat split]). }
  intros s. change (P s (fst (commit_bundle keccak root_of b s))). revert s. unfold commit_bundle. apply B; [exact Tr| |intros _; apply B; [exact Tr| |intros _]].
  - unfold commit_accounts. apply E. intros [a [i|]]; cbn [fst snd]; [|apply Wi].
    unfold commit_account. apply B; [exact Tr|intros; apply R|]. intros ex.
    apply B; [exact Tr|apply Md; intros; repeat split|intros _; apply Md; intros; repeat split].
  - apply E. intros x. apply Md. intros; repeat split.
  - unfold commit_storage. apply E. intros c. apply B; [exact Tr| |].
    + destruct (c_wipe c); [apply Wi|intros; apply R].
    + intros _. destruct (c_storage c) as [|x r]; [intros; apply R|].
      unfold commit_storage_changes. apply B; [exact Tr| |].
      * unfold save_storage. apply B; [exact Tr|intros; apply R|]. intros ex. apply B; [exact Tr| |].
        { match goal with |- context [if ?c then _ else _] => destruct c end; intros; apply R. }
        intros m. apply B; [exact Tr|apply Md; intros; repeat split|intros _; intros; apply R].
      * intros a. apply B; [exact Tr|apply Md; intros; repeat split|intros _; apply Md; intros; repeat split].
Qed.
(** What a commit does to a state that is as it should be. *)
Lemma commit_ok s w h b : shows s w -> fits keccak is_address is_code is_slot is_value w b -> h_number h + 1 < 2 ^ 64 ->
  exists s', commit keccak root_of h b s = (s', if beqb (root_of (trie s')) (h_state_root h) then Ok tt else Err) /\
    shows s' (see_bundle w b) /\ versions s' (root_of (trie s')) = Some (trie s') /\
    (root_of (trie s') = h_state_root h ->
       mem_pos s' = mk_pos (h_number h + 1) (h_state_root h) /\ disk_pos s' = Some (mem_pos s')) /\
    (root_of (trie s') <> h_state_root h -> mem_pos s' = mem_pos s /\ disk_pos s' = disk_pos s).
Proof.
  intros SH F Hh. destruct (commit_bundle_ok _ _ _ _ _ _ _ AP s w b SH F) as (s1 & E1 & S1).
  pose proof (commit_bundle_only b s) as (_ & D & P). rewrite E1 in D, P. cbn [fst] in D, P.
  unfold commit, bind. rewrite E1. unfold save_trie.
  destruct (beqb (root_of (trie s1)) (h_state_root h)) eqn:E.
  - unfold update_position. apply N.ltb_lt in Hh. rewrite Hh. cbn [flat saved versions disk_pos trie mem_pos].
    match goal with |- exists s', (?x, _) = _ /\ _ => exists x end. cbn [trie]. rewrite E. split; [reflexivity|]. cbn [versions trie mem_pos disk_pos]. rewrite beqb_refl. apply beqb_spec in E.
    split; [eapply shows_state; [exact S1| | |]; reflexivity|]. split; [reflexivity|]. split; [auto|]. intros C. contradiction.
  - unfold lift. match goal with |- exists s', (?x, _) = _ /\ _ => exists x end. cbn [trie]. rewrite E. split; [reflexivity|]. cbn [versions trie mem_pos disk_pos]. rewrite beqb_refl. apply beqb_false in E.
    split; [eapply shows_state; [exact S1| | |]; reflexivity|]. split; [reflexivity|]. split; [intros C; contradiction|]. auto.
Qed.

(** ** Histories *)
Lemma event_shows s w e : shows s w -> event_ok w e -> shows (fst (do_event alloc keccak root_of e s)) (see w e).
Proof.
  intros SH OK. destruct e as [h|h b]; cbn [event_ok do_event see] in *.
  - destruct OK as (Lh & Hn & Ho & Hg). unfold execute_block. destruct (N.eqb_spec (h_number h) 0) as [Z|NZ].
    + destruct (genesis_ok alloc s w SH) as (s' & E & S').
      { eapply Forall_impl; [|exact (Hg Z)]. intros x (A & V & W). cbv beta. split; [exact A|]. split; [exact V|].
        pose proof (sh_account _ _ _ _ _ _ _ _ _ SH (fst x) A) as H. rewrite W in H. apply H. }
      rewrite E. exact S'.
    + destruct (window_ok s w _ _ SH Hn Ho Lh) as (s' & E & S'). rewrite E. exact S'.
  - destruct OK as (F & Hh). destruct (commit_ok s w h b SH F Hh) as (s' & E & S' & _). rewrite E. exact S'.
Qed.
Lemma play_shows l : forall s w, shows s w -> events_ok w l -> shows (fst (play l s)) (fold_left see l w).
Proof.
  induction l as [|e l IH]; intros s w SH OK; [exact SH|]. cbn [events_ok ExecDb_Spec.events_ok] in OK. destruct OK as [O1 O2].
  pose proof (event_shows s w e SH O1) as S1. cbn [fold_left ExecDb_Spec.play].
  destruct (do_event alloc keccak root_of e s) as [s1 o]. cbn [fst] in S1. specialize (IH s1 _ S1 O2).
  destruct (play l s1) as [s2 os]. exact IH.
Qed.
Lemma play_app l r s : play (l ++ r) s = (fst (play r (fst (play l s))), snd (play l s) ++ snd (play r (fst (play l s)))).
Proof.
  revert s. induction l as [|e l IH]; intros s; cbn [app ExecDb_Spec.play fst snd]; [destruct (play r s); reflexivity|].
  destruct (do_event alloc keccak root_of e s) as [s1 o]. rewrite (IH s1). destruct (play l s1) as [s2 os]. cbn [fst snd].
  destruct (play r s2). reflexivity.
Qed.
Lemma events_app l r : forall w, events_ok w (l ++ r) <-> events_ok w l /\ events_ok (fold_left see l w) r.
Proof.
  induction l as [|e l IH]; intros w; cbn [app fold_left]; [cbn; tauto|].
  change (events_ok w (e :: l ++ r)) with (event_ok w e /\ events_ok (see w e) (l ++ r)).
  change (events_ok w (e :: l)) with (event_ok w e /\ events_ok (see w e) l). rewrite (IH (see w e)). tauto.
Qed.
Definition none_known (w : world) : Prop := w_code w (keccak []) = Some [].
Lemma none_event w e : none_known w -> event_ok w e -> none_known (see w e).
Proof.
  intros K OK. destruct e as [h|h b]; cbn [see ExecDb_Spec.see].
  - destruct (h_number h =? 0); [|exact K]. clear OK. revert w K. induction alloc as [|x l IH]; intros w K; [exact K|]. apply IH. exact K.
  - destruct OK as [[_ FC _ _] _]. unfold see_bundle.
    assert (KA : forall l w, none_known w -> none_known (fold_left see_account l w)) by (induction l as [|x l IH]; intros w' K'; [exact K'|apply IH; exact K']).
    assert (KS : forall l w, none_known w -> none_known (fold_left see_storage l w)) by (induction l as [|x l IH]; intros w' K'; [exact K'|apply IH; exact K']).
    apply KS. specialize (KA (b_accounts b) w K). revert KA. generalize (fold_left see_account (b_accounts b) w).
    induction FC as [|[k c] l [C X] _ IH]; intros w' K'; [exact K'|]. cbn [fold_left fst snd] in *. apply IH. unfold none_known, see_code; cbn [w_code fst snd].
    subst k. unfold at_key. destruct (bytes_eq_dec (keccak []) (keccak c)) as [E|]; [|exact K'].
    apply (ap_code _ _ _ _ _ _ _ AP _ _ (ap_none _ _ _ _ _ _ _ AP) C) in E. rewrite <- E. reflexivity.
Qed.
Lemma none_events l : forall w, none_known w -> events_ok w l -> none_known (fold_left see l w).
Proof. induction l as [|e l IH]; intros w K OK; [exact K|]. destruct OK as [O1 O2]. cbn [fold_left]. apply IH; [apply none_event; assumption|exact O2]. Qed.

(** ** Starting *)
Lemma start_flat s w : shows s w -> none_known w ->
  forall t v d p, shows (mk_state (put (put (flat s) (keccak_empty keccak) []) zero32 []) (saved s) v d t p)
                    w <-> shows (mk_state (flat s) (saved s) v d t p) w.
Proof.
  intros SH K t v d p.
  assert (Same : forall k, k <> zero32 -> put (put (flat s) (keccak_empty keccak) []) zero32 [] k = flat s k).
  { intros k NZ. rewrite put_other by exact NZ. unfold put. destruct (beqb k (keccak_empty keccak)) eqn:E; [|reflexivity].
    apply beqb_spec in E. subst k. unfold keccak_empty. rewrite (sh_code _ _ _ _ _ _ _ _ _ SH [] (ap_none _ _ _ _ _ _ _ AP)). symmetry. exact K. }
  assert (ZA : forall a, is_address a -> keccak a <> zero32) by (intros; apply (ap_zero_address _ _ _ _ _ _ _ AP); assumption).
  assert (ZC : forall a, is_code a -> keccak a <> zero32) by (intros; apply (ap_zero_code _ _ _ _ _ _ _ AP); assumption).
  assert (ZN : forall a, is_number a -> keccak (b256 a) <> zero32) by (intros; apply (ap_zero_number _ _ _ _ _ _ _ AP); assumption).
  split; intros [H1 H2 H3 H4 H5]; cbn [flat trie saved] in *; (constructor; cbn [flat trie saved]; [|exact H2| | |exact H5]).
  - intros a A. specialize (H1 a A). rewrite Same in H1 by (apply ZA, A). exact H1.
  - intros a A. rewrite <- (H3 a A). symmetry. apply Same, ZC, A.
  - intros a A. rewrite <- (H4 a A). symmetry. apply Same, ZN, A.
  - intros a A. specialize (H1 a A). rewrite Same by (apply ZA, A). exact H1.
  - intros a A. rewrite <- (H3 a A). apply Same, ZC, A.
  - intros a A. rewrite <- (H4 a A). apply Same, ZN, A.
Qed.
Lemma start_blank : exists s0, start keccak (blank keccak) = Ok s0 /\ shows s0 (no_world keccak).
Proof.
  unfold start, blank; cbn [disk_pos pos_root flat saved versions]. rewrite beqb_refl. eexists. split; [reflexivity|].
  assert (Z : forall k, k <> keccak [] -> k <> zero32 -> put (put no_kv (keccak_empty keccak) []) zero32 [] k = None).
  { intros k N1 N2. rewrite !put_other by assumption. reflexivity. }
  constructor; cbn [flat trie saved no_world w_account w_slot w_code w_hash].
  - intros a A. rewrite Z; [split; [reflexivity|split; reflexivity]| |apply (ap_zero_address _ _ _ _ _ _ _ AP), A].
    apply (ap_address_code _ _ _ _ _ _ _ AP); [exact A|apply (ap_none _ _ _ _ _ _ _ AP)].
  - intros a A n _. reflexivity.
  - intros c C. unfold at_key. destruct (bytes_eq_dec (keccak c) (keccak [])) as [E|NE].
    + rewrite E. rewrite put_other by (apply (ap_zero_code _ _ _ _ _ _ _ AP), (ap_none _ _ _ _ _ _ _ AP)). apply put_same.
    + apply Z; [exact NE|apply (ap_zero_code _ _ _ _ _ _ _ AP), C].
  - intros n Hn. apply Z; [|apply (ap_zero_number _ _ _ _ _ _ _ AP), Hn]. intros E.
    apply (ap_code_number _ _ _ _ _ _ _ AP [] n (ap_none _ _ _ _ _ _ _ AP) Hn). symmetry. exact E.
  - intros n h _ E. discriminate.
Qed.
Lemma none_start : none_known (no_world keccak).
Proof. apply at_key_same. Qed.
(** A start after a saved state trie. *)
Lemma start_saved s p t : disk_pos s = Some p -> pos_root p <> empty_root -> versions s (pos_root p) = Some t ->
  start keccak s = Ok (mk_state (put (put (flat s) (keccak_empty keccak) []) zero32 []) (saved s) (versions s) (Some p) t p).
Proof.
  intros D R V. unfold start. rewrite D. unfold ExecDb_Model.empty_root. apply beqb_false in R. rewrite R, V. reflexivity.
Qed.
End Runs.
